(** * Facts about strings and integer text *)

From Coq Require Import ZifyBool ZifyNat ZifyN.
From Verif Require Import BaseFacts StrModel.
Local Open Scope Z_scope.
Ltac Zify.zify_post_hook ::= Z.div_mod_to_equations.

Lemma str_eqb_eq a b : str_eqb a b = true <-> a = b.
Proof.
  revert b. induction a as [|x a IH]; intros [|y b]; cbn [str_eqb]; split; intros H; try reflexivity; try discriminate.
  - apply andb_true_iff in H as [H1 H2]. apply Z.eqb_eq in H1. apply IH in H2. congruence.
  - injection H as -> ->. rewrite Z.eqb_refl. apply IH. reflexivity.
Qed.

Lemma str_eqb_refl a : str_eqb a a = true.
Proof. apply str_eqb_eq. reflexivity. Qed.

Lemma str_eqb_neq a b : str_eqb a b = false <-> a <> b.
Proof.
  destruct (str_eqb a b) eqn:E; split; intros H; try discriminate; try reflexivity.
  - apply str_eqb_eq in E. congruence.
  - intros ->. rewrite str_eqb_refl in E. discriminate.
Qed.

(** ** Splitting *)

Lemma split_dot_nonempty s : split_dot s <> [].
Proof.
  destruct s as [|c s]; cbn [split_dot]; [discriminate|].
  destruct (c =? 46); [discriminate|]. destruct (split_dot s); discriminate.
Qed.

Definition dotless (s : str) : Prop := ~ In 46 s.

(** Joining with dots. *)
Fixpoint join_dot (l : list str) : str :=
  match l with
  | [] => []
  | [s] => s
  | s :: l' => s ++ 46 :: join_dot l'
  end.

Lemma split_dot_app s t : dotless s -> split_dot (s ++ 46 :: t) = s :: split_dot t.
Proof.
  intros H. induction s as [|c s IH].
  - reflexivity.
  - cbn [app split_dot]. destruct (Z.eqb_spec c 46) as [->|Hne]; [exfalso; apply H; left; reflexivity|].
    rewrite IH; [reflexivity|]. intros Hin. apply H. right. exact Hin.
Qed.

Lemma split_dot_single s : dotless s -> split_dot s = [s].
Proof.
  intros H. induction s as [|c s IH]; [reflexivity|].
  cbn [split_dot]. destruct (Z.eqb_spec c 46) as [->|Hne]; [exfalso; apply H; left; reflexivity|].
  rewrite IH; [reflexivity|]. intros Hin. apply H. right. exact Hin.
Qed.

Lemma split_join l : l <> [] -> Forall dotless l -> split_dot (join_dot l) = l.
Proof.
  induction l as [|s l IH]; intros Hne HF; [congruence|].
  inversion HF as [|? ? Hs Hl]; subst. destruct l as [|s' l'].
  - apply split_dot_single. exact Hs.
  - change (join_dot (s :: s' :: l')) with (s ++ 46 :: join_dot (s' :: l')).
    rewrite split_dot_app by exact Hs. rewrite IH by (discriminate || exact Hl). reflexivity.
Qed.

(** ** Decimal text *)

Lemma digits_fold t : forall v : Z,
  fold_left (fun acc c => 10 * acc + (c - 48)) t v = v * 10 ^ Z.of_nat (length t) + digits_value t.
Proof.
  unfold digits_value. induction t as [|c t IH]; intros v; cbn [fold_left length].
  - change (10 ^ Z.of_nat 0) with 1. lia.
  - rewrite IH. rewrite (IH (10 * 0 + (c - 48))).
    rewrite Nat2Z.inj_succ, Z.pow_succ_r by lia. ring.
Qed.

Lemma digits_value_app s t :
  digits_value (s ++ t) = digits_value s * 10 ^ Z.of_nat (length t) + digits_value t.
Proof. unfold digits_value at 1. rewrite fold_left_app. apply digits_fold. Qed.

Lemma show_digits_acc fuel z acc : show_digits fuel z acc = show_digits fuel z [] ++ acc.
Proof.
  revert z acc. induction fuel as [|f IH]; intros z acc; cbn [show_digits]; [reflexivity|].
  destruct (z <? 10); [reflexivity|].
  rewrite (IH (z / 10) (48 + z mod 10 :: acc)), (IH (z / 10) [48 + z mod 10]), <- app_assoc. reflexivity.
Qed.

Lemma log2_div10 z : 10 <= z -> (Z.to_nat (Z.log2 (z / 10)) < Z.to_nat (Z.log2 z))%nat.
Proof.
  intros H. assert (1 <= z / 10) by lia.
  assert (Z.log2 (z / 10) + 1 <= Z.log2 z).
  { replace (Z.log2 (z / 10) + 1) with (Z.log2 (2 * (z / 10))).
    - apply Z.log2_le_mono. lia.
    - rewrite Z.log2_double by lia. lia. }
  pose proof (Z.log2_nonneg (z / 10)). lia.
Qed.

(** Digits of a number: all digits, right value, no superfluous leading zero. *)
Lemma show_digits_spec fuel z :
  0 <= z -> (Z.to_nat (Z.log2 z) < fuel)%nat ->
  let s := show_digits fuel z [] in
  forallb is_digit s = true /\ digits_value s = z /\
  exists c r, s = c :: r /\ (z < 10 -> r = [] /\ c = 48 + z) /\ (10 <= z -> c <> 48).
Proof.
  revert z. induction fuel as [|f IH]; intros z Hz Hf; [lia|]. cbn [show_digits].
  destruct (Z.ltb_spec z 10) as [H|H]; cbv zeta.
  - split; [cbn [forallb]; unfold is_digit; lia|]. split; [unfold digits_value; cbn [fold_left]; lia|].
    exists (48 + z), []. repeat split; try lia.
  - rewrite show_digits_acc. pose proof (log2_div10 z H).
    destruct (IH (z / 10) ltac:(lia) ltac:(lia)) as (H1 & H2 & c & r & E & Hlt & Hge).
    split; [|split].
    + rewrite forallb_app, H1. cbn [forallb]. unfold is_digit. lia.
    + rewrite digits_value_app, H2. unfold digits_value. cbn [fold_left length]. change (Z.of_nat 1) with 1. lia.
    + rewrite E. exists c, (r ++ [48 + z mod 10]). split; [reflexivity|]. split; [lia|]. intros _.
      destruct (Z.lt_ge_cases (z / 10) 10) as [Hl|Hg].
      * destruct (Hlt Hl) as [_ ->]. lia.
      * apply Hge. exact Hg.
Qed.

Lemma show_int_nonneg z : 0 <= z -> show_int z = show_digits (S (Z.to_nat (Z.log2 z))) z [].
Proof. intros H. unfold show_int. destruct (Z.ltb_spec z 0); [lia|reflexivity]. Qed.

Lemma show_int_neg z : z < 0 -> show_int z = 45 :: show_int (- z).
Proof.
  intros H. unfold show_int. destruct (Z.ltb_spec z 0); [|lia].
  destruct (Z.ltb_spec (- z) 0); [lia|reflexivity].
Qed.

Lemma show_int_digits z : 0 <= z ->
  forallb is_digit (show_int z) = true /\ digits_value (show_int z) = z /\
  exists c r, show_int z = c :: r /\ (z < 10 -> r = [] /\ c = 48 + z) /\ (10 <= z -> c <> 48).
Proof.
  intros H. rewrite show_int_nonneg by exact H. apply show_digits_spec; [exact H|lia].
Qed.

(** Formatting and parsing an integer of any range gives it back. *)
Lemma parse_show lo hi z : lo <= z <= hi -> parse_int lo hi (show_int z) = Some z.
Proof.
  intros Hr. destruct (Z.lt_ge_cases z 0) as [Hn|Hp].
  - rewrite show_int_neg by exact Hn. unfold parse_int.
    change (45 =? 43) with false. change (45 =? 45) with true.
    replace (lo <? 0) with true by lia. cbn [andb].
    destruct (show_int_digits (- z) ltac:(lia)) as (H1 & H2 & c & r & E & _).
    destruct (show_int (- z)) as [|c' r'] eqn:E'; [discriminate|]. rewrite H1, H2.
    replace ((lo <=? - - z) && (- - z <=? hi)) with true by lia. f_equal. lia.
  - destruct (show_int_digits z ltac:(lia)) as (H1 & H2 & c & r & E & _).
    unfold parse_int. rewrite E in *. pose proof H1 as H1'. cbn [forallb] in H1'.
    assert (is_digit c = true) as Hc by (apply andb_true_iff in H1'; tauto). unfold is_digit in Hc.
    replace (c =? 43) with false by lia. replace (c =? 45) with false by lia. cbn [andb].
    rewrite H1, H2. replace ((lo <=? z) && (z <=? hi)) with true by lia. reflexivity.
Qed.

Lemma parse_usize_show n : Z.of_nat n < 2 ^ 64 -> parse_usize (show_int (Z.of_nat n)) = Some n.
Proof.
  intros H. unfold parse_usize. rewrite parse_show by lia. cbn [option_map]. rewrite Nat2Z.id. reflexivity.
Qed.

(** An accepted text is an optional sign followed by at least one digit, and denotes its value. *)
Lemma parse_int_sound lo hi s z :
  parse_int lo hi s = Some z ->
  lo <= z <= hi /\
  exists ds, ds <> [] /\ forallb is_digit ds = true /\
    ((s = ds \/ s = 43 :: ds) /\ z = digits_value ds \/ (s = 45 :: ds /\ lo < 0 /\ z = - digits_value ds)).
Proof.
  intros H. unfold parse_int in H. destruct s as [|c s]; [discriminate|].
  destruct (Z.eqb_spec c 43) as [->|H43].
  - destruct s as [|d s]; [discriminate|]. destruct (forallb is_digit (d :: s)) eqn:E; [|discriminate].
    destruct ((lo <=? digits_value (d :: s)) && (digits_value (d :: s) <=? hi)) eqn:Er; [|discriminate].
    injection H as <-. split; [lia|]. exists (d :: s). split; [discriminate|]. split; [exact E|]. left. auto.
  - destruct ((c =? 45) && (lo <? 0)) eqn:E45.
    + destruct s as [|d s]; [discriminate|]. destruct (forallb is_digit (d :: s)) eqn:E; [|discriminate].
      destruct ((lo <=? - digits_value (d :: s)) && (- digits_value (d :: s) <=? hi)) eqn:Er; [|discriminate].
      injection H as <-. split; [lia|]. exists (d :: s). split; [discriminate|]. split; [exact E|]. right.
      split; [f_equal; lia|]. split; [lia|reflexivity].
    + destruct (forallb is_digit (c :: s)) eqn:E; [|discriminate].
      destruct ((lo <=? digits_value (c :: s)) && (digits_value (c :: s) <=? hi)) eqn:Er; [|discriminate].
      injection H as <-. split; [lia|]. exists (c :: s). split; [discriminate|]. split; [exact E|]. left. auto.
Qed.

Lemma show_int_dotless z : dotless (show_int z).
Proof.
  unfold dotless. assert (G : forall s, forallb is_digit s = true -> ~ In 46 s).
  { intros s H Hin. rewrite forallb_forall in H. specialize (H _ Hin). discriminate. }
  destruct (Z.lt_ge_cases z 0) as [Hn|Hp].
  - rewrite show_int_neg by exact Hn. intros [E|Hin]; [discriminate|].
    destruct (show_int_digits (- z) ltac:(lia)) as (H1 & _). exact (G _ H1 Hin).
  - destruct (show_int_digits z ltac:(lia)) as (H1 & _). exact (G _ H1).
Qed.
