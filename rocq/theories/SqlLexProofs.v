(** * The SQL lexer reads the words of SQL *)

From Coq Require Import Strings.String.
From Verif Require Import Base StrModel JsonModel LexModel LexSpec LexProofs LrModel SqlTables SqlGrammar SqlWords SqlParseModel.
Local Open Scope Z_scope.
Local Open Scope list_scope.

Notation size := List.length.

(** ** The five patterns that are not fixed texts *)

Definition none (w : str) : Prop := w = [].

Lemma good_last k : good (Star k) (many k none).
Proof.
  apply (good_same (Seq (Star k) Eps)); [reflexivity|]. apply good_star; [apply good_eps|]. intros c w H. discriminate.
Qed.

Definition c_digit : cls := Ranges [(48, 57)].
Definition c_sign : cls := Ranges [(43, 43); (45, 45)].
Definition c_exp : cls := Ranges [(69, 69)].
Definition c_dot : cls := Ranges [(46, 46)].
Definition c_quote : cls := Ranges [(39, 39)].
Definition c_body : cls := Ranges [(32, 38); (40, 126); (128, 1114111)].
Definition c_hex : cls := Ranges [(48, 57); (65, 70); (97, 102)].
Definition c_start : cls := Ranges [(65, 90); (95, 95); (97, 122)].
Definition c_name : cls := Ranges [(48, 57); (65, 90); (95, 95); (97, 122)].

Ltac cls := cbn [in_cls existsb fst snd]; lia.
Ltac cls_in H := cbn [in_cls existsb fst snd] in H; lia.

Lemma digit_cls c : in_cls c_digit c = true <-> digit c.
Proof. unfold digit, c_digit. cls. Qed.
Lemma hex_cls c : in_cls c_hex c = true <-> hex_digit c.
Proof. unfold hex_digit, digit, c_hex. cls. Qed.
Lemma start_cls c : in_cls c_start c = true <-> name_start c.
Proof. unfold name_start, c_start. cls. Qed.
Lemma name_cls c : in_cls c_name c = true <-> name_char c.
Proof. unfold name_char, name_start, digit, c_name. cls. Qed.
Lemma body_cls c : in_cls c_body c = true <-> quotable c.
Proof. unfold quotable, c_body. cls. Qed.
Lemma single_cls x c : in_cls (Ranges [(x, x)]) c = true <-> c = x.
Proof. cls. Qed.
Lemma sign_cls c : in_cls c_sign c = true <-> c = 43 \/ c = 45.
Proof. unfold c_sign. cls. Qed.

Lemma Forall_fwd (P Q : Z -> Prop) l : (forall x, P x <-> Q x) -> Forall P l -> Forall Q l.
Proof. intros E. apply Forall_impl. apply E. Qed.
Lemma Forall_bwd (P Q : Z -> Prop) l : (forall x, P x <-> Q x) -> Forall Q l -> Forall P l.
Proof. intros E. apply Forall_impl. apply E. Qed.

Definition digits1 : str -> Prop := starts c_digit (many c_digit none).
Definition some_digits (w : str) : Prop := w <> [] /\ Forall digit w.

Lemma many_none k w : many k none w <-> Forall (fun c => in_cls k c = true) w.
Proof.
  split.
  - intros (a & b & -> & F & ->). rewrite app_nil_r. exact F.
  - intros F. exists w, []. rewrite app_nil_r. split; [reflexivity|]. split; [exact F|reflexivity].
Qed.

Lemma digits1_spec w : digits1 w <-> some_digits w.
Proof.
  unfold digits1, starts, some_digits. split.
  - intros (c & w' & -> & D & M). apply many_none in M. split; [discriminate|]. constructor; [apply digit_cls; exact D|].
    exact (Forall_fwd _ _ _ digit_cls M).
  - intros [N F]. destruct w as [|c w]; [contradiction|]. inversion F as [|? ? D M]; subst. exists c, w.
    split; [reflexivity|]. split; [apply digit_cls; exact D|]. apply many_none. exact (Forall_bwd _ _ _ digit_cls M).
Qed.

Definition digits_re : re := Seq (Cls c_digit) (Star c_digit).
Lemma good_digits : good digits_re some_digits.
Proof. eapply good_iff; [apply good_cls; apply good_last|]. apply digits1_spec. Qed.

Definition exp_re : re := LexModel.Opt (Seq (Cls c_exp) (Seq (LexModel.Opt (Cls c_sign)) digits_re)).

Lemma good_exp : good exp_re exponent.
Proof.
  eapply good_iff.
  - apply (good_same (Seq exp_re Eps)); [reflexivity|]. unfold exp_re.
    eapply (good_opt c_exp (Seq (LexModel.Opt (Cls c_sign)) digits_re) Eps).
    + apply (good_same (Seq (LexModel.Opt (Seq (Cls c_sign) Eps)) digits_re)); [reflexivity|].
      eapply (good_opt c_sign Eps digits_re).
      * apply (good_same digits_re); [reflexivity|]. exact good_digits.
      * exact good_digits.
      * intros c w [_ F]. apply Forall_inv in F. unfold digit in F. unfold c_sign. cls.
    + apply good_eps.
    + intros c w H. discriminate.
  - intros w. unfold exponent. cbv beta. split.
    + intros [->|(c & w' & -> & E & [[N F]|(d & w2 & -> & Sg & N & F)])]; [left; reflexivity|..];
        apply single_cls in E as ->; right.
      * exists [], w'. cbn. auto.
      * exists [d], w2. split; [reflexivity|]. split; [|auto]. apply sign_cls in Sg as [->| ->]; auto.
    + intros [->|(sg & ds & -> & Sg & N & F)]; [left; reflexivity|]. right. exists 69, (sg ++ ds).
      split; [reflexivity|]. split; [apply single_cls; reflexivity|].
      destruct Sg as [->|[->| ->]]; [left; split; assumption|..]; right.
      * exists 43, ds. split; [reflexivity|]. split; [apply sign_cls; auto|split; assumption].
      * exists 45, ds. split; [reflexivity|]. split; [apply sign_cls; auto|split; assumption].
Qed.

Lemma exponent_head c w : exponent (c :: w) -> c = 69.
Proof. intros [H|(sg & ds & H & _)]; [discriminate|]. injection H as -> _. reflexivity. Qed.

Definition part_re : re := Seq (LexModel.Opt (Seq (Cls c_dot) (Star c_digit))) exp_re.
Definition part (w : str) : Prop := exists f e, w = f ++ e /\ (f = [] \/ exists fs, f = 46 :: fs /\ Forall digit fs) /\ exponent e.

Lemma good_part : good part_re part.
Proof.
  eapply good_iff.
  - eapply (good_opt c_dot (Star c_digit) exp_re); [apply good_star; [apply good_exp|]|apply good_exp|].
    + intros c w H. apply exponent_head in H as ->. reflexivity.
    + intros c w H. apply exponent_head in H as ->. reflexivity.
  - intros w. unfold part. cbv beta. split.
    + intros [E|(c & w' & -> & D & (a & e & -> & F & E))].
      * exists [], w. auto.
      * apply single_cls in D as ->. exists (46 :: a), e. split; [reflexivity|]. split; [|exact E]. right. exists a.
        split; [reflexivity|]. exact (Forall_fwd _ _ _ digit_cls F).
    + intros (f & e & -> & [->|(fs & -> & F)] & E); [left; exact E|]. right. exists 46, (fs ++ e). split; [reflexivity|].
      split; [reflexivity|]. exists fs, e. split; [reflexivity|]. split; [|exact E]. exact (Forall_bwd _ _ _ digit_cls F).
Qed.

Lemma part_head c w : part (c :: w) -> c = 46 \/ c = 69.
Proof.
  intros (f & e & E & [->|(fs & -> & _)] & X).
  - cbn in E. subst e. right. exact (exponent_head _ _ X).
  - injection E as -> _. auto.
Qed.

Definition number_re : re := Seq (Cls c_digit) (Seq (Star c_digit) part_re).

Lemma good_number : good number_re number.
Proof.
  eapply good_iff.
  - apply good_cls. apply good_star; [apply good_part|]. intros c w H. apply part_head in H as [->| ->]; reflexivity.
  - intros w. unfold number, starts, many. split.
    + intros (c & w' & -> & D & (a & b & -> & F & (f & e & -> & Hf & He))). exists (c :: a), f, e.
      split; [reflexivity|]. split; [discriminate|]. split; [|auto]. constructor; [apply digit_cls; exact D|].
      exact (Forall_fwd _ _ _ digit_cls F).
    + intros (ds & f & e & -> & N & F & Hf & He). destruct ds as [|c a]; [contradiction|]. inversion F as [|? ? D F']; subst.
      exists c, (a ++ f ++ e). split; [reflexivity|]. split; [apply digit_cls; exact D|]. exists a, (f ++ e).
      split; [reflexivity|]. split; [|exists f, e; auto]. exact (Forall_bwd _ _ _ digit_cls F').
Qed.

Definition fraction_re : re := Seq (Cls c_dot) (Seq (Cls c_digit) (Seq (Star c_digit) exp_re)).

Lemma good_fraction : good fraction_re fraction.
Proof.
  eapply good_iff.
  - apply good_cls. apply good_cls. apply good_star; [apply good_exp|]. intros c w H. apply exponent_head in H as ->. reflexivity.
  - intros w. unfold fraction, starts, many. split.
    + intros (c & w' & -> & K & (d & w2 & -> & D & (a & e & -> & F & E))). apply single_cls in K as ->. exists (d :: a), e.
      split; [reflexivity|]. split; [discriminate|]. split; [|exact E]. constructor; [apply digit_cls; exact D|].
      exact (Forall_fwd _ _ _ digit_cls F).
    + intros (ds & e & -> & N & F & E). destruct ds as [|c a]; [contradiction|]. inversion F as [|? ? D F']; subst.
      exists 46, ((c :: a) ++ e). split; [reflexivity|]. split; [reflexivity|]. exists c, (a ++ e). split; [reflexivity|].
      split; [apply digit_cls; exact D|]. exists a, e. split; [reflexivity|]. split; [|exact E].
      exact (Forall_bwd _ _ _ digit_cls F').
Qed.

Definition hex_re : re := Seq (Cls (Ranges [(48, 48)])) (Seq (Cls (Ranges [(120, 120)])) (Seq (Cls c_hex) (Star c_hex))).

Lemma good_hex : good hex_re hexadecimal.
Proof.
  eapply good_iff.
  - apply good_cls. apply good_cls. apply good_cls. apply good_last.
  - intros w. unfold hexadecimal, starts. split.
    + intros (c & ? & -> & K & (d & ? & -> & K2 & (h & w' & -> & H & M))). apply single_cls in K as ->. apply single_cls in K2 as ->.
      exists (h :: w'). split; [reflexivity|]. split; [discriminate|]. constructor; [apply hex_cls; exact H|].
      apply many_none in M. exact (Forall_fwd _ _ _ hex_cls M).
    + intros (ds & -> & N & F). destruct ds as [|h w']; [contradiction|]. inversion F as [|? ? H M]; subst.
      exists 48, (120 :: h :: w'). split; [reflexivity|]. split; [reflexivity|]. exists 120, (h :: w'). split; [reflexivity|].
      split; [reflexivity|]. exists h, w'. split; [reflexivity|]. split; [apply hex_cls; exact H|]. apply many_none.
      exact (Forall_bwd _ _ _ hex_cls M).
Qed.

Definition name_re : re := Seq (Cls c_start) (Star c_name).

Lemma good_name : good name_re identifier.
Proof.
  eapply good_iff.
  - apply good_cls. apply good_last.
  - intros w. unfold identifier, starts. split.
    + intros (c & w' & -> & H & M). exists c, w'. split; [reflexivity|]. split; [apply start_cls; exact H|].
      apply many_none in M. exact (Forall_fwd _ _ _ name_cls M).
    + intros (c & w' & -> & H & M). exists c, w'. split; [reflexivity|]. split; [apply start_cls; exact H|].
      apply many_none. exact (Forall_bwd _ _ _ name_cls M).
Qed.

Definition string_re : re := Seq (Cls c_quote) (Seq (Star c_body) (Cls c_quote)).

Lemma good_string : good string_re quoted.
Proof.
  eapply good_iff.
  - apply good_cls. apply good_star.
    + apply (good_same (Seq (Cls c_quote) Eps)); [reflexivity|]. apply good_cls. apply good_eps.
    + intros c w (d & w' & E & Q & _). injection E as -> _. apply single_cls in Q as ->. reflexivity.
  - intros w. unfold quoted, starts, many. split.
    + intros (c & ? & -> & Q & (a & b & -> & F & (d & ? & -> & Q2 & ->))). apply single_cls in Q as ->. apply single_cls in Q2 as ->.
      exists a. split; [reflexivity|]. exact (Forall_fwd _ _ _ body_cls F).
    + intros (cs & -> & F). exists 39, (cs ++ [39]). split; [reflexivity|]. split; [reflexivity|]. exists cs, [39].
      split; [reflexivity|]. split; [exact (Forall_bwd _ _ _ body_cls F)|].
      exists 39, []. auto.
Qed.

(** ** Fixed texts *)

(** The class of a letter. *)
Definition letter_cls (k : Z) : list (Z * Z) :=
  if (65 <=? k) && (k <=? 90) then
    [(k, k); (k + 32, k + 32)] ++ (if k =? 83 then [(383, 383)] else []) ++ (if k =? 75 then [(8490, 8490)] else [])
  else [(k, k)].

Lemma letter_cls_spec k c : in_cls (Ranges (letter_cls k)) c = true <-> same_letter c k.
Proof.
  unfold letter_cls, same_letter. cbn [in_cls]. destruct ((65 <=? k) && (k <=? 90)) eqn:L.
  - destruct (Z.eqb_spec k 83), (Z.eqb_spec k 75); cbn [app existsb fst snd]; lia.
  - cbn [existsb fst snd]. lia.
Qed.

Lemma good_spelled (l : str) : good (fixed (map letter_cls l)) (fun w => Forall2 same_letter w l).
Proof.
  eapply good_iff; [apply good_fixed|]. intros w. cbv beta. split; revert w; induction l as [|k l IH]; intros w F; inversion F; subst; constructor;
    try apply IH; try assumption; apply letter_cls_spec; assumption.
Qed.

Definition terminal_name (t : nat) : string := nth t terminals ""%string.

Lemma fixed_patterns :
  skipn 5 (firstn 83 sql_patterns) =
  map (fun j => (fixed (map letter_cls (lit (terminal_name (sql_terminal j)))), false)) (seq 5 78).
Proof. vm_compute. reflexivity. Qed.

(** ** All patterns *)

Definition W (j : nat) (w : str) : Prop :=
  if (j <? 83)%nat then shape (terminal_name (sql_terminal j)) w else Forall (fun c => is_whitespace c = true) w.

(** The terminals with a shape of their own. *)
Definition special (t : string) : bool := existsb (String.eqb t) ["ID"; "HEX_LIT"; "NUMERIC_LIT_1"; "NUMERIC_LIT_2"; "STRING_LIT"]%string.

Lemma shape_fixed t w : special t = false -> shape t w = Forall2 same_letter w (lit t).
Proof.
  unfold special, shape. cbn [existsb]. destruct (t =? "ID")%string, (t =? "HEX_LIT")%string, (t =? "NUMERIC_LIT_1")%string,
    (t =? "NUMERIC_LIT_2")%string, (t =? "STRING_LIT")%string; try discriminate. reflexivity.
Qed.

Lemma fixed_not_special j : (5 <= j < 83)%nat -> special (terminal_name (sql_terminal j)) = false.
Proof.
  intros H. assert (A : forallb (fun j => negb (special (terminal_name (sql_terminal j)))) (seq 5 78) = true) by (vm_compute; reflexivity).
  rewrite forallb_forall in A. specialize (A j). rewrite in_seq in A. specialize (A ltac:(lia)). destruct (special _); [discriminate|reflexivity].
Qed.

Lemma W_fixed j w : (5 <= j < 83)%nat -> W j w = Forall2 same_letter w (lit (terminal_name (sql_terminal j))).
Proof. intros H. unfold W. replace (j <? 83)%nat with true by lia. apply shape_fixed. apply fixed_not_special. exact H. Qed.

Lemma patterns_good j p : nth_error sql_patterns j = Some p -> good (fst p) (W j).
Proof.
  intros E. assert (L : (j < 84)%nat) by (change 84%nat with (size sql_patterns); apply nth_error_Some; congruence).
  destruct (Nat.lt_ge_cases j 5) as [C|C].
  - destruct j as [|[|[|[|[|j]]]]]; [..|lia]; injection E as <-.
    + exact good_string.
    + exact good_hex.
    + exact good_number.
    + exact good_name.
    + exact good_fraction.
  - destruct (Nat.lt_ge_cases j 83) as [D|D].
    + assert (F : nth_error (skipn 5 (firstn 83 sql_patterns)) (j - 5) = Some p).
      { clear L. do 5 (destruct j as [|j]; [lia|]). cbn [Nat.sub]. rewrite Nat.sub_0_r.
        change (nth_error (firstn 78 (skipn 5 sql_patterns)) j = Some p). change (nth_error (skipn 5 sql_patterns) j = Some p) in E.
        revert D E. generalize (skipn 5 sql_patterns). intros l D. assert (J : (j < 78)%nat) by lia. clear C D.
        revert j J. generalize 78%nat as n. induction l as [|x l IH]; intros [|n] [|j] J E; try lia; try discriminate; cbn in *; try exact E.
        apply IH; [lia|exact E]. }
      rewrite fixed_patterns in F. rewrite nth_error_map in F.
      destruct (nth_error (seq 5 78) (j - 5)) as [i|] eqn:S; [|discriminate]. injection F as <-.
      assert (i = j) as ->.
      { apply (nth_error_nth _ _ 0%nat) in S. rewrite seq_nth in S by lia. lia. }
      eapply good_iff; [apply good_spelled|]. intros w. cbv beta. rewrite W_fixed by lia. reflexivity.
    + assert (j = 83%nat) as -> by lia. injection E as <-. eapply good_iff; [apply good_last|]. intros w. rewrite many_none. reflexivity.
Qed.

(** ** Which words can be read in two ways *)

Lemma flags j r sk : nth_error sql_patterns j = Some (r, sk) -> sk = (j =? 83)%nat.
Proof.
  intros E. assert (A : map snd sql_patterns = map (fun j => (j =? 83)%nat) (seq 0 84)) by reflexivity.
  assert (L : (j < 84)%nat) by (change 84%nat with (size sql_patterns); apply nth_error_Some; congruence).
  apply (map_nth_error snd) in E. rewrite A, nth_error_map in E.
  destruct (nth_error (seq 0 84) j) as [i|] eqn:S; [|discriminate]. injection E as <-.
  apply (nth_error_nth _ _ 0%nat) in S. rewrite seq_nth in S by exact L. cbn [snd]. f_equal. lia.
Qed.

(** How the words of a pattern start. *)
Definition head_ok (j : nat) (c : Z) : Prop :=
  match j with
  | 0%nat => c = 39
  | 1%nat | 2%nat => digit c
  | 3%nat => name_start c
  | 4%nat => c = 46
  | _ => exists k, hd_error (lit (terminal_name (sql_terminal j))) = Some k /\ same_letter c k
  end.

Lemma W_head j w : (j < 83)%nat -> W j w -> exists c w', w = c :: w' /\ head_ok j c.
Proof.
  intros L H. destruct (Nat.lt_ge_cases j 5) as [C|C].
  - destruct j as [|[|[|[|[|j]]]]]; [..|lia].
    + destruct H as (cs & -> & _). eexists _, _. split; reflexivity.
    + destruct H as (ds & -> & _). eexists _, _. split; [reflexivity|]. cbn. unfold digit. lia.
    + destruct H as (ds & f & e & -> & N & F & _). destruct ds as [|c ds]; [contradiction|]. apply Forall_inv in F.
      eexists _, _. split; [reflexivity|exact F].
    + destruct H as (c & cs & -> & N & _). eexists _, _. split; [reflexivity|exact N].
    + destruct H as (ds & e & -> & _). eexists _, _. split; reflexivity.
  - rewrite W_fixed in H by lia. destruct (lit (terminal_name (sql_terminal j))) as [|k l] eqn:E.
    + exfalso. assert (A : forallb (fun j => match lit (terminal_name (sql_terminal j)) with [] => false | _ => true end) (seq 5 78) = true) by (vm_compute; reflexivity).
      rewrite forallb_forall in A. specialize (A j). rewrite in_seq in A. specialize (A ltac:(lia)). rewrite E in A. discriminate.
    + inversion H as [|c ? w' ? S F]; subst. exists c, w'. split; [reflexivity|].
      do 5 (destruct j as [|j]; [lia|]). cbn [head_ok]. rewrite E. exists k. auto.
Qed.

(** The first letters of fixed texts: capitals, or one of the marks. *)
Definition first_ok (k : Z) : bool := ((65 <=? k) && (k <=? 90)) || existsb (Z.eqb k) [33; 40; 41; 42; 43; 44; 45; 46; 47; 60; 61; 62; 124].

Lemma fixed_first j k : (5 <= j < 83)%nat -> hd_error (lit (terminal_name (sql_terminal j))) = Some k -> first_ok k = true.
Proof.
  intros H E.
  assert (A : forallb (fun j => match hd_error (lit (terminal_name (sql_terminal j))) with Some k => first_ok k | None => true end) (seq 5 78) = true) by (vm_compute; reflexivity).
  rewrite forallb_forall in A. specialize (A j). rewrite in_seq in A. specialize (A ltac:(lia)). rewrite E in A. exact A.
Qed.

Lemma head_kind j c : (j < 83)%nat -> head_ok j c ->
  is_whitespace c = false /\ ((5 <= j)%nat -> c <> 39 /\ ~ digit c).
Proof.
  intros L H. destruct (Nat.lt_ge_cases j 5) as [C|C].
  - split; [|lia]. destruct j as [|[|[|[|[|j]]]]]; [..|lia]; cbn [head_ok] in H; unfold digit, name_start in H; unfold is_whitespace; lia.
  - do 5 (destruct j as [|j]; [lia|]). cbn [head_ok] in H. destruct H as (k & E & S). apply fixed_first in E; [|lia].
    unfold first_ok in E. cbn [existsb] in E. unfold same_letter in S. unfold is_whitespace, digit. split; [lia|]. intros _. lia.
Qed.

Lemma full j : (j < 83)%nat -> ~ W j [].
Proof. intros L H. apply W_head in H as (c & w' & E & _); [discriminate|exact L]. Qed.

Lemma dark j c w : (j < 83)%nat -> W j (c :: w) -> is_whitespace c = false.
Proof. intros L H. apply W_head in H as (c' & w' & E & K); [|exact L]. injection E as -> ->. exact (proj1 (head_kind j c' L K)). Qed.

(** Numbers of patterns and of terminals. *)
Definition pattern_of (t : nat) : nat := match find (fun e => (snd e =? t)%nat) sql_token_index with Some (i, _) => i | None => 0%nat end.

Lemma pattern_terminal t : (t < 83)%nat -> (pattern_of t < 83)%nat /\ sql_terminal (pattern_of t) = t.
Proof.
  intros L. assert (A : forallb (fun t => ((pattern_of t <? 83) && (sql_terminal (pattern_of t) =? t))%nat) (seq 0 83) = true) by (vm_compute; reflexivity).
  rewrite forallb_forall in A. specialize (A t). rewrite in_seq in A. specialize (A ltac:(lia)). apply andb_prop in A as [A B].
  apply Nat.ltb_lt in A. apply Nat.eqb_eq in B. auto.
Qed.

Lemma terminal_pattern j : (j < 83)%nat -> (sql_terminal j < 83)%nat /\ pattern_of (sql_terminal j) = j.
Proof.
  intros L. assert (A : forallb (fun t => ((sql_terminal t <? 83) && (pattern_of (sql_terminal t) =? t))%nat) (seq 0 83) = true) by (vm_compute; reflexivity).
  rewrite forallb_forall in A. specialize (A j). rewrite in_seq in A. specialize (A ltac:(lia)). apply andb_prop in A as [A B].
  apply Nat.ltb_lt in A. apply Nat.eqb_eq in B. auto.
Qed.

Lemma word_pattern t w : sql_word t w <-> exists j, (j < 83)%nat /\ t = sql_terminal j /\ W j w.
Proof.
  unfold sql_word, W. split.
  - intros (name & N & S). assert (L : (t < 83)%nat) by (change 83%nat with (size terminals); apply nth_error_Some; congruence).
    destruct (pattern_terminal t L) as [P Q]. exists (pattern_of t). split; [exact P|]. split; [auto|].
    replace (pattern_of t <? 83)%nat with true by lia. rewrite Q. unfold terminal_name. rewrite (nth_error_nth _ _ ""%string N). exact S.
  - intros (j & L & -> & S). replace (j <? 83)%nat with true in S by lia. destruct (terminal_pattern j L) as [P _].
    exists (terminal_name (sql_terminal j)). split; [|exact S]. unfold terminal_name. apply nth_error_nth'. exact P.
Qed.

(** The letters of fixed texts tell each other apart. *)
Definition clean (k : Z) : bool := (k <=? 96) || (k =? 124).

Lemma same_letter_fun c k k' : clean k = true -> clean k' = true -> same_letter c k -> same_letter c k' -> k = k'.
Proof. unfold clean, same_letter. lia. Qed.

Lemma spelled_fun w l l' : forallb clean l = true -> forallb clean l' = true ->
  Forall2 same_letter w l -> Forall2 same_letter w l' -> l = l'.
Proof.
  intros C C' F. revert l' C'. induction F as [|c k w l S F IH]; intros l' C' F'; inversion F' as [|? k' ? l0 S' F0]; subst; [reflexivity|].
  cbn [forallb] in C, C'. apply andb_prop in C as [C1 C2]. apply andb_prop in C' as [C1' C2'].
  rewrite (same_letter_fun _ _ _ C1 C1' S S'). f_equal. apply IH; assumption.
Qed.

Lemma fixed_clean j : (5 <= j < 83)%nat -> forallb clean (lit (terminal_name (sql_terminal j))) = true.
Proof.
  intros H. assert (A : forallb (fun j => forallb clean (lit (terminal_name (sql_terminal j)))) (seq 5 78) = true) by (vm_compute; reflexivity).
  rewrite forallb_forall in A. apply A. apply in_seq. lia.
Qed.

Definition same_text (l l' : str) : bool := if list_eq_dec Z.eq_dec l l' then true else false.

Lemma fixed_differ i j : (5 <= j < i)%nat -> (i < 83)%nat -> lit (terminal_name (sql_terminal i)) <> lit (terminal_name (sql_terminal j)).
Proof.
  intros H L E.
  assert (A : forallb (fun i => forallb (fun j => negb (same_text (lit (terminal_name (sql_terminal i))) (lit (terminal_name (sql_terminal j)))))
    (seq 5 (i - 5))) (seq 5 78) = true) by (vm_compute; reflexivity).
  rewrite forallb_forall in A. specialize (A i). rewrite in_seq in A. specialize (A ltac:(lia)).
  rewrite forallb_forall in A. specialize (A j). rewrite in_seq in A. specialize (A ltac:(lia)).
  unfold same_text in A. rewrite E in A. destruct (list_eq_dec Z.eq_dec _ _); [discriminate|congruence].
Qed.

Lemma number_second w c : W 2 (48 :: c :: w) -> c <> 120.
Proof.
  intros (ds & f & e & E & N & F & Hf & He) ->. destruct ds as [|d ds]; [contradiction|]. injection E as <- E.
  destruct ds as [|d ds].
  - destruct Hf as [->|(fs & -> & _)]; [|discriminate]. cbn in E. subst e. apply exponent_head in He. discriminate.
  - injection E as <- _. apply Forall_inv_tail, Forall_inv in F. unfold digit in F. lia.
Qed.

Lemma fraction_long w : W 4 w -> (2 <= size w)%nat.
Proof. intros (ds & e & -> & N & _). destruct ds; [contradiction|]. cbn. lia. Qed.

Lemma dot_only j w : (5 <= j < 83)%nat -> W j w -> hd_error w = Some 46 -> size w = 1%nat.
Proof.
  intros H Hw E. pose proof Hw as Hw'. rewrite W_fixed in Hw by exact H. apply W_head in Hw' as (c & w' & -> & K); [|lia]. injection E as ->.
  do 5 (destruct j as [|j]; [lia|]). cbn [head_ok] in K. destruct K as (k & K & Sm).
  pose proof (fixed_first _ _ H K) as F. unfold first_ok in F. cbn [existsb] in F. assert (k = 46) as -> by (unfold same_letter in Sm; lia).
  assert (A : forallb (fun j => match lit (terminal_name (sql_terminal j)) with k :: l => negb (k =? 46) || match l with [] => true | _ => false end | [] => true end) (seq 5 78) = true) by (vm_compute; reflexivity).
  rewrite forallb_forall in A. specialize (A (S (S (S (S (S j)))))). rewrite in_seq in A. specialize (A ltac:(lia)).
  destruct (lit (terminal_name (sql_terminal (S (S (S (S (S j)))))))) as [|k [|k2 l]]; try discriminate.
  - inversion Hw as [|? ? ? ? _ F2]; subst. inversion F2. reflexivity.
  - injection K as ->. discriminate.
Qed.

Lemma prefers i j w : (i < 83)%nat -> (j < i)%nat -> W i w -> W j w ->
  sql_prefer (sql_terminal i) (sql_terminal j) /\ ~ sql_prefer (sql_terminal j) (sql_terminal i).
Proof.
  intros Li Lj Hi Hj. destruct (Nat.lt_ge_cases j 5) as [C|C].
  - destruct (W_head i w Li Hi) as (c & w' & -> & Ki). destruct (W_head j (c :: w') ltac:(lia) Hj) as (c' & w2 & E & Kj). injection E as <- <-.
    destruct (Nat.lt_ge_cases i 5) as [D|D].
    + exfalso. destruct i as [|[|[|[|[|i]]]]]; [lia|..|lia]; destruct j as [|[|[|[|j]]]]; try lia; cbn [head_ok] in Ki, Kj; unfold digit, name_start in *; try lia.
      destruct Hj as (ds & E & _). injection E as -> ->. exact (number_second _ _ Hi eq_refl).
    + pose proof (proj2 (head_kind i c Li Ki) D) as [Q1 Q2].
      destruct j as [|[|[|[|[|j]]]]]; [..|lia]; cbn [head_ok] in Kj; try contradiction.
      * change (sql_terminal 3) with (terminal "ID"). split; [split; [|reflexivity]|].
        -- intros E. apply (f_equal pattern_of) in E. rewrite (proj2 (terminal_pattern i Li)) in E. vm_compute in E. lia.
        -- intros [Q _]. apply Q. reflexivity.
      * exfalso. subst c. apply fraction_long in Hj. pose proof (dot_only i _ (conj D Li) Hi eq_refl). lia.
  - exfalso. rewrite W_fixed in Hi, Hj by lia. apply (fixed_differ i j); [lia|exact Li|].
    eapply spelled_fun; [apply fixed_clean; lia|apply fixed_clean; lia|exact Hi|exact Hj].
Qed.

Theorem sql_lex_correct s :
  (forall ts, lex sql_patterns (size s) 0 s = (ts, None) -> sql_lexes s (sql_tokens ts) []) /\
  (forall toks, sql_lexes s toks [] -> exists ts, lex sql_patterns (size s) 0 s = (ts, None) /\ sql_tokens ts = toks).
Proof.
  split; intros toks;
    apply (lex_correct sql_patterns W 83 is_whitespace sql_terminal sql_word sql_prefer patterns_good eq_refl flags (fun w => iff_refl _)
      full dark word_pattern prefers s toks).
Qed.

Lemma sql_lex_place s ts p : lex sql_patterns (size s) 0 s = (ts, Some p) ->
  exists r, sql_lexes s (sql_tokens ts) r /\ stuck sql_word is_whitespace r /\ (p = size s - size r)%nat.
Proof.
  intros E. pose proof (lex_reads sql_patterns W 83 is_whitespace sql_terminal sql_word sql_prefer patterns_good eq_refl flags (fun w => iff_refl _)
    full dark word_pattern prefers (size s) 0 s (le_n _)) as H. rewrite E in H. exact H.
Qed.

Lemma sql_lex_unique s toks r toks' r' :
  sql_lexes s toks r -> r = [] \/ stuck sql_word is_whitespace r ->
  sql_lexes s toks' r' -> r' = [] \/ stuck sql_word is_whitespace r' -> toks = toks' /\ r = r'.
Proof.
  intros. eapply (reads_unique sql_patterns W 83 is_whitespace sql_terminal sql_word sql_prefer patterns_good eq_refl flags (fun w => iff_refl _)
    full dark word_pattern prefers); eassumption.
Qed.
