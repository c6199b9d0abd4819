(** * The room a JSON text takes (C109) *)

From Coq Require Import Strings.String ZifyBool ZifyNat ZifyN.
From Verif Require Import Base BaseFacts StrModel StrFacts Utf8Model Utf8Facts TypesModel MarshalModel MarshalSpec LayoutProofs JsonModel JsonSpec JsonEmit JsonPartWrite JsonTellSpec JsonTellProofs JsonRoomSpec.
Local Open Scope list_scope.
Local Open Scope nat_scope.

Lemma write_ch_room c : List.length (write_ch c) <= 6.
Proof. unfold write_ch. repeat match goal with |- context [if ?b then _ else _] => destruct b end; cbn; lia. Qed.

Lemma utf8_char_pos c : 1 <= List.length (utf8_char c).
Proof. unfold utf8_char. repeat match goal with |- context [if ?b then _ else _] => destruct b end; cbn; lia. Qed.

Lemma chars_room s : List.length (flat_map write_ch s) <= 6 * List.length (utf8_encode s).
Proof.
  unfold utf8_encode. induction s as [|c s IH]; [cbn; lia|]. cbn [flat_map]. rewrite !app_length. pose proof (write_ch_room c). pose proof (utf8_char_pos c). lia.
Qed.

Lemma string_fits s : List.length (emit_utf8_string s) <= string_room (List.length (utf8_encode s)).
Proof. unfold emit_utf8_string, string_room. rewrite !app_length. pose proof (chars_room s). change (List.length (utf8_encode (lit """"))) with 1. lia. Qed.

Lemma digits_fit d : forall fuel z, (0 <= z < 10 ^ Z.of_nat (S d))%Z -> List.length (show_digits fuel z []) <= S d.
Proof.
  induction d as [|d IH]; intros [|fuel] z H; cbn [show_digits]; try (cbn; lia).
  - change (10 ^ Z.of_nat 1)%Z with 10%Z in H. replace (z <? 10)%Z with true by lia. cbn. lia.
  - destruct (Z.ltb_spec z 10); [cbn; lia|]. rewrite show_digits_acc, app_length. cbn [List.length].
    assert (0 <= z / 10 < 10 ^ Z.of_nat (S d))%Z.
    { rewrite (Nat2Z.inj_succ (S d)), Z.pow_succ_r in H by lia. split; [apply Z.div_pos; lia|apply Z.div_lt_upper_bound; lia]. }
    specialize (IH fuel (z / 10)%Z ltac:(assumption)). lia.
Qed.

Lemma int_fits d z : (0 <= z < 10 ^ Z.of_nat (S d))%Z -> List.length (show_int z) <= S d.
Proof. intros H. rewrite show_int_nonneg by lia. apply digits_fit. exact H. Qed.

Lemma neg_fits d z : (- 10 ^ Z.of_nat (S d) < z < 0)%Z -> List.length (show_int z) <= S (S d).
Proof. intros H. rewrite show_int_neg by lia. cbn [List.length]. apply le_n_S. apply int_fits. lia. Qed.

Lemma plain_length x : Forall plain x -> List.length (utf8_encode x) = List.length x.
Proof. unfold utf8_encode. induction 1 as [|c x P F IH]; [reflexivity|]. cbn [flat_map]. destruct (plain_byte _ P) as (-> & _). cbn. now rewrite IH. Qed.

Lemma number_fits z lo hi d e : (lo <= z < hi)%Z -> (hi <= 10 ^ Z.of_nat (S d))%Z -> (- 10 ^ Z.of_nat (S e) < lo)%Z ->
  List.length (utf8_encode (show_int z)) <= if (0 <=? lo)%Z then S d else Nat.max (S d) (S (S e)).
Proof.
  intros R H L. rewrite plain_length by apply show_int_plain. destruct (Z.leb_spec 0 lo).
  - apply int_fits. lia.
  - destruct (Z.lt_ge_cases z 0); [pose proof (neg_fits e z ltac:(lia)); lia|pose proof (int_fits d z ltac:(lia)); lia].
Qed.

Lemma prim_fits fl src p q z bs : src_prim src p q = Ret z -> in_range p z -> emit_prim fl src p q = Ret bs -> List.length bs <= prim_room fl p z.
Proof.
  intros P I E. unfold emit_prim in E. rewrite P in E. cbn [bind] in E. apply ret_eq in E. subst bs.
  destruct p; cbn [prim_room show_number]; unfold in_range in I; cbn in I; try apply Nat.le_refl.
  - destruct (negb (z =? 0)%Z); cbn; lia.
  - rewrite !app_length. change (List.length (utf8_encode (lit """"))) with 1. pose proof (write_ch_room z). lia.
  - pose proof (number_fits z 0 256 2 0 I ltac:(vm_compute; discriminate) ltac:(vm_compute; reflexivity)) as X. exact X.
  - pose proof (number_fits z 0 65536 4 0 I ltac:(vm_compute; discriminate) ltac:(vm_compute; reflexivity)) as X. exact X.
  - pose proof (number_fits z 0 _ 9 0 I ltac:(vm_compute; discriminate) ltac:(vm_compute; reflexivity)) as X. exact X.
  - pose proof (number_fits z 0 _ 19 0 I ltac:(vm_compute; discriminate) ltac:(vm_compute; reflexivity)) as X. exact X.
  - pose proof (number_fits z 0 _ 38 0 I ltac:(vm_compute; discriminate) ltac:(vm_compute; reflexivity)) as X. exact X.
  - pose proof (number_fits z _ _ 2 2 I ltac:(vm_compute; discriminate) ltac:(vm_compute; reflexivity)) as X. exact X.
  - pose proof (number_fits z _ _ 4 4 I ltac:(vm_compute; discriminate) ltac:(vm_compute; reflexivity)) as X. exact X.
  - pose proof (number_fits z _ _ 9 9 I ltac:(vm_compute; discriminate) ltac:(vm_compute; reflexivity)) as X. exact X.
  - pose proof (number_fits z _ _ 18 18 I ltac:(vm_compute; discriminate) ltac:(vm_compute; reflexivity)) as X. exact X.
  - pose proof (number_fits z _ _ 38 38 I ltac:(vm_compute; discriminate) ltac:(vm_compute; reflexivity)) as X. exact X.
Qed.

Lemma members_fit {A : Type} (g : A -> ty) (h : A -> path -> outcome (list byte)) (c : A -> val -> nat) src l :
  Forall (fun a => forall q v bs, presents src (g a) q v -> typed (g a) v -> h a q = Ret bs -> List.length bs <= c a v) l ->
  forall q k vs bs, presents_list src (map g l) q k vs -> typed_list (map g l) vs -> emit_members h l q k = Ret bs ->
  List.length bs <= list_sum (map (fun x => 1 + c (fst x) (snd x)) (combine l vs)).
Proof.
  induction 1 as [|a l Ha Hl IH]; intros q k vs bs P T E; cbn [map emit_members] in *; [apply ret_eq in E; subst; cbn; lia|].
  inversion T as [|? ? v vs0 Tv Tl]; subst. inversion P; subst.
  destruct (h a _) as [b| |] eqn:B; cbn [bind] in E; try discriminate E. destruct (emit_members h l _ _) as [x| |] eqn:M; cbn [bind] in E; try discriminate E.
  apply ret_eq in E. subst bs. unfold with_component in B. pose proof (Ha _ _ _ ltac:(eassumption) Tv B) as X. pose proof (IH _ _ _ _ ltac:(eassumption) Tl M) as Y.
  rewrite !app_length. cbn [combine map list_sum fold_right fst snd]. change (fold_right Nat.add 0) with list_sum.
  assert (List.length (if k =? 0 then [] else utf8_encode (lit ",")) <= 1) by (destruct (k =? 0); cbn; lia). lia.
Qed.

Lemma emit_fits fl t : forall src q v bs, presents src t q v -> typed t v -> emit fl src t q = Ret bs -> List.length bs <= room fl t v.
Proof.
  induction t using ty_ind'; intros src q v bs P T E; cbn [emit] in E.
  - apply ret_eq in E. subst bs. cbn. lia.
  - inversion P; subst. inversion T; subst. cbn [room]. eapply prim_fits; eassumption.
  - inversion P as [| |? b L B| | |]; subst. rewrite B in E. cbn [bind] in E. destruct (utf8_decode b) as [s|] eqn:D; [|discriminate E].
    apply ret_eq in E. subst bs. apply utf8_decode_sound in D. destruct D as (F & <-). cbn [room]. apply string_fits.
  - inversion P as [| | |? ? vs Pl| |]; subst. inversion T as [| | |? ? Tl| |]; subst.
    destruct (emit_members (emit fl src) ts q 0) as [b| |] eqn:M; cbn [bind] in E; try discriminate E. apply ret_eq in E. subst bs.
    pose proof (members_fit (fun t => t) (emit fl src) (room fl) src ts) as X. rewrite map_id in X.
    specialize (X ltac:(rewrite Forall_forall in *; intros; eapply H; eassumption) q 0 vs b Pl Tl M).
    rewrite !app_length. change (List.length (utf8_encode (lit "["))) with 1. change (List.length (utf8_encode (lit "]"))) with 1. cbn [room].
    match goal with |- _ <= 2 + ?f ts vs => assert (Y : forall ts vs, list_sum (map (fun x => 1 + room fl (fst x) (snd x)) (combine ts vs)) = f ts vs) end.
    { clear. induction ts as [|t ts IH]; intros [|v vs]; cbn [combine map list_sum fold_right fst snd]; try reflexivity. change (fold_right Nat.add 0) with list_sum. rewrite IH. reflexivity. }
    rewrite Y in X. lia.
  - inversion P as [| | | |? ? vs Pl|]; subst. inversion T as [| | | |? ? Tl|]; subst.
    destruct (emit_members _ fs q 0) as [b| |] eqn:M in E; cbn [bind] in E; try discriminate E. apply ret_eq in E. subst bs.
    match type of M with emit_members ?h _ _ _ = _ => pose proof (members_fit snd h (fun f v => 1 + string_room (List.length (utf8_encode (fst f))) + room fl (snd f) v) src fs) as X end.
    match type of X with ?A -> _ => assert (G : A) end.
    { rewrite Forall_forall in *. intros (l, t) I q1 v bs P1 T1 E. cbn [fst snd] in *. destruct (emit fl src t q1) as [y| |] eqn:Y; cbn [bind] in E; try discriminate E.
      apply ret_eq in E. subst bs. pose proof (H _ I _ _ _ _ P1 T1 Y) as Z. cbn [snd] in Z. rewrite !app_length. pose proof (string_fits l). change (List.length (utf8_encode (lit ":"))) with 1. lia. }
    specialize (X G q 0 vs b Pl Tl M).
    rewrite !app_length. change (List.length (utf8_encode (lit "{"))) with 1. change (List.length (utf8_encode (lit "}"))) with 1. cbn [room].
    match goal with |- _ <= 2 + ?f fs vs => assert (Y : forall fs vs, list_sum (map (fun x => 1 + (1 + string_room (List.length (utf8_encode (fst (fst x)))) + room fl (snd (fst x)) (snd x))) (combine fs vs)) = f fs vs) end.
    { clear. induction fs as [|(l, t) fs IH]; intros [|v vs]; cbn [combine map list_sum fold_right fst snd]; try reflexivity. change (fold_right Nat.add 0) with list_sum. rewrite IH. lia. }
    rewrite Y in X. lia.
  - inversion P as [| | | | |? ? k l t v0 Hk Hn Hv]; subst. inversion T as [| | | | |? ? l1 t1 ? N1 T1]; subst. rewrite Hn in N1. injection N1 as <- <-.
    rewrite Hk in E. cbn [bind] in E. rewrite (case_at _ _ _ _ Hn) in E. cbn [fst snd] in E. unfold with_component in *.
    destruct (emit fl src t _) as [y| |] eqn:Y; cbn [bind] in E; try discriminate E. apply ret_eq in E. subst bs.
    rewrite Forall_forall in H. pose proof (H _ (nth_error_In _ _ Hn) _ _ _ _ Hv T1 Y) as Z. cbn [snd] in Z.
    rewrite !app_length. pose proof (string_fits l). change (List.length (utf8_encode (lit "{""kind"":"))) with 8. change (List.length (utf8_encode (lit ",""value"":"))) with 9. change (List.length (utf8_encode (lit "}"))) with 1.
    cbn [room]. match goal with |- _ <= ?f cs k => assert (W : forall cs k, nth_error cs k = Some (l, t) -> f cs k = 18 + string_room (List.length (utf8_encode l)) + room fl t v0) end.
    { clear. induction cs as [|(l0, t0) cs IH]; intros [|k] N; try discriminate N; cbn in N; [injection N as -> ->; reflexivity|exact (IH k N)]. }
    rewrite (W _ _ Hn). lia.
Qed.
