(** * Facts about the common vocabulary *)

From Coq Require Import ZifyBool ZifyNat ZifyN.
From Verif Require Export Base.
Ltac Zify.zify_post_hook ::= Z.div_mod_to_equations.

(** ** Outcomes *)

Lemma bind_Ret_inv {A B} (x : outcome A) (f : A -> outcome B) b :
  bind x f = Ret b -> exists a, x = Ret a /\ f a = Ret b.
Proof. destruct x; simpl; intros H; try discriminate; eauto. Qed.

Lemma bind_assoc {A B C} (x : outcome A) (f : A -> outcome B) (g : B -> outcome C) :
  bind (bind x f) g = bind x (fun a => bind (f a) g).
Proof. destruct x; reflexivity. Qed.

Ltac inv_bind H :=
  let a := fresh "a" in let Ha := fresh "Ha" in
  apply bind_Ret_inv in H; destruct H as (a & Ha & H).

(** ** Bytes *)

Lemma b2z_range b : (0 <= b2z b < 256)%Z.
Proof.
  unfold b2z. pose proof (Byte.to_N_bounded b) as H. lia.
Qed.

Lemma b2z_z2b z : b2z (z2b z) = (z mod 256)%Z.
Proof.
  unfold b2z, z2b.
  destruct (Byte.of_N (Z.to_N (z mod 256))) as [b|] eqn:E.
  - apply Byte.to_of_N in E. rewrite E. lia.
  - apply Byte.of_N_None_iff in E. lia.
Qed.

Lemma z2b_b2z b : z2b (b2z b) = b.
Proof.
  unfold z2b. pose proof (b2z_range b) as Hr.
  rewrite Z.mod_small by lia. unfold b2z. rewrite N2Z.id.
  rewrite Byte.of_to_N. reflexivity.
Qed.

Lemma b2z_inj a b : b2z a = b2z b -> a = b.
Proof. intros H. rewrite <- (z2b_b2z a), <- (z2b_b2z b), H. reflexivity. Qed.

Lemma le_bytes_length n z : length (le_bytes n z) = n.
Proof. revert z. induction n; simpl; intros; auto. Qed.

Lemma le_val_range l : (0 <= le_val l < 256 ^ Z.of_nat (length l))%Z.
Proof.
  induction l as [|b l IH]; simpl length; cbn [le_val].
  - simpl. lia.
  - rewrite Nat2Z.inj_succ, Z.pow_succ_r by lia. pose proof (b2z_range b). nia.
Qed.

Lemma le_val_le_bytes n z : le_val (le_bytes n z) = (z mod 256 ^ Z.of_nat n)%Z.
Proof.
  revert z. induction n as [|n IH]; intros z; cbn [le_bytes le_val].
  - simpl. rewrite Z.mod_1_r. reflexivity.
  - rewrite IH, b2z_z2b, Nat2Z.inj_succ, Z.pow_succ_r by lia.
    rewrite Z.rem_mul_r; [reflexivity | lia | ].
    apply Z.pow_pos_nonneg; lia.
Qed.

Lemma le_val_le_bytes_small n z :
  (0 <= z < 256 ^ Z.of_nat n)%Z -> le_val (le_bytes n z) = z.
Proof. intros H. rewrite le_val_le_bytes. apply Z.mod_small. exact H. Qed.

Lemma le_bytes_le_val l : le_bytes (length l) (le_val l) = l.
Proof.
  induction l as [|b l IH]; cbn [length le_bytes le_val]; [reflexivity|].
  pose proof (b2z_range b) as Hb.
  assert (E1 : ((b2z b + 256 * le_val l) mod 256 = b2z b)%Z) by lia.
  assert (E2 : ((b2z b + 256 * le_val l) / 256 = le_val l)%Z) by lia.
  f_equal.
  - apply b2z_inj. rewrite b2z_z2b. exact E1.
  - rewrite E2. exact IH.
Qed.

Lemma le_bytes_mod n z : le_bytes n (z mod 256 ^ Z.of_nat n) = le_bytes n z.
Proof.
  rewrite <- le_val_le_bytes.
  rewrite <- (le_bytes_length n z) at 1. apply le_bytes_le_val.
Qed.

(** ** Slices *)

Section Slices.
Context {A : Type}.
Implicit Types l new : list A.

Lemma slice_length l off len : off + len <= length l -> length (slice l off len) = len.
Proof. intros H. unfold slice. rewrite firstn_length, skipn_length. lia. Qed.

Lemma slice_length_le l off len : length (slice l off len) <= len.
Proof. unfold slice. rewrite firstn_length. lia. Qed.

Lemma nth_error_firstn l n i :
  nth_error (firstn n l) i = if i <? n then nth_error l i else None.
Proof.
  revert n i. induction l as [|a l IH]; intros n i.
  - rewrite firstn_nil. destruct i; destruct (_ <? _); reflexivity.
  - destruct n as [|n].
    + simpl. destruct i; reflexivity.
    + destruct i as [|i]; simpl; [reflexivity|]. rewrite IH. reflexivity.
Qed.

Lemma nth_error_skipn l n i : nth_error (skipn n l) i = nth_error l (n + i).
Proof.
  revert l. induction n as [|n IH]; intros l; [reflexivity|].
  destruct l as [|a l]; simpl.
  - destruct i; reflexivity.
  - apply IH.
Qed.

Lemma nth_error_slice l off len i :
  nth_error (slice l off len) i = if i <? len then nth_error l (off + i) else None.
Proof. unfold slice. rewrite nth_error_firstn, nth_error_skipn. reflexivity. Qed.

Lemma write_length l off new :
  off + length new <= length l -> length (write l off new) = length l.
Proof.
  intros H. unfold write. rewrite !app_length, firstn_length, skipn_length. lia.
Qed.

Lemma nth_error_write l off new i :
  off + length new <= length l ->
  nth_error (write l off new) i =
  if (off <=? i) && (i <? off + length new) then nth_error new (i - off) else nth_error l i.
Proof.
  intros H. unfold write.
  destruct (Nat.leb_spec off i) as [H1|H1]; simpl.
  - rewrite nth_error_app2 by (rewrite firstn_length; lia).
    rewrite firstn_length, Nat.min_l by lia.
    destruct (Nat.ltb_spec i (off + length new)) as [H2|H2].
    + rewrite nth_error_app1 by lia. reflexivity.
    + rewrite nth_error_app2 by lia. rewrite nth_error_skipn. f_equal. lia.
  - rewrite nth_error_app1 by (rewrite firstn_length; lia).
    rewrite nth_error_firstn. destruct (Nat.ltb_spec i off); [reflexivity|lia].
Qed.

Lemma list_ext l1 l2 : (forall i, nth_error l1 i = nth_error l2 i) -> l1 = l2.
Proof.
  revert l2. induction l1 as [|a l1 IH]; intros [|b l2] H.
  - reflexivity.
  - specialize (H 0). discriminate.
  - specialize (H 0). discriminate.
  - pose proof (H 0) as H0. simpl in H0. injection H0 as ->.
    f_equal. apply IH. intros i. apply (H (S i)).
Qed.

Lemma slice_write_same l off new :
  off + length new <= length l -> slice (write l off new) off (length new) = new.
Proof.
  intros H. apply list_ext. intros i. rewrite nth_error_slice, nth_error_write by lia.
  destruct (Nat.ltb_spec i (length new)) as [H1|H1].
  - replace ((off <=? off + i) && (off + i <? off + length new)) with true by lia.
    f_equal. lia.
  - symmetry. apply nth_error_None. lia.
Qed.

Lemma slice_write_other l off new o n :
  off + length new <= length l ->
  (o + n <= off \/ off + length new <= o) ->
  slice (write l off new) o n = slice l o n.
Proof.
  intros H H1. apply list_ext. intros i. rewrite !nth_error_slice.
  destruct (Nat.ltb_spec i n) as [H2|H2]; [|reflexivity].
  rewrite nth_error_write by lia.
  destruct (Nat.leb_spec off (o + i)); destruct (Nat.ltb_spec (o + i) (off + length new)); simpl; try reflexivity; lia.
Qed.

Lemma slice_slice l o n o' n' :
  o' + n' <= n -> slice (slice l o n) o' n' = slice l (o + o') n'.
Proof.
  intros H. apply list_ext. intros i. rewrite !nth_error_slice.
  destruct (Nat.ltb_spec i n'); [|reflexivity].
  destruct (Nat.ltb_spec (o' + i) n); [|lia]. f_equal. lia.
Qed.

Lemma slice_all l : slice l 0 (length l) = l.
Proof. unfold slice. simpl. apply firstn_all. Qed.

Lemma slice_0 l o : slice l o 0 = [].
Proof. unfold slice. reflexivity. Qed.

Lemma slice_skipn l k o n : slice (skipn k l) o n = slice l (k + o) n.
Proof.
  apply list_ext. intros i. rewrite !nth_error_slice, nth_error_skipn.
  destruct (i <? n); [|reflexivity]. f_equal. lia.
Qed.

Lemma write_nil l off : write l off [] = l.
Proof. unfold write. simpl. rewrite Nat.add_0_r. apply firstn_skipn. Qed.

Lemma skipn_write_ge l off new k :
  off + length new <= length l -> off + length new <= k ->
  skipn k (write l off new) = skipn k l.
Proof.
  intros H H1. apply list_ext. intros i. rewrite !nth_error_skipn, nth_error_write by lia.
  destruct (Nat.ltb_spec (k + i) (off + length new)); [lia|].
  rewrite andb_false_r. reflexivity.
Qed.

Lemma slice_ext l1 l2 o n :
  (forall i, i < n -> nth_error l1 (o + i) = nth_error l2 (o + i)) -> slice l1 o n = slice l2 o n.
Proof.
  intros H. apply list_ext. intros i. rewrite !nth_error_slice.
  destruct (Nat.ltb_spec i n); auto.
Qed.

Lemma slice_eq_nth l1 l2 o n i :
  slice l1 o n = slice l2 o n -> i < n -> nth_error l1 (o + i) = nth_error l2 (o + i).
Proof.
  intros H Hi. pose proof (f_equal (fun l => nth_error l i) H) as H'. cbv beta in H'.
  rewrite !nth_error_slice in H'. destruct (Nat.ltb_spec i n); [exact H'|lia].
Qed.

End Slices.

(** ** Powers of two and masks *)

Lemma is_pow2_true z : is_pow2 z = true <-> exists k, (0 <= k)%Z /\ z = (2 ^ k)%Z.
Proof.
  unfold is_pow2. split.
  - intros H. exists (Z.log2 z). split; [apply Z.log2_nonneg|lia].
  - intros (k & Hk & ->). pose proof (Z.pow_pos_nonneg 2 k ltac:(lia) Hk).
    rewrite Z.log2_pow2 by lia. lia.
Qed.

Lemma land_low_mask v k : (0 <= k)%Z -> Z.land v (2 ^ k - 1) = (v mod 2 ^ k)%Z.
Proof.
  intros Hk. replace (2 ^ k - 1)%Z with (Z.ones k) by (rewrite Z.ones_equiv; lia).
  apply Z.land_ones. exact Hk.
Qed.

Lemma testbit_small v w n : (0 <= v < 2 ^ w)%Z -> (0 <= w <= n)%Z -> Z.testbit v n = false.
Proof.
  intros Hv Hn. rewrite <- (Z.mod_small v (2 ^ w)) by lia. apply Z.mod_pow2_bits_high. lia.
Qed.

Lemma unot_ones w k : (0 <= k <= w)%Z -> unot w (2 ^ k - 1) = Z.shiftl (Z.ones (w - k)) k.
Proof.
  intros H. unfold unot, umax. rewrite Z.shiftl_mul_pow2, Z.ones_equiv by lia.
  replace (2 ^ w)%Z with (2 ^ (w - k) * 2 ^ k)%Z; [lia|].
  rewrite <- Z.pow_add_r by lia. f_equal. lia.
Qed.

(** Masking a [w]-bit value with the complement of [2^k - 1] rounds it down to a multiple of [2^k]. *)
Lemma land_high_mask w v k :
  (0 <= k <= w)%Z -> (0 <= v < 2 ^ w)%Z ->
  Z.land v (unot w (2 ^ k - 1)) = (v - v mod 2 ^ k)%Z.
Proof.
  intros Hk Hv. rewrite unot_ones by lia.
  replace (v - v mod 2 ^ k)%Z with (Z.shiftl (Z.shiftr v k) k).
  2:{ rewrite Z.shiftl_mul_pow2, Z.shiftr_div_pow2 by lia.
      assert (0 < 2 ^ k)%Z by (apply Z.pow_pos_nonneg; lia).
      rewrite (Z.div_mod v (2 ^ k)) at 2 by lia. lia. }
  apply Z.bits_inj'. intros n Hn. rewrite Z.land_spec, !Z.shiftl_spec by lia.
  destruct (Z.ltb_spec n k) as [H|H].
  - rewrite !(Z.testbit_neg_r _ (n - k)) by lia. apply andb_false_r.
  - rewrite Z.shiftr_spec, Z.sub_add by lia.
    destruct (Z.ltb_spec n w) as [H1|H1].
    + rewrite Z.ones_spec_low by lia. apply andb_true_r.
    + rewrite (testbit_small v w) by lia. reflexivity.
Qed.

(** Disjoint [lor] is addition. *)
Lemma lor_low_high a b k :
  (0 <= k)%Z -> (a mod 2 ^ k = 0)%Z -> (0 <= b < 2 ^ k)%Z -> Z.lor a b = (a + b)%Z.
Proof.
  intros Hk Ha Hb. symmetry. rewrite <- Z.lxor_lor, Z.add_nocarry_lxor; try reflexivity.
  all: apply Z.bits_inj'; intros n Hn; rewrite Z.land_spec, Z.bits_0;
    destruct (Z.ltb_spec n k) as [H|H];
    [ rewrite <- (Z.mod_pow2_bits_low a k n) by lia; rewrite Ha, Z.bits_0; reflexivity
    | rewrite (testbit_small b k) by lia; apply andb_false_r ].
Qed.
