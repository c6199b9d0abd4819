(** * Proofs about core/util.rs and storage/utils.rs *)

From Coq Require Import ZifyBool ZifyNat ZifyN.
From Verif Require Import BaseFacts UtilModel UtilSpec.
Local Open Scope Z_scope.
Ltac Zify.zify_post_hook ::= Z.div_mod_to_equations.

Lemma pow2_le_mono k w : 0 <= k -> 2 ^ k < 2 ^ w -> k < w.
Proof.
  intros Hk H. destruct (Z.lt_ge_cases k w) as [|Hge]; [assumption|].
  pose proof (Z.pow_le_mono_r 2 w k ltac:(lia) Hge). lia.
Qed.

(** The masking expression computes the rounding. *)
Lemma align_expr w k v :
  0 < w -> 0 <= k <= w -> 0 <= v -> v + 2 ^ k - 1 < 2 ^ w ->
  Z.land (v + 2 ^ k - 1) (unot w (2 ^ k - 1)) = (v + 2 ^ k - 1) / 2 ^ k * 2 ^ k.
Proof.
  intros Hw Hk Hv Ho. assert (0 < 2 ^ k) by (apply Z.pow_pos_nonneg; lia).
  rewrite land_high_mask by lia.
  rewrite (Z.div_mod (v + 2 ^ k - 1) (2 ^ k)) at 1 by lia. lia.
Qed.

Lemma round_up_least a v : 0 < a -> 0 <= v -> least_multiple_from a v ((v + a - 1) / a * a).
Proof.
  intros Ha Hv. repeat split.
  - exists ((v + a - 1) / a). reflexivity.
  - pose proof (Z.div_mod (v + a - 1) a ltac:(lia)).
    pose proof (Z.mod_pos_bound (v + a - 1) a ltac:(lia)). nia.
  - intros m [q Hq] Hm. subst m.
    pose proof (Z.div_mod (v + a - 1) a ltac:(lia)).
    pose proof (Z.mod_pos_bound (v + a - 1) a ltac:(lia)).
    assert ((v + a - 1) / a <= q); [|nia].
    apply Z.lt_succ_r. apply Z.div_lt_upper_bound; nia.
Qed.

Lemma least_multiple_unique a v r1 r2 :
  least_multiple_from a v r1 -> least_multiple_from a v r2 -> r1 = r2.
Proof. intros (A1 & B1 & C1) (A2 & B2 & C2). specialize (C1 r2 A2 B2). specialize (C2 r1 A1 B1). lia. Qed.

Lemma align_w_value p w k v :
  0 < w -> 0 <= k < w -> 0 <= v -> v + 2 ^ k < 2 ^ w ->
  align_w p w v (2 ^ k) = Ret ((v + 2 ^ k - 1) / 2 ^ k * 2 ^ k).
Proof.
  intros Hw Hk Hv Ho. assert (0 < 2 ^ k) by (apply Z.pow_pos_nonneg; lia).
  unfold align_w, wadd, wsub.
  replace (v + 2 ^ k <? 2 ^ w) with true by lia. cbn [bind].
  replace (1 <=? v + 2 ^ k) with true by lia. cbn [bind].
  replace (1 <=? 2 ^ k) with true by lia. cbn [bind].
  rewrite align_expr by lia. reflexivity.
Qed.

Lemma align_align_w p v a : is_pow2 a = true -> align p v a = align_w p 64 v a.
Proof. intros H. unfold align, align_w. rewrite H. reflexivity. Qed.

Lemma align_w_least p w v a :
  0 < w -> is_pow2 a = true -> 0 <= v -> v + a < 2 ^ w ->
  exists r, align_w p w v a = Ret r /\ least_multiple_from a v r.
Proof.
  intros Hw Ha Hv Ho. apply is_pow2_true in Ha as (k & Hk & ->).
  assert (0 < 2 ^ k) by (apply Z.pow_pos_nonneg; lia).
  assert (k < w) by (apply pow2_le_mono; lia).
  eexists; split; [apply align_w_value; lia|]. apply round_up_least; lia.
Qed.

Lemma align_least p v a :
  is_pow2 a = true -> 0 <= v -> v + a < 2 ^ 64 ->
  exists r, align p v a = Ret r /\ least_multiple_from a v r.
Proof. intros Ha Hv Ho. rewrite align_align_w by exact Ha. apply align_w_least; lia || assumption. Qed.

Lemma align_panics v a :
  0 <= v < 2 ^ 64 -> 0 <= a < 2 ^ 64 ->
  (align Debug v a = Panic <-> is_pow2 a = false \/ 2 ^ 64 <= v + a).
Proof.
  intros Hv Ha. destruct (is_pow2 a) eqn:E.
  - destruct (Z.ltb_spec (v + a) (2 ^ 64)) as [H|H].
    + destruct (align_least Debug v a E ltac:(lia) H) as (r & Hr & _).
      rewrite Hr. split; [discriminate|]. intros [?|?]; [discriminate|lia].
    + unfold align, wadd. rewrite E. replace (v + a <? 2 ^ 64) with false by lia.
      cbn [bind]. split; auto.
  - unfold align. rewrite E. split; auto.
Qed.

Lemma align_release_panics v a : align Release v a = Panic <-> is_pow2 a = false.
Proof.
  unfold align. destruct (is_pow2 a); cbn [bind]; [|tauto].
  unfold wadd, wsub. destruct (v + a <? 2 ^ 64), (1 <=? a); cbn [bind]; try (destruct (1 <=? _)); cbn [bind]; split; discriminate.
Qed.

(** In release builds the intermediate sum may wrap once without harm. *)
Lemma align_release_boundary v a :
  is_pow2 a = true -> 0 <= v -> v + a = 2 ^ 64 -> a < 2 ^ 64 ->
  exists r, align Release v a = Ret r /\ least_multiple_from a v r.
Proof.
  intros Ha Hv Ho Hlt. apply is_pow2_true in Ha as (k & Hk & ->).
  assert (0 < 2 ^ k) by (apply Z.pow_pos_nonneg; lia).
  assert (k < 64) by (apply pow2_le_mono; lia).
  exists ((v + 2 ^ k - 1) / 2 ^ k * 2 ^ k). split; [|apply round_up_least; lia].
  assert (E : Z.land (2 ^ 64 - 1) (unot 64 (2 ^ k - 1)) = (v + 2 ^ k - 1) / 2 ^ k * 2 ^ k).
  { replace (2 ^ 64 - 1) with (v + 2 ^ k - 1) by lia. apply align_expr; lia. }
  unfold align, wadd, wsub.
  replace (is_pow2 (2 ^ k)) with true by (symmetry; apply is_pow2_true; exists k; split; [lia|reflexivity]).
  rewrite Ho. change (2 ^ 64 <? 2 ^ 64) with false. cbn [bind].
  change (2 ^ 64 mod 2 ^ 64) with 0. change (1 <=? 0) with false. cbn [bind].
  replace (1 <=? 2 ^ k) with true by lia. cbn [bind].
  change ((0 - 1) mod 2 ^ 64) with (2 ^ 64 - 1). f_equal. rewrite E, Ho. reflexivity.
Qed.

Lemma align_up_Z v a : (0 < a)%nat -> Z.of_nat (align_up v a) =
  (Z.of_nat v + Z.of_nat a - 1) / Z.of_nat a * Z.of_nat a.
Proof.
  intros Ha. unfold align_up. rewrite Nat2Z.inj_mul, Nat2Z.inj_div, Nat2Z.inj_sub, Nat2Z.inj_add by lia.
  reflexivity.
Qed.

Lemma align_nat_value v a :
  is_pow2 (Z.of_nat a) = true -> Z.of_nat v + Z.of_nat a < 2 ^ 64 ->
  align_nat v a = Ret (align_up v a).
Proof.
  intros Ha Ho. unfold align_nat. rewrite align_align_w by exact Ha.
  apply is_pow2_true in Ha as (k & Hk & E).
  assert (0 < 2 ^ k) by (apply Z.pow_pos_nonneg; lia).
  assert (k < 64) by (apply pow2_le_mono; lia).
  rewrite E at 1. rewrite align_w_value by lia. cbn [bind].
  rewrite <- E, <- align_up_Z by lia. rewrite Nat2Z.id. reflexivity.
Qed.

Lemma align_nat_not_pow2 v a : is_pow2 (Z.of_nat a) = false -> align_nat v a = Panic.
Proof. intros H. unfold align_nat, align. rewrite H. reflexivity. Qed.

Lemma align_up_ge v a : (0 < a)%nat -> (v <= align_up v a)%nat.
Proof.
  intros H. unfold align_up. pose proof (Nat.div_mod (v + a - 1) a ltac:(lia)).
  pose proof (Nat.mod_upper_bound (v + a - 1) a ltac:(lia)). nia.
Qed.

Lemma align_up_lt v a : (0 < a)%nat -> (align_up v a < v + a)%nat.
Proof.
  intros H. unfold align_up. pose proof (Nat.div_mod (v + a - 1) a ltac:(lia)). nia.
Qed.

Lemma align_up_div v a : Nat.divide a (align_up v a).
Proof. exists ((v + a - 1) / a)%nat. reflexivity. Qed.

Lemma align_up_least v a m : (0 < a)%nat -> Nat.divide a m -> (v <= m)%nat -> (align_up v a <= m)%nat.
Proof.
  intros Ha [q Hq] Hm. unfold align_up. subst m.
  assert ((v + a - 1) / a <= q)%nat; [|nia].
  apply Nat.lt_succ_r. apply Nat.div_lt_upper_bound; nia.
Qed.

Lemma align_up_id v a : (0 < a)%nat -> Nat.divide a v -> align_up v a = v.
Proof.
  intros Ha Hd. pose proof (align_up_ge v a Ha). pose proof (align_up_least v a v Ha Hd). lia.
Qed.

(** ** Bit counts *)

Lemma required_bits_spec v :
  0 <= v < 2 ^ 64 ->
  0 <= required_bits v <= 64 /\ v < 2 ^ required_bits v /\
  forall n, 0 <= n -> v < 2 ^ n -> required_bits v <= n.
Proof.
  intros Hv. unfold required_bits, leading_zeros64. destruct (Z.eqb_spec v 0) as [->|H].
  - repeat split; lia.
  - pose proof (Z.log2_spec v ltac:(lia)) as Hl. pose proof (Z.log2_nonneg v).
    assert (Z.log2 v < 64) by (apply Z.log2_lt_pow2; lia).
    replace (64 - (63 - Z.log2 v)) with (Z.succ (Z.log2 v)) by lia.
    repeat split; try lia.
    intros n Hn Hvn. apply Z.log2_lt_pow2 in Hvn; lia.
Qed.

Lemma trailing_zeros_pow2 fuel k : 0 <= k < Z.of_nat fuel -> trailing_zeros fuel (2 ^ k) = k.
Proof.
  revert k. induction fuel as [|f IH]; intros k Hk; [lia|]. cbn [trailing_zeros].
  destruct (Z.eq_dec k 0) as [->|Hne]; [reflexivity|].
  replace (2 ^ k) with (2 * 2 ^ (k - 1)) by (rewrite <- Z.pow_succ_r by lia; f_equal; lia).
  replace (Z.odd (2 * 2 ^ (k - 1))) with false by (rewrite Z.odd_mul; reflexivity).
  rewrite (Z.mul_comm 2), Z.div_mul by lia. rewrite IH by lia. lia.
Qed.

Lemma log2_spec v n : 0 <= v < 2 ^ 64 -> (log2 v = Ret n <-> 0 <= n /\ v = 2 ^ n).
Proof.
  intros Hv. unfold log2. destruct (Z.eqb_spec v 0) as [->|H]; cbn [negb].
  - split; [discriminate|]. intros [Hn E]. assert (0 < 2 ^ n) by (apply Z.pow_pos_nonneg; lia). lia.
  - destruct (is_pow2 v) eqn:E.
    + apply is_pow2_true in E as (k & Hk & ->).
      assert (k < 64) by (apply pow2_le_mono; lia).
      rewrite trailing_zeros_pow2 by lia. split.
      * intros [= ->]. auto.
      * intros [Hn E]. f_equal. apply (Z.pow_inj_r 2); lia.
    + split; [discriminate|]. intros [Hn E']. exfalso.
      enough (is_pow2 v = true) by congruence. apply is_pow2_true. exists n. auto.
Qed.

Lemma calc_file_blocks_spec p fs bs :
  0 <= fs -> 0 < bs -> fs + bs < 2 ^ 64 ->
  exists n, calc_file_blocks p fs bs = Ret n /\ fs <= n * bs /\ forall m, fs <= m * bs -> n <= m.
Proof.
  intros Hf Hb Ho. unfold calc_file_blocks, wadd, wsub.
  replace (fs + bs <? 2 ^ 64) with true by lia. cbn [bind].
  replace (1 <=? fs + bs) with true by lia. cbn [bind].
  replace (bs =? 0) with false by lia. cbn [negb].
  eexists; split; [reflexivity|]. destruct (round_up_least bs fs Hb Hf) as (_ & H1 & H2).
  split; [exact H1|]. intros m Hm. specialize (H2 (m * bs) ltac:(exists m; reflexivity) Hm). nia.
Qed.

(** ** 32-bit cells *)

Lemma get_set_u32 b off v b' :
  0 <= v < 2 ^ 32 -> set_u32 b off v = Ret b' -> get_u32 b' off = Ret v.
Proof.
  intros Hv H. unfold set_u32 in H. destruct (off + 4 <=? length b)%nat eqn:E; [|discriminate].
  assert (E' : b' = write b off (le_bytes 4 v)) by congruence. subst b'. unfold get_u32. rewrite write_length by (rewrite le_bytes_length; lia).
  rewrite E. f_equal.
  pose proof (slice_write_same b off (le_bytes 4 v)) as S. rewrite le_bytes_length in S.
  rewrite S by lia. apply le_val_le_bytes_small. exact Hv.
Qed.
