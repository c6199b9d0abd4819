(** * Proofs about the geometry of a volume and its allocation bitmap *)

From Coq Require Import ZifyBool ZifyNat ZifyN.
From Verif Require Import Base BaseFacts UtilModel UtilProofs StorageModel StorageSpec StorageProofs.
Local Open Scope Z_scope.
Ltac Zify.zify_post_hook ::= Z.div_mod_to_equations.

(** ** Checked arithmetic *)

Lemma wadd_debug w a b r : wadd Debug w a b = Ret r -> r = a + b /\ a + b < 2 ^ w.
Proof. unfold wadd. destruct (Z.ltb_spec (a + b) (2 ^ w)); [|discriminate]. split; [congruence|assumption]. Qed.

Lemma wmul_debug w a b r : wmul Debug w a b = Ret r -> r = a * b /\ a * b < 2 ^ w.
Proof. unfold wmul. destruct (Z.ltb_spec (a * b) (2 ^ w)); [|discriminate]. split; [congruence|assumption]. Qed.

Lemma wsub_debug w a b r : wsub Debug w a b = Ret r -> r = a - b /\ b <= a.
Proof. unfold wsub. destruct (Z.leb_spec b a); [|discriminate]. split; [congruence|assumption]. Qed.

Lemma wadd_any p w a b r : wadd Debug w a b = Ret r -> wadd p w a b = Ret r.
Proof. unfold wadd. destruct (_ <? _); [auto|discriminate]. Qed.
Lemma wmul_any p w a b r : wmul Debug w a b = Ret r -> wmul p w a b = Ret r.
Proof. unfold wmul. destruct (_ <? _); [auto|discriminate]. Qed.
Lemma wsub_any p w a b r : wsub Debug w a b = Ret r -> wsub p w a b = Ret r.
Proof. unfold wsub. destruct (_ <=? _); [auto|discriminate]. Qed.
Lemma wshl_any p w a k r : wshl Debug w a k = Ret r -> wshl p w a k = Ret r.
Proof. unfold wshl. destruct (_ <? _); [auto|discriminate]. Qed.

Lemma bind_any {A B} (x x' : outcome A) (f f' : A -> outcome B) b :
  (forall a, x = Ret a -> x' = Ret a) -> (forall a, f a = Ret b -> f' a = Ret b) -> bind x f = Ret b -> bind x' f' = Ret b.
Proof.
  intros Hx Hf H. apply bind_Ret_inv in H as [a [E H]]. rewrite (Hx _ E). cbn. now apply Hf.
Qed.

Lemma check_any {A} (b : bool) (x y : outcome A) r :
  (x = Ret r -> y = Ret r) -> (if b then x else Panic) = Ret r -> (if b then y else Panic) = Ret r.
Proof. destruct b; auto. Qed.

(** A geometry computed without overflow is the same in both profiles. *)
Lemma geometry_any p prm g : geometry_of Debug prm = Ret g -> geometry_of p prm = Ret g.
Proof.
  unfold geometry_of, align_w, calc_file_blocks.
  repeat first [ apply bind_any; [intros ?|intros ?] | apply wshl_any | apply wmul_any | apply wadd_any
               | apply wsub_any | apply check_any | exact (fun H => H) ].
Qed.

Lemma align8 v r : 0 <= v -> align_w Debug 64 v 8 = Ret r -> r = (v + 7) / 8 * 8.
Proof.
  intros Hv H. change 8 with (2 ^ 3) in H.
  rewrite align_w_value in H; [|lia|lia|lia|].
  { change (2 ^ 3) with 8 in H. replace (v + 8 - 1) with (v + 7) in H by lia. congruence. }
  unfold align_w in H. apply bind_Ret_inv in H as [a [H _]]. apply wadd_debug in H. lia.
Qed.

(** What the numbers are. *)
Lemma geometry_facts prm g :
  0 <= log_block_size prm -> 0 <= log_file_header_size prm -> 0 <= volume_size prm ->
  geometry_of Debug prm = Ret g ->
  let bs := 2 ^ log_block_size prm in
  let t := g_file_table_blocks g in
  g_block_size g = bs /\ g_file_table_offset g = bs /\ g_file_table_size g = 16 * 2 ^ log_file_header_size prm /\
  0 < t /\ g_file_table_size g <= t * bs < g_file_table_size g + bs /\
  g_mirror_offset g = bs + t * bs /\ g_bitmap_offset g = bs + t * bs + t /\
  volume_size prm = g_bitmap_bits g * bs /\
  g_bitmap_bits g <= 8 * g_bitmap_size g < g_bitmap_bits g + 8 /\
  g_bitmap_size g <= g_bitmap_blocks g * bs < g_bitmap_size g + bs /\
  g_total_allocated g = 1 + 2 * t + g_bitmap_blocks g /\
  0 <= g_bitmap_bits g /\ 0 <= g_bitmap_blocks g /\ g_bitmap_offset g < 2 ^ 64 /\ g_total_allocated g < 2 ^ 64 /\
  log_block_size prm < 64.
Proof.
  intros Hb Hf Hv H. unfold geometry_of in H.
  apply bind_Ret_inv in H as [bs [E0 H]]. pose proof E0 as E0'.
  destruct (wshl_one _ _ _ Hb E0) as [lb [Hlb [-> Q0]]].
  apply bind_Ret_inv in H as [fh [E1 H]]. pose proof E1 as E1'.
  destruct (wshl_one _ _ _ Hf E1) as [lf [Hlf [-> Q1]]].
  assert (lb = log_block_size prm) as ->.
  { apply Q0. unfold wshl in E0'. destruct (Z.ltb_spec (log_block_size prm) 64); [assumption|discriminate]. }
  assert (lf = log_file_header_size prm) as ->.
  { apply Q1. unfold wshl in E1'. destruct (Z.ltb_spec (log_file_header_size prm) 64); [assumption|discriminate]. }
  rewrite E0' in H. cbn [bind] in H. clear E0 E1 E0' E1' Q0 Q1.
  set (bs := 2 ^ log_block_size prm) in *. set (fh := 2 ^ log_file_header_size prm) in *.
  assert (0 < bs) by (apply Z.pow_pos_nonneg; lia). assert (0 < fh) by (apply Z.pow_pos_nonneg; lia).
  apply bind_Ret_inv in H as [fts [E H]]. apply wmul_debug in E as [-> O1].
  apply bind_Ret_inv in H as [s [E H]]. apply wadd_debug in E as [-> O2].
  apply bind_Ret_inv in H as [s1 [E H]]. apply wsub_debug in E as [-> O3].
  unfold file_table_num_reserved in *. set (t := (fh * 16 + bs - 1) / bs) in *.
  assert (T : fh * 16 <= t * bs < fh * 16 + bs).
  { pose proof (Z.div_mod (fh * 16 + bs - 1) bs ltac:(lia)) as D.
    pose proof (Z.mod_pos_bound (fh * 16 + bs - 1) bs ltac:(lia)). fold t in D. nia. }
  assert (0 < t) by nia.
  apply bind_Ret_inv in H as [tb [E H]]. apply wmul_debug in E as [-> O4].
  apply bind_Ret_inv in H as [mo [E H]]. apply wadd_debug in E as [-> O5].
  apply bind_Ret_inv in H as [bo [E H]]. apply wadd_debug in E as [-> O6].
  destruct (Z.eqb_spec (volume_size prm mod bs) 0) as [V|]; [|discriminate].
  assert (VB : volume_size prm = volume_size prm / bs * bs).
  { pose proof (Z.div_mod (volume_size prm) bs ltac:(lia)). lia. }
  assert (Hbits : 0 <= volume_size prm / bs) by (apply Z.div_pos; lia).
  set (bits := volume_size prm / bs) in *.
  apply bind_Ret_inv in H as [al [E H]]. apply align8 in E; [subst al|exact Hbits].
  rewrite Z.shiftr_div_pow2 in H by lia. change (2 ^ 3) with 8 in H. rewrite Z.div_mul in H by lia.
  set (size := (bits + 7) / 8) in *.
  assert (SZ : bits <= 8 * size < bits + 8) by (subst size; lia).
  apply bind_Ret_inv in H as [bb [E H]]. unfold calc_file_blocks in E.
  apply bind_Ret_inv in E as [u [E1 E]]. apply wadd_debug in E1 as [-> O7].
  apply bind_Ret_inv in E as [u1 [E1 E]]. apply wsub_debug in E1 as [-> O8].
  destruct (negb (bs =? 0)); [|discriminate].
  apply (f_equal (fun x => match x with Ret q => q | _ => 0 end)) in E. cbv beta iota in E.
  assert (BB : size <= bb * bs < size + bs /\ 0 <= bb).
  { rewrite <- E. pose proof (Z.div_mod (size + bs - 1) bs ltac:(lia)) as D.
    pose proof (Z.mod_pos_bound (size + bs - 1) bs ltac:(lia)).
    assert (0 <= (size + bs - 1) / bs) by (apply Z.div_pos; lia). nia. }
  apply bind_Ret_inv in H as [tt2 [E2 H]]. apply wmul_debug in E2 as [-> O9].
  apply bind_Ret_inv in H as [t1 [E2 H]]. apply wadd_debug in E2 as [-> O10].
  apply bind_Ret_inv in H as [to [E2 H]]. apply wadd_debug in E2 as [-> O11].
  apply (f_equal (fun x => match x with Ret q => q | _ => g end)) in H. cbv beta iota in H. subst g.
  cbn [g_block_size g_file_table_offset g_file_table_size g_file_table_blocks g_mirror_offset g_bitmap_offset
       g_bitmap_bits g_bitmap_size g_bitmap_blocks g_total_allocated].
  repeat match goal with |- _ /\ _ => split end; try lia; try reflexivity.
Qed.

(** Parameters for which nothing overflows. *)
Lemma geometry_exists prm :
  0 <= log_block_size prm <= 32 -> 0 <= log_file_header_size prm <= 32 ->
  0 <= volume_size prm < 2 ^ 63 -> volume_size prm mod 2 ^ log_block_size prm = 0 ->
  exists g, geometry_of Debug prm = Ret g.
Proof.
  intros Hb Hf Hv Hm. unfold geometry_of.
  assert (S : forall k, 0 <= k <= 32 -> wshl Debug 64 1 k = Ret (2 ^ k) /\ 0 < 2 ^ k <= 2 ^ 32).
  { intros k Hk. unfold wshl. replace (k <? 64) with true by lia.
    rewrite Z.shiftl_mul_pow2, Z.mul_1_l by lia.
    pose proof (Z.pow_le_mono_r 2 k 32 ltac:(lia) ltac:(lia)). pose proof (Z.pow_pos_nonneg 2 k ltac:(lia) ltac:(lia)).
    rewrite Z.mod_small by lia. split; [reflexivity|lia]. }
  destruct (S _ Hb) as [-> Bb]. destruct (S _ Hf) as [-> Bf]. cbn [bind]. clear S.
  set (bs := 2 ^ log_block_size prm) in *. set (fh := 2 ^ log_file_header_size prm) in *.
  unfold file_table_num_reserved.
  unfold wmul at 1. replace (fh * 16 <? 2 ^ 64) with true by lia. cbn [bind].
  unfold wadd at 1. replace (fh * 16 + bs <? 2 ^ 64) with true by lia. cbn [bind].
  unfold wsub at 1. replace (1 <=? fh * 16 + bs) with true by lia. cbn [bind].
  set (t := (fh * 16 + bs - 1) / bs).
  assert (T : fh * 16 <= t * bs < fh * 16 + bs).
  { pose proof (Z.div_mod (fh * 16 + bs - 1) bs ltac:(lia)) as D.
    pose proof (Z.mod_pos_bound (fh * 16 + bs - 1) bs ltac:(lia)). fold t in D. nia. }
  assert (0 < t <= 2 ^ 36) by nia.
  unfold wmul at 1. replace (t * bs <? 2 ^ 64) with true by lia. cbn [bind].
  unfold wadd at 1. replace (bs + t * bs <? 2 ^ 64) with true by lia. cbn [bind].
  unfold wadd at 1. replace (bs + t * bs + t <? 2 ^ 64) with true by lia. cbn [bind].
  rewrite Hm. change (0 =? 0) with true. cbv beta iota.
  set (bits := volume_size prm / bs).
  assert (0 <= bits <= volume_size prm).
  { subst bits. split; [apply Z.div_pos; lia|]. apply Z.div_le_upper_bound; nia. }
  change 8 with (2 ^ 3). rewrite align_w_value by lia. change (2 ^ 3) with 8. cbn [bind].
  rewrite Z.shiftr_div_pow2 by lia. change (2 ^ 3) with 8. rewrite Z.div_mul by lia.
  set (size := (bits + 8 - 1) / 8). assert (0 <= size <= 2 ^ 63) by (subst size; lia).
  destruct (calc_file_blocks_spec Debug size bs ltac:(lia) ltac:(lia) ltac:(lia)) as [bb [E [B1 B2]]].
  rewrite E. cbn [bind].
  assert (bb <= size) by (apply B2; nia).
  unfold wmul at 1. replace (t * 2 <? 2 ^ 64) with true by lia. cbn [bind].
  unfold wadd at 1. replace (1 + t * 2 <? 2 ^ 64) with true by lia. cbn [bind].
  unfold wadd at 1. replace (1 + t * 2 + bb <? 2 ^ 64) with true by lia. cbn [bind].
  eauto.
Qed.

(** ** The bitmap *)

Lemma all_ones_bit i : 0 <= i -> Z.testbit all_ones i = (i <? 128).
Proof.
  intros Hi. change all_ones with (Z.ones 128). rewrite Z.testbit_ones by lia. lia.
Qed.

(** Bit [i] of the word from [b]. *)
Definition expected (total bits b i : Z) : bool :=
  (if (b <=? total) && (total <? b + 128) then total <=? b + i else true) &&
  (if (b <=? bits) && (bits <? b + 128) then i <? 128 - (bits - b) else true).

Lemma bitmap_word_bits p total bits b : 0 <= total -> 0 <= bits -> 0 <= b -> b + 128 < 2 ^ 64 ->
  exists w, bitmap_word p total bits b = Ret w /\
    forall i, 0 <= i < 128 -> Z.testbit w i = expected total bits b i.
Proof.
  intros Ht Hs Hb Ho. unfold bitmap_word, wadd. replace (b + 128 <? 2 ^ 64) with true by lia. cbn [bind].
  assert (L : exists l, (if (b <=? total) && (total <? b + 128) then wshl p 128 all_ones (total - b) else Ret all_ones) = Ret l /\
    forall i, 0 <= i < 128 -> Z.testbit l i = if (b <=? total) && (total <? b + 128) then total <=? b + i else true).
  { destruct ((b <=? total) && (total <? b + 128)) eqn:E.
    - unfold wshl. replace (total - b <? 128) with true by lia. eexists. split; [reflexivity|]. intros i Hi.
      rewrite Z.mod_pow2_bits_low by lia. rewrite Z.shiftl_spec by lia.
      destruct (Z.leb_spec total (b + i)).
      + rewrite all_ones_bit by lia. lia.
      + apply Z.testbit_neg_r. lia.
    - eexists. split; [reflexivity|]. intros i Hi. rewrite all_ones_bit by lia. lia. }
  assert (R : exists l, (if (b <=? bits) && (bits <? b + 128) then wshr p 128 all_ones (bits - b) else Ret all_ones) = Ret l /\
    forall i, 0 <= i < 128 -> Z.testbit l i = if (b <=? bits) && (bits <? b + 128) then i <? 128 - (bits - b) else true).
  { destruct ((b <=? bits) && (bits <? b + 128)) eqn:E.
    - unfold wshr. replace (bits - b <? 128) with true by lia. eexists. split; [reflexivity|]. intros i Hi.
      rewrite Z.shiftr_spec by lia. rewrite all_ones_bit by lia. lia.
    - eexists. split; [reflexivity|]. intros i Hi. rewrite all_ones_bit by lia. lia. }
  destruct L as [l [-> L]]. destruct R as [r [-> R]]. cbn [bind]. eexists. split; [reflexivity|].
  intros i Hi. rewrite Z.land_spec, L, R by lia. reflexivity.
Qed.

Lemma bitmap_block_words p total bits : 0 <= total -> 0 <= bits -> forall words b,
  0 <= b -> b + 128 * Z.of_nat words < 2 ^ 64 ->
  exists ws, bitmap_block p total bits words b = Ret (ws, b + 128 * Z.of_nat words) /\ length ws = words /\
    forall k w, nth_error ws k = Some w ->
      forall i, 0 <= i < 128 -> Z.testbit w i = expected total bits (b + 128 * Z.of_nat k) i.
Proof.
  intros Ht Hs. induction words as [|n IH]; intros b Hb Ho; cbn [bitmap_block].
  - exists []. split; [do 2 f_equal; lia|]. split; [reflexivity|]. intros [|k] w H; discriminate.
  - destruct (bitmap_word_bits p total bits b Ht Hs Hb ltac:(lia)) as [w [E W]]. rewrite E. cbn [bind].
    unfold wadd. replace (b + 128 <? 2 ^ 64) with true by lia. cbn [bind].
    destruct (IH (b + 128) ltac:(lia) ltac:(lia)) as [ws [E2 [L2 W2]]]. rewrite E2. cbn [bind].
    exists (w :: ws). split; [do 2 f_equal; lia|]. split; [cbn; congruence|].
    intros [|k] w' H i Hi; cbn in H.
    + injection H as <-. rewrite W by lia. f_equal. lia.
    + rewrite (W2 _ _ H i Hi). f_equal. lia.
Qed.

Lemma bitmap_blocks_words p total bits words : 0 <= total -> 0 <= bits -> forall blocks b,
  0 <= b -> b + 128 * Z.of_nat words * Z.of_nat blocks < 2 ^ 64 ->
  exists bm, bitmap_blocks p total bits words blocks b = Ret bm /\ length (concat bm) = (words * blocks)%nat /\
    forall k w, nth_error (concat bm) k = Some w ->
      forall i, 0 <= i < 128 -> Z.testbit w i = expected total bits (b + 128 * Z.of_nat k) i.
Proof.
  intros Ht Hs. induction blocks as [|n IH]; intros b Hb Ho; cbn [bitmap_blocks].
  - exists []. split; [reflexivity|]. split; [cbn; lia|]. intros [|k] w H; discriminate.
  - destruct (bitmap_block_words p total bits Ht Hs words b Hb ltac:(nia)) as [ws [E [L W]]]. rewrite E. cbn [bind].
    destruct (IH (b + 128 * Z.of_nat words) ltac:(lia) ltac:(nia)) as [bm [E2 [L2 W2]]]. rewrite E2. cbn [bind].
    exists (ws :: bm). split; [reflexivity|]. cbn [concat]. split; [rewrite app_length; nia|].
    intros k w H i Hi. destruct (Nat.lt_ge_cases k (length ws)) as [K|K].
    + rewrite nth_error_app1 in H by exact K. exact (W _ _ H i Hi).
    + rewrite nth_error_app2 in H by exact K. rewrite (W2 _ _ H i Hi). f_equal. lia.
Qed.

(** Every bit of the bitmap. *)
Lemma bitmap_bits p total bits words blocks :
  0 <= total -> 0 <= bits -> 128 * Z.of_nat words * Z.of_nat blocks < 2 ^ 64 ->
  exists bm, bitmap_blocks p total bits words blocks 0 = Ret bm /\
    forall n, bit_of bm n =
      if Z.of_nat n <? 128 * Z.of_nat words * Z.of_nat blocks
      then Some ((if total / 128 =? Z.of_nat n / 128 then total <=? Z.of_nat n else true) &&
                 (if bits / 128 =? Z.of_nat n / 128 then Z.of_nat n mod 128 <? 128 - bits mod 128 else true))
      else None.
Proof.
  intros Ht Hs Ho. destruct (bitmap_blocks_words p total bits words Ht Hs blocks 0 ltac:(lia) ltac:(lia)) as [bm [E [L W]]].
  exists bm. split; [exact E|]. intros n. unfold bit_of.
  destruct (nth_error (concat bm) (n / 128)) as [w|] eqn:N; cbn [option_map].
  - assert (n / 128 < words * blocks)%nat by (rewrite <- L; apply nth_error_Some; congruence).
    replace (Z.of_nat n <? 128 * Z.of_nat words * Z.of_nat blocks) with true by nia.
    rewrite (W _ _ N) by lia. unfold expected. f_equal. f_equal.
    + replace ((0 + 128 * Z.of_nat (n / 128) <=? total) && (total <? 0 + 128 * Z.of_nat (n / 128) + 128))
        with (total / 128 =? Z.of_nat n / 128) by lia.
      destruct (total / 128 =? Z.of_nat n / 128); [lia|reflexivity].
    + replace ((0 + 128 * Z.of_nat (n / 128) <=? bits) && (bits <? 0 + 128 * Z.of_nat (n / 128) + 128))
        with (bits / 128 =? Z.of_nat n / 128) by lia.
      destruct (Z.eqb_spec (bits / 128) (Z.of_nat n / 128)); [lia|reflexivity].
  - apply nth_error_None in N. rewrite L in N.
    replace (Z.of_nat n <? 128 * Z.of_nat words * Z.of_nat blocks) with false by nia. reflexivity.
Qed.

(** When the bitmap is right. *)
Lemma bitmap_correct p total bits words blocks :
  0 <= total < bits -> bits <= 128 * Z.of_nat words * Z.of_nat blocks < 2 ^ 64 ->
  exists bm, bitmap_blocks p total bits words blocks 0 = Ret bm /\
    (marks_free bm total bits <->
     total < 128 /\ (bits = 128 * Z.of_nat words * Z.of_nat blocks \/
                     bits + 64 = 128 * Z.of_nat words * Z.of_nat blocks)).
Proof.
  intros Ht Hs. destruct (bitmap_bits p total bits words blocks ltac:(lia) ltac:(lia) ltac:(lia)) as [bm [E B]].
  exists bm. split; [exact E|]. unfold marks_free. remember (128 * Z.of_nat words * Z.of_nat blocks) as N.
  assert (N128 : N mod 128 = 0).
  { subst N. rewrite <- Z.mul_assoc, Z.mul_comm. apply Z.mod_mul. lia. }
  split.
  - intros M. split.
    + destruct (Z.lt_ge_cases total 128) as [|G]; [assumption|exfalso].
      specialize (M 0%nat). rewrite B in M. change (Z.of_nat 0) with 0 in M.
      replace (0 <? N) with true in M by lia. specialize (M _ eq_refl).
      replace (total / 128 =? 0 / 128) with false in M by lia.
      replace (bits / 128 =? 0 / 128) with false in M by lia. cbn in M. lia.
    + destruct (Z.eq_dec bits N) as [|Ne]; [now left|right].
      destruct (Z.eq_dec (bits mod 128) 64) as [E64|N64].
      * destruct (Z.eq_dec (bits + 64) N) as [|G]; [assumption|exfalso].
        specialize (M (Z.to_nat (bits + 64))). rewrite B in M. rewrite Z2Nat.id in M by lia.
        replace (bits + 64 <? N) with true in M by lia. specialize (M _ eq_refl).
        replace (bits / 128 =? (bits + 64) / 128) with false in M by lia.
        replace (bits + 64 <? bits) with false in M by lia. rewrite andb_false_r, andb_true_r in M.
        destruct (total / 128 =? (bits + 64) / 128); lia.
      * exfalso. destruct (Z.lt_ge_cases (bits mod 128) 64) as [L|G].
        -- specialize (M (Z.to_nat bits)). rewrite B in M. rewrite Z2Nat.id in M by lia.
           replace (bits <? N) with true in M by lia. specialize (M _ eq_refl).
           rewrite Z.eqb_refl in M. replace (bits <? bits) with false in M by lia.
           replace (bits mod 128 <? 128 - bits mod 128) with true in M by lia.
           rewrite andb_false_r, andb_true_r in M. destruct (total / 128 =? bits / 128); lia.
        -- specialize (M (Z.to_nat (bits - 1))). rewrite B in M. rewrite Z2Nat.id in M by lia.
           replace (bits - 1 <? N) with true in M by lia. specialize (M _ eq_refl).
           replace (bits / 128 =? (bits - 1) / 128) with true in M by lia.
           replace ((bits - 1) mod 128 <? 128 - bits mod 128) with false in M by lia.
           rewrite andb_false_r in M. lia.
  - intros [T Q] n b Hb. rewrite B in Hb. destruct (Z.ltb_spec (Z.of_nat n) N) as [Ln|]; [|discriminate].
    apply (f_equal (fun x => match x with Some q => q | None => b end)) in Hb. cbv beta iota in Hb. subst b.
    assert (A : (if total / 128 =? Z.of_nat n / 128 then total <=? Z.of_nat n else true) = (total <=? Z.of_nat n)).
    { destruct (Z.eqb_spec (total / 128) (Z.of_nat n / 128)); [reflexivity|]. lia. }
    rewrite A. f_equal. destruct Q as [Q|Q].
    + replace (bits / 128 =? Z.of_nat n / 128) with false by lia. lia.
    + clear HeqN B E A. assert (bits mod 128 = 64) by lia.
      assert (128 * (bits / 128) + 128 = N) by lia.
      pose proof (Z.div_mod (Z.of_nat n) 128 ltac:(lia)). pose proof (Z.mod_pos_bound (Z.of_nat n) 128 ltac:(lia)).
      pose proof (Z.div_mod bits 128 ltac:(lia)).
      generalize dependent (Z.of_nat n / 128). generalize dependent (Z.of_nat n mod 128). intros r Hr q Hq.
      generalize dependent (bits / 128). intros k K1 K2.
      destruct (Z.eqb_spec k q). all: lia.
Qed.

(** A word that lies completely behind the last block of the volume is all ones. *)
Lemma bitmap_beyond p total bits words blocks :
  0 <= total <= bits -> 128 * Z.of_nat words * Z.of_nat blocks < 2 ^ 64 ->
  exists bm, bitmap_blocks p total bits words blocks 0 = Ret bm /\
    forall n b, bits <= 128 * (Z.of_nat n / 128) -> bit_of bm n = Some b -> b = true.
Proof.
  intros Ht Ho. destruct (bitmap_bits p total bits words blocks ltac:(lia) ltac:(lia) ltac:(lia)) as [bm [E B]].
  exists bm. split; [exact E|]. intros n b Hn. rewrite B.
  destruct (Z.of_nat n <? _); [|discriminate]. intros Hb.
  apply (f_equal (fun x => match x with Some q => q | None => b end)) in Hb. cbv beta iota in Hb. subst b.
  destruct (Z.eqb_spec (total / 128) (Z.of_nat n / 128)), (Z.eqb_spec (bits / 128) (Z.of_nat n / 128)); lia.
Qed.

(** Metadata that fills the first word or more is marked free there. *)
Lemma bitmap_metadata_free p total bits words blocks :
  128 <= total -> 128 <= bits -> 128 * Z.of_nat words * Z.of_nat blocks < 2 ^ 64 ->
  exists bm, bitmap_blocks p total bits words blocks 0 = Ret bm /\
    forall n b, Z.of_nat n < 128 -> bit_of bm n = Some b -> b = true.
Proof.
  intros Ht Hs Ho. destruct (bitmap_bits p total bits words blocks ltac:(lia) ltac:(lia) ltac:(lia)) as [bm [E B]].
  exists bm. split; [exact E|]. intros n b Hn. rewrite B.
  destruct (Z.of_nat n <? _); [|discriminate]. intros Hb.
  apply (f_equal (fun x => match x with Some q => q | None => b end)) in Hb. cbv beta iota in Hb. subst b.
  destruct (Z.eqb_spec (total / 128) (Z.of_nat n / 128)), (Z.eqb_spec (bits / 128) (Z.of_nat n / 128)); lia.
Qed.

(** ** Both together *)

Lemma regions prm g :
  0 <= log_block_size prm -> 0 <= log_file_header_size prm -> 0 <= volume_size prm ->
  geometry_of Debug prm = Ret g ->
  let bs := 2 ^ log_block_size prm in
  let table := g_file_table_blocks g * bs in
  disjoint 0 bs (g_file_table_offset g) table /\ disjoint 0 bs (g_mirror_offset g) table /\
  disjoint (g_file_table_offset g) table (g_mirror_offset g) table /\
  (bs | g_file_table_offset g) /\ (bs | g_mirror_offset g) /\
  16 * 2 ^ log_file_header_size prm <= table < 16 * 2 ^ log_file_header_size prm + bs.
Proof.
  intros Hb Hf Hv H. destruct (geometry_facts _ _ Hb Hf Hv H)
    as (_ & B & C & D & F & G & _). cbn zeta.
  set (bs := 2 ^ log_block_size prm) in *. assert (0 < bs) by (apply Z.pow_pos_nonneg; lia).
  unfold disjoint. rewrite B, G. rewrite C in F.
  split; [lia|]. split; [nia|]. split; [lia|]. split; [apply Z.divide_refl|].
  split; [exists (1 + g_file_table_blocks g); lia|]. exact F.
Qed.

Lemma bitmap_place prm g :
  0 <= log_block_size prm -> 0 <= log_file_header_size prm -> 0 <= volume_size prm ->
  geometry_of Debug prm = Ret g ->
  let bs := 2 ^ log_block_size prm in
  let table := g_file_table_blocks g * bs in
  (g_mirror_offset g <= g_bitmap_offset g < g_mirror_offset g + table <-> 1 <= log_block_size prm) /\
  ((bs | g_bitmap_offset g) <-> (bs | g_file_table_blocks g)) /\
  (5 <= log_block_size prm -> log_file_header_size prm <= log_block_size prm -> ~ (bs | g_bitmap_offset g)) /\
  (1 <= log_block_size prm -> 0 < volume_size prm ->
   ~ disjoint (g_mirror_offset g) table (g_bitmap_offset g) (g_bitmap_blocks g * bs)).
Proof.
  intros Hb Hf Hv H. destruct (geometry_facts _ _ Hb Hf Hv H)
    as (_ & B & C & D & F & G & J & K & L & M & _ & N & O & _). cbn zeta.
  assert (P : 1 <= log_block_size prm -> 2 <= 2 ^ log_block_size prm).
  { intros. change 2 with (2 ^ 1) at 1. apply Z.pow_le_mono_r; lia. }
  assert (P5 : 5 <= log_block_size prm -> 32 <= 2 ^ log_block_size prm).
  { intros. change 32 with (2 ^ 5). apply Z.pow_le_mono_r; lia. }
  assert (PF : log_file_header_size prm <= log_block_size prm -> 2 ^ log_file_header_size prm <= 2 ^ log_block_size prm).
  { intros. apply Z.pow_le_mono_r; lia. }
  assert (P0 : log_block_size prm < 1 -> 2 ^ log_block_size prm = 1) by (intros; replace (log_block_size prm) with 0 by lia; reflexivity).
  set (bs := 2 ^ log_block_size prm) in *. assert (0 < bs) by (apply Z.pow_pos_nonneg; lia).
  set (t := g_file_table_blocks g) in *.
  assert (Q : (bs | g_bitmap_offset g) <-> (bs | t)).
  { rewrite J. split; intros D1.
    - replace t with (bs + t * bs + t - (1 + t) * bs) by lia. apply Z.divide_sub_r; [assumption|exists (1 + t); lia].
    - apply Z.divide_add_r; [exists (1 + t); lia|assumption]. }
  split; [|split; [exact Q|split]].
  - rewrite J, G. split; [intros [_ W]|intros W; specialize (P W); nia].
    destruct (Z.lt_ge_cases (log_block_size prm) 1); [rewrite P0 in W by lia; lia|lia].
  - intros H5 HF D1. apply Q in D1. specialize (P5 H5). specialize (PF HF). rewrite C in F.
    apply Z.divide_pos_le in D1; [|lia]. nia.
  - intros H1 V. specialize (P H1). unfold disjoint. rewrite J, G.
    assert (0 < g_bitmap_bits g) by nia. assert (0 < g_bitmap_blocks g) by nia. nia.
Qed.

Lemma bitmap_words p prm g :
  4 <= log_block_size prm <= 32 -> 0 <= log_file_header_size prm -> 0 <= volume_size prm < 2 ^ 64 ->
  geometry_of Debug prm = Ret g ->
  let bs := 2 ^ log_block_size prm in
  exists words blocks, Z.of_nat words = bs / 16 /\ Z.of_nat blocks = g_bitmap_blocks g /\
    128 * Z.of_nat words * Z.of_nat blocks = 8 * bs * g_bitmap_blocks g /\
    8 * bs * g_bitmap_blocks g < 2 ^ 64 /\ g_bitmap_bits g <= 8 * bs * g_bitmap_blocks g < g_bitmap_bits g + 8 * bs /\
    bitmap p g = bitmap_blocks p (g_total_allocated g) (g_bitmap_bits g) words blocks 0.
Proof.
  intros Hb Hf Hv H. destruct (geometry_facts prm g ltac:(lia) Hf ltac:(lia) H)
    as (A & B & C & D & F & G & J & K & L & M & T & N & O & _). cbn zeta.
  assert (R : 2 ^ log_block_size prm = 16 * 2 ^ (log_block_size prm - 4)).
  { change 16 with (2 ^ 4). rewrite <- Z.pow_add_r by lia. f_equal. lia. }
  pose proof (Z.pow_le_mono_r 2 (log_block_size prm) 32 ltac:(lia) ltac:(lia)) as U.
  assert (P : 0 < 2 ^ (log_block_size prm - 4)) by (apply Z.pow_pos_nonneg; lia).
  set (bs := 2 ^ log_block_size prm) in *. set (w := 2 ^ (log_block_size prm - 4)) in *.
  exists (Z.to_nat w), (Z.to_nat (g_bitmap_blocks g)). rewrite !Z2Nat.id by lia.
  split; [rewrite R, Z.mul_comm, Z.div_mul; lia|]. split; [reflexivity|].
  assert (E : 128 * w = 8 * bs) by lia.
  split; [rewrite E; reflexivity|].
  assert (X : g_bitmap_bits g <= 2 ^ 60) by nia.
  split; [nia|]. split; [nia|]. unfold bitmap, wmul. rewrite A.
  replace (bs * 8 <? 2 ^ 64) with true by lia. cbn [bind].
  replace (bs * 8 / 128) with w by (replace (bs * 8) with (w * 128) by lia; rewrite Z.div_mul; lia). reflexivity.
Qed.

Lemma bit_of_some p total bits words blocks bm :
  0 <= total -> 0 <= bits -> 128 * Z.of_nat words * Z.of_nat blocks < 2 ^ 64 ->
  bitmap_blocks p total bits words blocks 0 = Ret bm ->
  forall n, Z.of_nat n < 128 * Z.of_nat words * Z.of_nat blocks -> bit_of bm n <> None.
Proof.
  intros Ht Hs Ho E n Hn. destruct (bitmap_bits p total bits words blocks Ht Hs Ho) as [bm' [E' B]].
  assert (bm' = bm) as -> by congruence. rewrite B. replace (_ <? _) with true by lia. discriminate.
Qed.

(** Where a number of blocks of [b] bits ends. *)
Lemma whole_blocks b x y r : 0 < b -> b * y - b < x <= b * y -> 0 <= r < b -> (x + r = b * y <-> x mod b = (b - r) mod b).
Proof.
  intros Hb Hx Hr. split; intros E.
  - replace x with ((b - r) + (y - 1) * b) by (rewrite Z.mul_sub_distr_r, (Z.mul_comm y b); lia). apply Z.mod_add. lia.
  - assert (M : (x + r) mod b = 0).
    { rewrite <- Z.add_mod_idemp_l, E, Z.add_mod_idemp_l by lia. replace (b - r + r) with b by lia. apply Z.mod_same. lia. }
    pose proof (Z.div_mod (x + r) b ltac:(lia)) as D. rewrite M in D. revert D. generalize ((x + r) / b). intros q D.
    assert (y - 1 < q) by (apply (Z.mul_lt_mono_pos_l b); [exact Hb|rewrite Z.mul_sub_distr_l; lia]).
    assert (q < y + 1) by (apply (Z.mul_lt_mono_pos_l b); [exact Hb|rewrite Z.mul_add_distr_l; lia]).
    rewrite D. replace q with y by lia. lia.
Qed.

Lemma bitmap_right p prm g :
  4 <= log_block_size prm <= 32 -> 0 <= log_file_header_size prm -> 0 <= volume_size prm < 2 ^ 64 ->
  geometry_of Debug prm = Ret g -> g_total_allocated g < g_bitmap_bits g ->
  let per_block := 8 * 2 ^ log_block_size prm in
  exists bm, bitmap p g = Ret bm /\
    (forall n, Z.of_nat n < g_bitmap_bits g -> bit_of bm n <> None) /\
    (marks_free bm (g_total_allocated g) (g_bitmap_bits g) <->
     g_total_allocated g < 128 /\
     (g_bitmap_bits g mod per_block = 0 \/ g_bitmap_bits g mod per_block = per_block - 64)).
Proof.
  intros Hb Hf Hv H Lt. destruct (bitmap_words p prm g Hb Hf Hv H) as [w [b (W & Bl & E & O & R & ->)]].
  destruct (geometry_facts prm g ltac:(lia) Hf ltac:(lia) H) as (_ & _ & _ & D & _ & _ & _ & _ & _ & _ & T & N & Bn & _).
  cbn zeta. assert (R16 : 16 <= 2 ^ log_block_size prm) by (change 16 with (2 ^ 4); apply Z.pow_le_mono_r; lia).
  set (bs := 2 ^ log_block_size prm) in *.
  destruct (bitmap_correct p (g_total_allocated g) (g_bitmap_bits g) w b ltac:(lia) ltac:(lia)) as [bm [Eb M]].
  exists bm. split; [exact Eb|]. split.
  { intros n Hn. eapply bit_of_some; [| | |exact Eb|]; lia. }
  rewrite M, E. clear M Eb E.
  assert (Q : forall r, 0 <= r < 8 * bs -> (g_bitmap_bits g + r = 8 * bs * g_bitmap_blocks g <->
                                          g_bitmap_bits g mod (8 * bs) = (8 * bs - r) mod (8 * bs))).
  { intros r Hr. apply whole_blocks; [lia|lia|exact Hr]. }
  clearbody bs.
  assert (P1 : 0 <= 0 < 8 * bs) by (clear - R16; lia). assert (P2 : 0 <= 64 < 8 * bs) by (clear - R16; lia).
  assert (P3 : 8 * bs <> 0) by (clear - R16; lia).
  assert (M0 : (8 * bs - 0) mod (8 * bs) = 0) by (rewrite Z.sub_0_r; apply Z.mod_same; exact P3).
  assert (M64 : (8 * bs - 64) mod (8 * bs) = 8 * bs - 64) by (apply Z.mod_small; clear - R16; lia).
  pose proof (Q 0 P1) as Q0. pose proof (Q 64 P2) as Q64. rewrite M0 in Q0. rewrite M64 in Q64.
  rewrite <- Q0, <- Q64. rewrite Z.add_0_r. reflexivity.
Qed.

Lemma bitmap_wrong_metadata p prm g :
  4 <= log_block_size prm <= 32 -> 0 <= log_file_header_size prm -> 0 <= volume_size prm < 2 ^ 64 ->
  geometry_of Debug prm = Ret g -> 128 <= g_total_allocated g < g_bitmap_bits g ->
  exists bm, bitmap p g = Ret bm /\ forall n, (n < 128)%nat -> bit_of bm n = Some true.
Proof.
  intros Hb Hf Hv H Lt. destruct (bitmap_words p prm g Hb Hf Hv H) as [w [b (W & Bl & E & O & R & ->)]].
  destruct (bitmap_metadata_free p (g_total_allocated g) (g_bitmap_bits g) w b ltac:(lia) ltac:(lia) ltac:(lia)) as [bm [Eb M]].
  exists bm. split; [exact Eb|]. intros n Hn.
  assert (S : bit_of bm n <> None) by (eapply bit_of_some; [| | |exact Eb|]; lia).
  destruct (bit_of bm n) as [x|] eqn:B; [|contradiction]. rewrite (M n x ltac:(lia) B). reflexivity.
Qed.

Lemma bitmap_wrong_end p prm g :
  4 <= log_block_size prm <= 32 -> 0 <= log_file_header_size prm -> 0 <= volume_size prm < 2 ^ 64 ->
  geometry_of Debug prm = Ret g -> g_total_allocated g <= g_bitmap_bits g ->
  exists bm, bitmap p g = Ret bm /\
    forall n, g_bitmap_bits g <= 128 * (Z.of_nat n / 128) ->
      Z.of_nat n < 8 * 2 ^ log_block_size prm * g_bitmap_blocks g -> bit_of bm n = Some true.
Proof.
  intros Hb Hf Hv H Lt. destruct (bitmap_words p prm g Hb Hf Hv H) as [w [b (W & Bl & E & O & R & ->)]].
  destruct (geometry_facts prm g ltac:(lia) Hf ltac:(lia) H) as (_ & _ & _ & D & _ & _ & _ & _ & _ & _ & T & N & Bn & _).
  destruct (bitmap_beyond p (g_total_allocated g) (g_bitmap_bits g) w b ltac:(lia) ltac:(lia)) as [bm [Eb M]].
  exists bm. split; [exact Eb|]. intros n Hn Ln.
  assert (S : bit_of bm n <> None) by (eapply bit_of_some; [| | |exact Eb|]; lia).
  destruct (bit_of bm n) as [x|] eqn:B; [|contradiction]. rewrite (M n x Hn B). reflexivity.
Qed.

Lemma sizes prm g :
  0 <= log_block_size prm -> 0 <= log_file_header_size prm -> 0 <= volume_size prm ->
  geometry_of Debug prm = Ret g ->
  let bs := 2 ^ log_block_size prm in
  volume_size prm = g_bitmap_bits g * bs /\
  g_bitmap_bits g <= 8 * g_bitmap_size g < g_bitmap_bits g + 8 /\
  g_bitmap_size g <= g_bitmap_blocks g * bs < g_bitmap_size g + bs /\
  g_total_allocated g = 1 + 2 * g_file_table_blocks g + g_bitmap_blocks g.
Proof.
  intros Hb Hf Hv H. destruct (geometry_facts _ _ Hb Hf Hv H)
    as (_ & _ & _ & _ & _ & _ & _ & K & L & M & T & _). auto.
Qed.

Lemma geometry_both prm :
  0 <= log_block_size prm <= 32 -> 0 <= log_file_header_size prm <= 32 ->
  0 <= volume_size prm < 2 ^ 63 -> volume_size prm mod 2 ^ log_block_size prm = 0 ->
  exists g, geometry_of Debug prm = Ret g /\ geometry_of Release prm = Ret g.
Proof.
  intros H1 H2 H3 H4. destruct (geometry_exists prm H1 H2 H3 H4) as [g G]. exists g. split; [exact G|].
  now apply geometry_any.
Qed.

Lemma volume_too_small : exists size prm g,
  new_with_defaults size = Ret prm /\ geometry_of Debug prm = Ret g /\ g_bitmap_bits g < g_total_allocated g.
Proof.
  exists 8192. do 2 eexists. split; [vm_compute; reflexivity|]. split; [vm_compute; reflexivity|]. reflexivity.
Qed.

Lemma default_block_size size prm : new_with_defaults size = Ret prm ->
  2 ^ log_block_size prm = 2 * 4096 /\ volume_size prm = size /\ (8192 | size) /\ 8192 <= size <= 2 ^ 45.
Proof.
  unfold new_with_defaults. change (2 ^ default_log_block_size) with 8192.
  destruct ((size mod 8192 =? 0) && (1 <=? size / 8192)) eqn:A; [|discriminate].
  destruct (size / 8192 <=? 2 ^ 32 - 1 + 1) eqn:B; [|discriminate]. intros E.
  apply (f_equal (fun x => match x with Ret q => q | _ => prm end)) in E. cbv beta iota in E. subst prm.
  cbn [log_block_size volume_size]. split; [reflexivity|]. split; [reflexivity|].
  split; [apply Z.mod_divide; lia|]. lia.
Qed.

Lemma first_ids p n : (n <= 255)%nat ->
  exists m, draw p n manager_new = Ret (m, map (fun i => Ok (Z.of_nat i)) (seq 0 n)) /\
    NoDup (map (fun i => @Ok Z unit (Z.of_nat i)) (seq 0 n)).
Proof.
  intros H. eexists. split; [|apply ids_nodup]. rewrite draw_ids by (cbn [manager_new m_next]; lia).
  cbn [manager_new m_next m_volumes m_pool]. reflexivity.
Qed.

Lemma ids_exhausted k : (0 < k)%nat ->
  draw Debug (255 + k) manager_new = Panic /\
  exists m, draw Release (255 + k) manager_new
    = Ret (m, map (fun i => Ok (Z.of_nat i)) (seq 0 255) ++ repeat (Err tt) k).
Proof.
  intros H. rewrite !draw_app. rewrite !(draw_ids _ 255) by (cbn [manager_new m_next]; lia). cbn [bind]. split.
  - rewrite draw_full_debug; [reflexivity|reflexivity|exact H].
  - rewrite draw_full_release by reflexivity. cbn [bind]. eexists. f_equal.
Qed.

Lemma location_fields index offset : 0 <= index < 2 ^ 8 -> 0 <= offset < 2 ^ 56 ->
  exists l, location_new index offset = Ret l /\ 0 <= l < 2 ^ 64 /\
    location_index l = index /\ location_offset l = offset.
Proof.
  intros Hi Ho. exists (index * 2 ^ 56 + offset). split; [now apply location_value|]. split; [lia|].
  now apply location_parts.
Qed.

Lemma push_single_accepted : exists ls h h' ls',
  threads ls h [0]%nat /\ list_push_front head_default ls 0 = Ret (h', ls') /\
  threads ls' h [0]%nat /\ threads ls' h' [0]%nat.
Proof.
  exists [link_default], {| h_head := 0; h_tail := 0 |}, {| h_head := 0; h_tail := 0 |}, [link_default].
  assert (T : threads [link_default] {| h_head := 0; h_tail := 0 |} [0]%nat).
  { split; cbn; (split; [reflexivity|eexists; split; reflexivity]). }
  split; [exact T|]. split; [reflexivity|]. split; exact T.
Qed.

Lemma pool_memory_small bs n : is_pow2 bs = true -> 1 < n < nil_index -> bs * n mod 2 ^ 64 < bs * n ->
  exists m bytes, pool_new Release (fun _ => true) bs n = Ret (Ok (m, bytes)) /\ bytes < bs * n /\
    (1 < length (p_buffers m))%nat.
Proof.
  intros Hb Hn Hw.
  destruct (pool_release (fun _ => true) bs n Hb ltac:(lia) eq_refl) as [m (E & _ & _ & B & _)].
  exists m, (bs * n mod 2 ^ 64). split; [exact E|]. split; [exact Hw|]. rewrite B, repeat_length. lia.
Qed.

Lemma pool_memory_wraps : exists buffer_size num_buffers m bytes,
  pool_new Release (fun _ => true) buffer_size num_buffers = Ret (Ok (m, bytes)) /\ bytes < buffer_size * num_buffers /\
  (1 < length (p_buffers m))%nat.
Proof.
  exists (2 ^ 33), (2 ^ 31 + 1). apply pool_memory_small; [reflexivity| |reflexivity]. split; reflexivity.
Qed.

Lemma create_without_pool p e rest prm g :
  geometry_of p prm = Ret g -> e_open e = true -> e_set_len e = true ->
  snd (create p e rest manager_new prm) = Panic.
Proof.
  intros Hg Ho Hs. unfold create. rewrite Hg, Ho, Hs. cbn [negb].
  destruct p; vm_compute; reflexivity.
Qed.
