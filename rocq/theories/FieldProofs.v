(** * Storing and reading one fixed-size field *)

From Coq Require Import ZifyBool ZifyNat ZifyN.
From Verif Require Import Base BaseFacts UtilModel StrModel TypesModel.
From Verif Require Import MarshalModel MarshalSpec ListFacts.
Ltac Zify.zify_post_hook ::= Z.div_mod_to_equations.

(** What a source answers for a field, which answers fit, and what is read from the data. *)
Definition ans (src : source) (f : ffield) : outcome Z :=
  match f_kind f with
  | FPrim p => src_prim src p (f_path f)
  | FLength => n <- src_len src (f_path f) ;; Ret (Z.of_nat n)
  | FBit _ _ _ => n <- src_tag src (f_path f) ;; Ret (Z.of_nat n)
  | FContainer _ _ => Panic
  end.

Definition fits (f : ffield) (z : Z) : Prop :=
  match f_kind f with
  | FPrim p => in_range p z
  | FLength => (0 <= z < 2 ^ 32)%Z
  | FBit _ _ n => (0 <= z < 2 ^ Z.of_nat n)%Z
  | FContainer _ _ => False
  end.

Definition rd (pf : profile) (f : ffield) (data : list byte) : outcome Z :=
  match f_kind f with
  | FPrim p => read_prim p data (f_offset f)
  | FLength => n <- read_length data (f_offset f) ;; Ret (Z.of_nat n)
  | FBit _ _ _ => n <- read_tag pf f data ;; Ret (Z.of_nat n)
  | FContainer _ _ => Panic
  end.

(** Tag containers have at most 64 bits. *)
Definition narrow (f : ffield) : Prop :=
  match f_kind f with FBit p _ _ => prim_size p <= 8 | _ => True end.

(** ** Bits *)

Definition bit_mask (o n : Z) : Z := Z.shiftl (Z.ones n) o.

Lemma bit_mask_spec o n i : (0 <= o)%Z -> (0 <= n)%Z -> (0 <= i)%Z ->
  Z.testbit (bit_mask o n) i = ((o <=? i) && (i <? o + n))%Z.
Proof.
  intros Ho Hn Hi. unfold bit_mask. rewrite Z.shiftl_spec by exact Hi.
  destruct (Z.leb_spec o i) as [H|H]; cbn [andb].
  - destruct (Z.ltb_spec i (o + n)).
    + apply Z.ones_spec_low. lia.
    + apply Z.ones_spec_high. lia.
  - apply Z.testbit_neg_r. lia.
Qed.

Lemma bit_mask_range o n w : (0 <= o)%Z -> (0 <= n)%Z -> (o + n <= w)%Z -> (0 <= bit_mask o n < 2 ^ w)%Z.
Proof.
  intros Ho Hn H. unfold bit_mask. rewrite Z.shiftl_mul_pow2, Z.ones_equiv by lia.
  assert (0 < 2 ^ n)%Z by (apply Z.pow_pos_nonneg; lia).
  assert (0 < 2 ^ o)%Z by (apply Z.pow_pos_nonneg; lia).
  assert (2 ^ n * 2 ^ o <= 2 ^ w)%Z.
  { rewrite <- Z.pow_add_r by lia. apply Z.pow_le_mono_r; lia. }
  nia.
Qed.

Lemma range_bits v w : (0 <= w)%Z -> (0 <= v)%Z -> (forall i, w <= i -> Z.testbit v i = false)%Z -> (v < 2 ^ w)%Z.
Proof.
  intros Hw Hv H. replace v with (v mod 2 ^ w)%Z.
  - apply Z.mod_pos_bound. apply Z.pow_pos_nonneg; lia.
  - apply Z.bits_inj'. intros i Hi. destruct (Z.ltb_spec i w).
    + apply Z.mod_pow2_bits_low. lia.
    + rewrite Z.mod_pow2_bits_high by lia. symmetry. apply H. lia.
Qed.

Lemma unot_spec w m i : (0 <= m < 2 ^ w)%Z -> (0 <= i < w)%Z -> Z.testbit (unot w m) i = negb (Z.testbit m i).
Proof.
  intros Hm Hi. unfold unot, umax. replace (2 ^ w - 1 - m)%Z with (Z.lnot m + 1 * 2 ^ w)%Z by (unfold Z.lnot; lia).
  rewrite <- (Z.mod_pow2_bits_low (Z.lnot m + 1 * 2 ^ w) w) by lia.
  rewrite Z.mod_add by (apply Z.pow_nonzero; lia). rewrite Z.mod_pow2_bits_low by lia. apply Z.lnot_spec. lia.
Qed.

(** The container after storing a tag. *)
Definition put_bits (o n v tag w : Z) : Z :=
  Z.lor (Z.land v (unot w (bit_mask o n))) (Z.land (Z.shiftl tag o mod 2 ^ w) (bit_mask o n)).

Lemma put_bits_range o n v tag w : (0 <= o)%Z -> (0 <= n)%Z -> (o + n <= w)%Z -> (0 <= v < 2 ^ w)%Z ->
  (0 <= put_bits o n v tag w < 2 ^ w)%Z.
Proof.
  intros Ho Hn H Hv. pose proof (bit_mask_range o n w Ho Hn H) as Hm.
  assert (H0 : (0 <= put_bits o n v tag w)%Z).
  { unfold put_bits. apply Z.lor_nonneg. split; apply Z.land_nonneg; [left; lia|right; lia]. }
  split; [exact H0|]. apply range_bits; [lia|exact H0|]. intros i Hi. unfold put_bits.
  rewrite Z.lor_spec, !Z.land_spec, (testbit_small v w), (testbit_small (bit_mask o n) w) by lia.
  cbn [andb orb]. apply andb_false_r.
Qed.

Lemma put_bits_spec o n v tag w i : (0 <= o)%Z -> (0 <= n)%Z -> (o + n <= w)%Z -> (0 <= v < 2 ^ w)%Z -> (0 <= i < w)%Z ->
  Z.testbit (put_bits o n v tag w) i =
  if ((o <=? i) && (i <? o + n))%Z then Z.testbit tag (i - o) else Z.testbit v i.
Proof.
  intros Ho Hn H Hv Hi. pose proof (bit_mask_range o n w Ho Hn H) as Hm. unfold put_bits.
  rewrite Z.lor_spec, !Z.land_spec, unot_spec, bit_mask_spec by lia.
  destruct ((o <=? i) && (i <? o + n))%Z eqn:E; cbn [negb].
  - rewrite andb_false_r, andb_true_r. cbn [orb]. rewrite Z.mod_pow2_bits_low, Z.shiftl_spec by lia. reflexivity.
  - rewrite andb_false_r, andb_true_r, orb_false_r. reflexivity.
Qed.

Definition get_bits (o n v : Z) : Z := Z.land (Z.shiftr (v mod 2 ^ 64) o) (2 ^ n - 1).

Lemma get_bits_spec o n v i : (0 <= o)%Z -> (0 <= n)%Z -> (o + n <= 64)%Z -> (0 <= i)%Z ->
  Z.testbit (get_bits o n v) i = ((i <? n)%Z && Z.testbit v (i + o)).
Proof.
  intros Ho Hn H Hi. unfold get_bits. rewrite land_low_mask by exact Hn.
  destruct (Z.ltb_spec i n) as [Hlt|Hge]; cbn [andb].
  - rewrite Z.mod_pow2_bits_low, Z.shiftr_spec, Z.mod_pow2_bits_low by lia. reflexivity.
  - apply Z.mod_pow2_bits_high. lia.
Qed.

Lemma get_put_same o n v tag w : (0 <= o)%Z -> (0 <= n)%Z -> (o + n <= w)%Z -> (w <= 64)%Z -> (0 <= v < 2 ^ w)%Z ->
  (0 <= tag < 2 ^ n)%Z -> get_bits o n (put_bits o n v tag w) = tag.
Proof.
  intros Ho Hn H Hw Hv Ht. apply Z.bits_inj'. intros i Hi. rewrite get_bits_spec by lia.
  destruct (Z.ltb_spec i n) as [Hlt|Hge]; cbn [andb].
  - rewrite put_bits_spec by lia. replace ((o <=? i + o) && (i + o <? o + n))%Z with true by lia. f_equal. lia.
  - symmetry. apply (testbit_small tag n); lia.
Qed.

Lemma get_put_other o n v tag w o' n' : (0 <= o)%Z -> (0 <= n)%Z -> (o + n <= w)%Z -> (w <= 64)%Z -> (0 <= v < 2 ^ w)%Z ->
  (0 <= o')%Z -> (0 <= n')%Z -> (o' + n' <= w)%Z -> (o + n <= o' \/ o' + n' <= o)%Z ->
  get_bits o' n' (put_bits o n v tag w) = get_bits o' n' v.
Proof.
  intros Ho Hn H Hw Hv Ho' Hn' H' Hd. apply Z.bits_inj'. intros i Hi. rewrite !get_bits_spec by lia.
  destruct (Z.ltb_spec i n') as [Hlt|Hge]; cbn [andb]; [|reflexivity].
  rewrite put_bits_spec by lia. replace ((o <=? i + o') && (i + o' <? o + n))%Z with false by lia. reflexivity.
Qed.

Lemma get_bits_range o n v : (0 <= n)%Z -> (0 <= get_bits o n v < 2 ^ n)%Z.
Proof.
  intros Hn. unfold get_bits. rewrite land_low_mask by exact Hn. apply Z.mod_pos_bound. apply Z.pow_pos_nonneg; lia.
Qed.

(** ** Primitive values as bytes *)

Lemma slice_write_eq {A} (l new : list A) off n :
  length new = n -> off + n <= length l -> slice (write l off new) off n = new.
Proof. intros <- H. apply slice_write_same. exact H. Qed.


Lemma raw_read_ok {A} (l : list A) o n : o + n <= length l -> raw_read l o n = Ret (slice l o n).
Proof.
  intros H. unfold raw_read. destruct (Nat.leb_spec o (length l)); [|lia].
  destruct (Nat.leb_spec (o + n) (length l)); [reflexivity|lia].
Qed.

Lemma raw_write_ok {A} (l new : list A) o : o + length new <= length l -> raw_write l o new = Ret (write l o new).
Proof.
  intros H. unfold raw_write. destruct (Nat.leb_spec o (length l)); [|lia].
  destruct (Nat.leb_spec (o + length new) (length l)); [reflexivity|lia].
Qed.

Lemma pow256 n : (256 ^ Z.of_nat n = 2 ^ (8 * Z.of_nat n))%Z.
Proof. change 256%Z with (2 ^ 8)%Z. rewrite <- Z.pow_mul_r by lia. reflexivity. Qed.

Lemma decode_le p z : in_range p z -> decode_prim p (le_bytes (prim_size p) z) = Ret z.
Proof.
  intros H. unfold decode_prim. rewrite le_val_le_bytes, pow256. unfold prim_bits.
  destruct p; cbn [prim_size is_signed andb in_range] in *;
    match goal with |- context [Z.of_nat ?n] => let v := eval vm_compute in (Z.of_nat n) in change (Z.of_nat n) with v in * end;
    change (8 * 1)%Z with 8%Z in *; change (8 * 2)%Z with 16%Z in *; change (8 * 4)%Z with 32%Z in *;
    change (8 * 8)%Z with 64%Z in *; change (8 * 16)%Z with 128%Z in *.
  - destruct H; subst z; reflexivity.
  - unfold is_char in *. rewrite Z.mod_small by lia. rewrite H. reflexivity.
  - rewrite Z.mod_small by lia. reflexivity.
  - rewrite Z.mod_small by lia. reflexivity.
  - rewrite Z.mod_small by lia. reflexivity.
  - rewrite Z.mod_small by lia. reflexivity.
  - rewrite Z.mod_small by lia. reflexivity.
  - change (2 ^ (8 - 1))%Z with 128%Z in *. change (2 ^ 8)%Z with 256%Z in *. 
    destruct (Z.leb_spec 128 (z mod 256)); f_equal; lia.
  - change (2 ^ (16 - 1))%Z with 32768%Z in *. change (2 ^ 16)%Z with 65536%Z in *.
    destruct (Z.leb_spec 32768 (z mod 65536)); f_equal; lia.
  - change (2 ^ (32 - 1))%Z with 2147483648%Z in *. change (2 ^ 32)%Z with 4294967296%Z in *.
    destruct (Z.leb_spec 2147483648 (z mod 4294967296)); f_equal; lia.
  - set (a := (2 ^ (64 - 1))%Z) in *. change (2 ^ 64)%Z with (2 * a)%Z.
    assert (0 < a)%Z by reflexivity. clearbody a.
    destruct (Z.lt_ge_cases z 0).
    + assert (E : (z mod (2 * a) = z + 2 * a)%Z) by (rewrite <- (Z_mod_plus_full z 1); rewrite Z.mod_small; lia).
      rewrite E. destruct (Z.leb_spec a (z + 2 * a)); f_equal; lia.
    + rewrite Z.mod_small by lia. destruct (Z.leb_spec a z); f_equal; lia.
  - set (a := (2 ^ (128 - 1))%Z) in *. change (2 ^ 128)%Z with (2 * a)%Z.
    assert (0 < a)%Z by reflexivity. clearbody a.
    destruct (Z.lt_ge_cases z 0).
    + assert (E : (z mod (2 * a) = z + 2 * a)%Z) by (rewrite <- (Z_mod_plus_full z 1); rewrite Z.mod_small; lia).
      rewrite E. destruct (Z.leb_spec a (z + 2 * a)); f_equal; lia.
    + rewrite Z.mod_small by lia. destruct (Z.leb_spec a z); f_equal; lia.
  - rewrite Z.mod_small by lia. reflexivity.
  - rewrite Z.mod_small by lia. reflexivity.
Qed.

(** ** One field *)

Lemma unsigned_size p : is_unsigned p = true -> prim_size p <= 8 ->
  prim_bits p = 8%Z \/ prim_bits p = 16%Z \/ prim_bits p = 32%Z \/ prim_bits p = 64%Z.
Proof. destruct p; cbn; intros; try discriminate; try lia; auto. Qed.

Lemma slice_le_range data o n : o + n <= length data ->
  (0 <= le_val (slice data o n) < 2 ^ (8 * Z.of_nat n))%Z.
Proof.
  intros H. rewrite <- pow256. pose proof (le_val_range (slice data o n)) as G. rewrite slice_length in G by exact H. exact G.
Qed.

Lemma read_tag_value pf f data p o n :
  f_kind f = FBit p o n -> is_unsigned p = true -> o + n <= 8 * prim_size p -> prim_size p <= 8 ->
  n < 8 * prim_size p -> (pf = Debug -> o < 8 * prim_size p) ->
  f_offset f + prim_size p <= length data ->
  read_tag pf f data =
  Ret (Z.to_nat (get_bits (Z.of_nat o) (Z.of_nat n) (le_val (slice data (f_offset f) (prim_size p))))).
Proof.
  intros Hk Hu Hfit Hsz Hn Ho Hlen. unfold read_tag. rewrite Hk, Hu, raw_read_ok by exact Hlen. cbn [bind].
  set (V := (le_val (slice data (f_offset f) (prim_size p)))).
  assert (Hm : wshl pf 64 1 (Z.of_nat n) = Ret (2 ^ Z.of_nat n)%Z).
  { unfold wshl. destruct (Z.ltb_spec (Z.of_nat n) 64); [|lia]. rewrite Z.shiftl_1_l, Z.mod_small; [reflexivity|].
    split; [apply Z.pow_nonneg; lia|apply Z.pow_lt_mono_r; lia]. }
  assert (Hp : (0 < 2 ^ Z.of_nat n)%Z) by (apply Z.pow_pos_nonneg; lia).
  assert (Hs : wsub pf 64 (2 ^ Z.of_nat n) 1 = Ret (2 ^ Z.of_nat n - 1)%Z).
  { unfold wsub. destruct (Z.leb_spec 1 (2 ^ Z.of_nat n)); [reflexivity|lia]. }
  unfold wshr. destruct (Z.ltb_spec (Z.of_nat o) 64) as [Hlt|Hge].
  - cbn [bind]. rewrite Hm. cbn [bind]. rewrite Hs. cbn [bind]. reflexivity.
  - destruct pf; [specialize (Ho eq_refl); lia|]. cbn [bind]. rewrite Hm. cbn [bind]. rewrite Hs. cbn [bind].
    assert (n = 0) as -> by lia. unfold get_bits. change (2 ^ Z.of_nat 0 - 1)%Z with 0%Z. rewrite !Z.land_0_r. reflexivity.
Qed.

Lemma encode_tag_value pf src buf f p o n tag :
  f_kind f = FBit p o n -> is_unsigned p = true -> o + n <= 8 * prim_size p -> prim_size p <= 8 ->
  n < 8 * prim_size p -> (pf = Debug -> o < 8 * prim_size p) ->
  f_offset f + prim_size p <= length buf ->
  src_tag src (f_path f) = Ret tag -> (Z.of_nat tag < 2 ^ Z.of_nat n)%Z ->
  encode_fixed pf src buf f =
  Ret (write buf (f_offset f) (le_bytes (prim_size p)
        (put_bits (Z.of_nat o) (Z.of_nat n) (le_val (slice buf (f_offset f) (prim_size p))) (Z.of_nat tag) (prim_bits p)))).
Proof.
  intros Hk Hu Hfit Hsz Hn Ho Hlen Hs Ht. unfold encode_fixed. rewrite Hk, Hs, Hu. cbn [bind].
  assert (Hw : prim_bits p = (8 * Z.of_nat (prim_size p))%Z) by reflexivity.
  assert (Hp : (0 < 2 ^ Z.of_nat n)%Z) by (apply Z.pow_pos_nonneg; lia).
  assert (Hpw : (2 ^ Z.of_nat n < 2 ^ prim_bits p)%Z) by (apply Z.pow_lt_mono_r; lia).
  assert (H1 : wshl pf (prim_bits p) 1 (Z.of_nat n) = Ret (2 ^ Z.of_nat n)%Z).
  { unfold wshl. destruct (Z.ltb_spec (Z.of_nat n) (prim_bits p)); [|lia]. rewrite Z.shiftl_1_l, Z.mod_small; [reflexivity|].
    lia. }
  rewrite H1. cbn [bind]. unfold wsub. destruct (Z.leb_spec 1 (2 ^ Z.of_nat n)); [|lia]. cbn [bind].
  replace (2 ^ Z.of_nat n - 1)%Z with (Z.ones (Z.of_nat n)) by (rewrite Z.ones_equiv; lia).
  pose proof (slice_le_range buf (f_offset f) (prim_size p) Hlen) as HV.
  set (V := le_val (slice buf (f_offset f) (prim_size p))) in *.
  rewrite (Z.mod_small (Z.of_nat tag)) by lia.
  unfold wshl. destruct (Z.ltb_spec (Z.of_nat o) (prim_bits p)) as [Hlt|Hge].
  - cbn [bind]. rewrite raw_read_ok by exact Hlen. cbn [bind]. fold V.
    rewrite raw_write_ok by (rewrite le_bytes_length; exact Hlen). do 3 f_equal. unfold put_bits.
    change (Z.shiftl (Z.ones (Z.of_nat n)) (Z.of_nat o)) with (bit_mask (Z.of_nat o) (Z.of_nat n)).
    rewrite (Z.mod_small (bit_mask _ _)) by (apply bit_mask_range; lia). reflexivity.
  - destruct pf; [specialize (Ho eq_refl); lia|]. cbn [bind]. rewrite raw_read_ok by exact Hlen. cbn [bind]. fold V.
    rewrite raw_write_ok by (rewrite le_bytes_length; exact Hlen). do 3 f_equal. unfold put_bits, bit_mask.
    assert (n = 0) as -> by lia. change (Z.ones (Z.of_nat 0)) with 0%Z. rewrite !Z.shiftl_0_l, Zmod_0_l, !Z.land_0_r. reflexivity.
Qed.

Definition sound_field (pf : profile) (vo : nat) (f : ffield) : Prop :=
  well_placed vo f /\ storable pf f /\ narrow f.

(** Reading a field depends only on its own bytes. *)
Lemma rd_ext pf vo f d1 d2 : sound_field pf vo f -> vo <= length d1 -> vo <= length d2 ->
  slice d1 (f_offset f) (field_size f) = slice d2 (f_offset f) (field_size f) -> rd pf f d1 = rd pf f d2.
Proof.
  intros ((H1 & H2 & H3) & H4 & H5) L1 L2 E. unfold rd, field_size in *. unfold storable in H4. unfold narrow in H5.
  destruct (f_kind f) as [p| |i p|p o n] eqn:Ek.
  - unfold read_prim. rewrite !raw_read_ok by lia. rewrite E. reflexivity.
  - unfold read_length. rewrite !raw_read_ok by lia. rewrite E. reflexivity.
  - destruct H3.
  - destruct H3 as [Hu Hb]. rewrite !(read_tag_value pf f _ p o n) by (try assumption; try lia; tauto). rewrite E. reflexivity.
Qed.

Lemma encode_fixed_ok pf src vo buf f z :
  sound_field pf vo f -> vo <= length buf -> ans src f = Ret z -> fits f z ->
  exists buf', encode_fixed pf src buf f = Ret buf' /\ length buf' = length buf /\
    rd pf f buf' = Ret z /\
    (forall g, sound_field pf vo g -> no_overlap f g -> rd pf g buf' = rd pf g buf) /\
    (forall i, vo <= i -> nth_error buf' i = nth_error buf i).
Proof.
  intros Hf Hlen Hans Hfit. pose proof Hf as ((H1 & H2 & H3) & H4 & H5).
  assert (Hfs : exists p, field_size f = prim_size p).
  { unfold field_size. destruct (f_kind f) as [p| |i p|p o n]; try (exists p; reflexivity). exists PU32. reflexivity. }
  (* the general shape: a write of the field's bytes *)
  assert (G : forall bytes, length bytes = field_size f ->
     encode_fixed pf src buf f = Ret (write buf (f_offset f) bytes) ->
     rd pf f (write buf (f_offset f) bytes) = Ret z ->
     (forall g, sound_field pf vo g -> bits_disjoint f g -> rd pf g (write buf (f_offset f) bytes) = rd pf g buf) ->
     exists buf', encode_fixed pf src buf f = Ret buf' /\ length buf' = length buf /\
       rd pf f buf' = Ret z /\
       (forall g, sound_field pf vo g -> no_overlap f g -> rd pf g buf' = rd pf g buf) /\
       (forall i, vo <= i -> nth_error buf' i = nth_error buf i)).
  { intros bytes Lb E R B. exists (write buf (f_offset f) bytes).
    split; [exact E|]. split; [apply write_length; lia|]. split; [exact R|]. split.
    - intros g Hg [D|D]; [|apply B; assumption]. apply rd_ext with (vo := vo); [exact Hg|rewrite write_length; lia|lia|].
      apply slice_write_other; [lia|]. unfold bytes_disjoint in D. lia.
    - intros i Hi. rewrite nth_error_write by lia. replace ((f_offset f <=? i) && (i <? f_offset f + length bytes)) with false by lia.
      reflexivity. }
  unfold ans in Hans. unfold fits in Hfit. unfold storable in H4. unfold narrow in H5.
  destruct (f_kind f) as [p| |i p|p o n] eqn:Ek.
  - apply (G (le_bytes (prim_size p) z)).
    + rewrite le_bytes_length. unfold field_size. rewrite Ek. reflexivity.
    + unfold encode_fixed. rewrite Ek.
      rewrite Hans. cbn [bind]. apply raw_write_ok. rewrite le_bytes_length. unfold field_size in H1. rewrite Ek in H1. lia.
    + unfold rd. rewrite Ek. unfold read_prim. unfold field_size in H1. rewrite Ek in H1.
      rewrite raw_read_ok by (rewrite write_length; rewrite ?le_bytes_length; lia). cbn [bind].
      rewrite slice_write_eq by (apply le_bytes_length || lia).
      apply decode_le. exact Hfit.
    + intros g _ (p1 & o1 & n1 & o2 & n2 & E & _). congruence.
  - inv_bind Hans. injection Hans as <-. unfold field_size in H1. rewrite Ek in H1.
    apply (G (le_bytes 4 (Z.of_nat a))).
    + rewrite le_bytes_length. unfold field_size. rewrite Ek. reflexivity.
    + unfold encode_fixed. rewrite Ek, Ha. cbn [bind]. destruct (Z.leb_spec (Z.of_nat a) (2 ^ 32 - 1)); [|lia]. cbn [bind].
      apply raw_write_ok. rewrite le_bytes_length. lia.
    + unfold rd. rewrite Ek. unfold read_length.
      rewrite raw_read_ok by (rewrite write_length; rewrite ?le_bytes_length; lia). cbn [bind].
      rewrite slice_write_eq by (apply le_bytes_length || lia).
      rewrite le_val_le_bytes_small by (change (256 ^ Z.of_nat 4)%Z with (2 ^ 32)%Z; lia). f_equal. lia.
    + intros g _ (p1 & o1 & n1 & o2 & n2 & E & _). congruence.
  - destruct Hfit.
  - inv_bind Hans. injection Hans as <-. destruct H3 as [Hu Hb]. destruct H4 as [H4 H4'].
    unfold field_size in H1. rewrite Ek in H1.
    pose proof (slice_le_range buf (f_offset f) (prim_size p) ltac:(lia)) as HV.
    set (V := le_val (slice buf (f_offset f) (prim_size p))) in *.
    assert (Hw : prim_bits p = (8 * Z.of_nat (prim_size p))%Z) by reflexivity. rewrite <- Hw in HV.
    pose proof (put_bits_range (Z.of_nat o) (Z.of_nat n) V (Z.of_nat a) (prim_bits p) ltac:(lia) ltac:(lia) ltac:(lia) ltac:(lia)) as HP.
    set (W := put_bits (Z.of_nat o) (Z.of_nat n) V (Z.of_nat a) (prim_bits p)) in *.
    assert (EW : le_val (slice (write buf (f_offset f) (le_bytes (prim_size p) W)) (f_offset f) (prim_size p)) = W).
    { rewrite slice_write_eq by (apply le_bytes_length || lia).
      apply le_val_le_bytes_small. rewrite pow256, <- Hw. lia. }
    apply (G (le_bytes (prim_size p) W)).
    + rewrite le_bytes_length. unfold field_size. rewrite Ek. reflexivity.
    + apply encode_tag_value; try assumption; lia.
    + unfold rd. rewrite Ek. rewrite (read_tag_value pf f _ p o n); try assumption;
        [|rewrite write_length; rewrite ?le_bytes_length; lia].
      cbn [bind]. rewrite EW. unfold W. rewrite get_put_same by lia. f_equal. lia.
    + intros g ((G1 & G2 & G3) & G4 & G5) (p1 & o1 & n1 & o2 & n2 & E1 & E2 & E3 & D). assert (p1 = p /\ o1 = o /\ n1 = n) by (repeat split; congruence).
      destruct H as (-> & -> & ->). unfold rd. rewrite E2. rewrite E2 in G3. unfold storable in G4. unfold narrow in G5. rewrite E2 in G4, G5.
      unfold field_size in G1. rewrite E2 in G1. destruct G3 as [G3 G3']. destruct G4 as [G4 G4'].
      rewrite !(read_tag_value pf g _ p o2 n2); try assumption; try lia;
        [|rewrite write_length; rewrite ?le_bytes_length; lia].
      cbn [bind]. rewrite <- E3, EW. fold V. unfold W. rewrite get_put_other by lia. reflexivity.
Qed.

(** ** All fixed fields of a record *)

Lemma encode_fixed_all pf src vo fx : forall buf,
  Forall (sound_field pf vo) fx -> ForallOrdPairs no_overlap fx -> vo <= length buf ->
  Forall (fun f => exists z, ans src f = Ret z /\ fits f z) fx ->
  exists buf', foldM (encode_fixed pf src) fx buf = Ret buf' /\ length buf' = length buf /\
    (forall i, vo <= i -> nth_error buf' i = nth_error buf i) /\
    Forall (fun f => rd pf f buf' = ans src f) fx /\
    (forall g, sound_field pf vo g -> Forall (fun f => no_overlap f g) fx -> rd pf g buf' = rd pf g buf).
Proof.
  induction fx as [|f fx IH]; intros buf Hs Hd Hlen Ha.
  - exists buf. repeat split; auto.
  - inversion Hs as [|? ? Hf Hs']; subst. inversion Hd as [|? ? Hfd Hd']; subst.
    inversion Ha as [|? ? (z & Hz & Hfit) Ha']; subst.
    destruct (encode_fixed_ok pf src vo buf f z Hf Hlen Hz Hfit) as (b1 & E1 & L1 & R1 & O1 & K1).
    destruct (IH b1 Hs' Hd' ltac:(lia) Ha') as (b2 & E2 & L2 & K2 & R2 & O2).
    exists b2. cbn [foldM]. rewrite E1. cbn [bind]. split; [exact E2|]. split; [lia|]. split.
    { intros i Hi. rewrite K2, K1 by exact Hi. reflexivity. }
    split.
    + constructor; [|exact R2]. rewrite O2; [congruence|exact Hf|].
      eapply Forall_impl; [|exact Hfd]. intros g. cbv beta. unfold no_overlap, bytes_disjoint, bits_disjoint.
      intros [D|(p & o & n & o' & n' & A & B & C & D)]; [left; lia|right]. exists p, o', n', o, n. repeat split; auto. lia.
    + intros g Hg HF. inversion HF as [|? ? Hfg HF']; subst. rewrite O2, O1 by assumption. reflexivity.
Qed.
