(** * The bits written by the encoder *)

From Coq Require Import Permutation ZifyBool ZifyNat ZifyN.
From Verif Require Import Base BaseFacts UtilModel UtilSpec UtilProofs StrModel TypesModel TypesSpec TypesProofs.
From Verif Require Import MarshalModel MarshalSpec ListFacts LayoutProofs FieldProofs MarshalMore FormatSpec.
Ltac Zify.zify_post_hook ::= Z.div_mod_to_equations.

Lemma width_size p : prim_size p = width p.
Proof. destruct p; reflexivity. Qed.

Lemma field_width_size f : field_size f = field_width f.
Proof. unfold field_size, field_width. destruct (f_kind f); rewrite ?width_size; reflexivity. Qed.

(** ** Bits of buffers *)

Lemma byte_bit b k : N.testbit (Byte.to_N b) k = Z.testbit (b2z b) (Z.of_N k).
Proof. unfold b2z. rewrite Z.testbit_of_N. reflexivity. Qed.

Lemma bit_of_nth a b x : nth_error a (x / 8) = nth_error b (x / 8) -> bit_of a x = bit_of b x.
Proof. unfold bit_of. intros ->. reflexivity. Qed.

Lemma le_bytes_bit n : forall z x, x < 8 * n -> bit_of (le_bytes n z) x = Some (Z.testbit z (Z.of_nat x)).
Proof.
  induction n as [|n IH]; intros z x Hx; [lia|]. cbn [le_bytes]. unfold bit_of.
  destruct (Nat.lt_ge_cases x 8) as [Hlt|Hge].
  - rewrite Nat.div_small, Nat.mod_small by lia. cbn [nth_error]. f_equal. rewrite byte_bit, b2z_z2b.
    change 256%Z with (2 ^ 8)%Z. rewrite Z.mod_pow2_bits_low by lia. f_equal. lia.
  - replace x with ((x - 8) + 1 * 8) by lia. rewrite Nat.div_add, Nat.mod_add by lia.
    rewrite Nat.add_1_r. cbn [nth_error]. specialize (IH (z / 256)%Z (x - 8) ltac:(lia)). unfold bit_of in IH. rewrite IH. f_equal.
    change 256%Z with (2 ^ 8)%Z. rewrite Z.div_pow2_bits by lia. f_equal. lia.
Qed.

Lemma bit_of_write buf o new x : o + length new <= length buf ->
  bit_of (write buf o new) x = if (8 * o <=? x) && (x <? 8 * (o + length new)) then bit_of new (x - 8 * o) else bit_of buf x.
Proof.
  intros H. unfold bit_of. rewrite nth_error_write by exact H.
  replace ((o <=? x / 8) && (x / 8 <? o + length new)) with ((8 * o <=? x) && (x <? 8 * (o + length new))) by lia.
  destruct ((8 * o <=? x) && (x <? 8 * (o + length new))) eqn:E; [|reflexivity].
  replace (x - 8 * o) with (x + 0 - o * 8) by lia.
  replace ((x + 0 - o * 8) / 8) with (x / 8 - o) by lia. replace ((x + 0 - o * 8) mod 8) with (x mod 8) by lia. reflexivity.
Qed.

Lemma slice_bit buf o n x : o + n <= length buf -> x < 8 * n -> bit_of (slice buf o n) x = bit_of buf (8 * o + x).
Proof.
  intros H Hx. unfold bit_of. rewrite nth_error_slice. replace (x / 8 <? n) with true by lia.
  replace ((8 * o + x) / 8) with (o + x / 8) by lia. replace ((8 * o + x) mod 8) with (x mod 8) by lia. reflexivity.
Qed.

Lemma le_val_bit l x : x < 8 * length l -> bit_of l x = Some (Z.testbit (le_val l) (Z.of_nat x)).
Proof. intros H. rewrite <- (le_bytes_le_val l) at 1. apply le_bytes_bit. exact H. Qed.

Lemma byte_from_bits a b i : (forall k, k < 8 -> bit_of a (8 * i + k) = bit_of b (8 * i + k)) -> nth_error a i = nth_error b i.
Proof.
  intros B. unfold bit_of in B.
  assert (E : forall k, k < 8 -> (8 * i + k) / 8 = i /\ (8 * i + k) mod 8 = k) by (intros; lia).
  destruct (nth_error a i) as [x|] eqn:E1, (nth_error b i) as [y|] eqn:E2; try reflexivity.
  - f_equal. apply b2z_inj. apply Z.bits_inj'. intros k Hk. destruct (Z.lt_ge_cases k 8) as [Hlt|Hge].
    + specialize (B (Z.to_nat k) ltac:(lia)). destruct (E (Z.to_nat k) ltac:(lia)) as [E3 E4].
      rewrite E3, E4, E1, E2, !byte_bit in B.
      injection B as B. replace (Z.of_N (N.of_nat (Z.to_nat k))) with k in B by lia. exact B.
    + pose proof (b2z_range x). pose proof (b2z_range y). rewrite !(testbit_small _ 8) by (change (2 ^ 8)%Z with 256%Z; lia). reflexivity.
  - specialize (B 0 ltac:(lia)). destruct (E 0 ltac:(lia)) as [E3 _]. rewrite E3, E1, E2 in B. discriminate.
  - specialize (B 0 ltac:(lia)). destruct (E 0 ltac:(lia)) as [E3 _]. rewrite E3, E1, E2 in B. discriminate.
Qed.

(** ** One field *)

(** The tag of any size, cut to the bits there are. *)
Lemma encode_tag_any pf src buf f p o n tag :
  f_kind f = FBit p o n -> is_unsigned p = true -> o + n <= 8 * prim_size p ->
  n < 8 * prim_size p -> (pf = Debug -> o < 8 * prim_size p) ->
  f_offset f + prim_size p <= length buf -> src_tag src (f_path f) = Ret tag ->
  encode_fixed pf src buf f =
  Ret (write buf (f_offset f) (le_bytes (prim_size p)
        (put_bits (Z.of_nat o) (Z.of_nat n) (le_val (slice buf (f_offset f) (prim_size p)))
           (Z.of_nat tag mod 2 ^ prim_bits p) (prim_bits p)))).
Proof.
  intros Hk Hu Hfit Hn Ho Hlen Hs. unfold encode_fixed. rewrite Hk, Hs, Hu. cbn [bind].
  assert (Hw : prim_bits p = (8 * Z.of_nat (prim_size p))%Z) by reflexivity.
  assert (Hp : (0 < 2 ^ Z.of_nat n)%Z) by (apply Z.pow_pos_nonneg; lia).
  assert (Hpw : (2 ^ Z.of_nat n < 2 ^ prim_bits p)%Z) by (apply Z.pow_lt_mono_r; lia).
  assert (H1 : wshl pf (prim_bits p) 1 (Z.of_nat n) = Ret (2 ^ Z.of_nat n)%Z).
  { unfold wshl. destruct (Z.ltb_spec (Z.of_nat n) (prim_bits p)); [|lia]. rewrite Z.shiftl_1_l, Z.mod_small; [reflexivity|].
    lia. }
  rewrite H1. cbn [bind]. unfold wsub. destruct (Z.leb_spec 1 (2 ^ Z.of_nat n)); [|lia]. cbn [bind].
  replace (2 ^ Z.of_nat n - 1)%Z with (Z.ones (Z.of_nat n)) by (rewrite Z.ones_equiv; lia).
  set (V := le_val (slice buf (f_offset f) (prim_size p))) in *.
  unfold wshl. destruct (Z.ltb_spec (Z.of_nat o) (prim_bits p)) as [Hlt|Hge].
  - cbn [bind]. rewrite raw_read_ok by exact Hlen. cbn [bind]. fold V.
    rewrite raw_write_ok by (rewrite le_bytes_length; exact Hlen). do 3 f_equal. unfold put_bits.
    change (Z.shiftl (Z.ones (Z.of_nat n)) (Z.of_nat o)) with (bit_mask (Z.of_nat o) (Z.of_nat n)).
    rewrite (Z.mod_small (bit_mask _ _)) by (apply bit_mask_range; lia). reflexivity.
  - destruct pf; [specialize (Ho eq_refl); lia|]. cbn [bind]. rewrite raw_read_ok by exact Hlen. cbn [bind]. fold V.
    rewrite raw_write_ok by (rewrite le_bytes_length; exact Hlen). do 3 f_equal. unfold put_bits, bit_mask.
    assert (n = 0) as -> by lia. change (Z.ones (Z.of_nat 0)) with 0%Z. rewrite !Z.shiftl_0_l, Zmod_0_l, !Z.land_0_r. reflexivity.
Qed.

Definition field_at (src : source) (new : list byte) (f : ffield) : Prop :=
  exists z, number_for src f z /\ forall j, j < bit_count f -> bit_of new (first_bit f + j) = Some (Z.testbit z (Z.of_nat j)).

Ltac take_ret H := match type of H with Ret ?a = Ret ?b => assert (b = a) by congruence; subst b; clear H end.

Lemma encode_fixed_bits pf src vo buf f buf' :
  well_placed vo f -> storable pf f -> vo <= length buf -> encode_fixed pf src buf f = Ret buf' ->
  length buf' = length buf /\ field_at src buf' f /\
  (forall x, ~ in_field f x -> bit_of buf' x = bit_of buf x).
Proof.
  intros (Hin & _ & Hw) Hst Hlen H. split; [eapply encode_fixed_length; exact H|].
  unfold field_at, number_for, in_field, first_bit, bit_count, field_width. unfold field_size in Hin. unfold storable in Hst.
  destruct (f_kind f) as [p| |i p|p o n] eqn:Ek; [| |destruct Hw|].
  - unfold encode_fixed in H. rewrite Ek in H.
    inv_bind H. rewrite raw_write_ok in H by (rewrite le_bytes_length; lia). take_ret H.
    pose proof (width_size p) as Ew. split.
    + exists a. split; [exact Ha|]. intros j Hj. rewrite bit_of_write by (rewrite le_bytes_length; lia).
      rewrite le_bytes_length. replace ((8 * f_offset f <=? 8 * f_offset f + j) && _) with true by lia.
      rewrite le_bytes_bit by lia. do 2 f_equal. lia.
    + intros x Hx. rewrite bit_of_write by (rewrite le_bytes_length; lia). rewrite le_bytes_length.
      replace ((8 * f_offset f <=? x) && _) with false by lia. reflexivity.
  - unfold encode_fixed in H. rewrite Ek in H. inv_bind H. destruct (Z.of_nat a <=? 2 ^ 32 - 1)%Z; [|discriminate].
    cbn [bind] in H. rewrite raw_write_ok in H by (rewrite le_bytes_length; lia). take_ret H. split.
    + exists (Z.of_nat a). split; [exists a; auto|]. intros j Hj. rewrite bit_of_write by (rewrite le_bytes_length; lia).
      rewrite le_bytes_length. replace ((8 * f_offset f <=? 8 * f_offset f + j) && _) with true by lia.
      rewrite le_bytes_bit by lia. do 2 f_equal. lia.
    + intros x Hx. rewrite bit_of_write by (rewrite le_bytes_length; lia). rewrite le_bytes_length.
      replace ((8 * f_offset f <=? x) && _) with false by lia. reflexivity.
  - destruct Hw as [Hu Hfit]. destruct Hst as [Hn Ho].
    assert (Ht : exists tag, src_tag src (f_path f) = Ret tag).
    { unfold encode_fixed in H. rewrite Ek in H. inv_bind H. eauto. }
    destruct Ht as (tag & Ht). rewrite (encode_tag_any pf src buf f p o n tag) in H by (assumption || lia).
    take_ret H.
    assert (HV : (0 <= le_val (slice buf (f_offset f) (prim_size p)) < 2 ^ prim_bits p)%Z) by (apply slice_le_range; lia).
    assert (Hw : prim_bits p = (8 * Z.of_nat (prim_size p))%Z) by reflexivity.
    split.
    + exists (Z.of_nat tag). split; [exists tag; auto|]. intros j Hj. rewrite bit_of_write by (rewrite le_bytes_length; lia).
      rewrite le_bytes_length. replace ((8 * f_offset f <=? 8 * f_offset f + o + j) && _) with true by lia.
      rewrite le_bytes_bit by lia. f_equal. rewrite (put_bits_spec _ _ _ _ (prim_bits p)) by lia.
      match goal with |- (if ?b then _ else _) = _ => replace b with true by lia end.
      rewrite Z.mod_pow2_bits_low by lia. f_equal. lia.
    + intros x Hx. rewrite bit_of_write by (rewrite le_bytes_length; lia). rewrite le_bytes_length.
      destruct ((8 * f_offset f <=? x) && (x <? 8 * (f_offset f + prim_size p))) eqn:E; [|reflexivity].
      rewrite le_bytes_bit by lia. rewrite (put_bits_spec _ _ _ _ (prim_bits p)) by lia.
      match goal with |- Some (if ?b then _ else _) = _ => replace b with false by lia end.
      transitivity (bit_of buf (8 * f_offset f + (x - 8 * f_offset f))); [|f_equal; lia].
      rewrite <- (slice_bit buf (f_offset f) (prim_size p)) by lia. rewrite le_val_bit by (rewrite slice_length; lia).
      reflexivity.
Qed.

(** ** All fixed fields *)

Definition bits_apart (f g : ffield) : Prop := forall x, in_field f x -> ~ in_field g x.

Lemma no_overlap_apart vo f g : well_placed vo f -> well_placed vo g -> no_overlap f g -> bits_apart f g.
Proof.
  intros (_ & _ & Hf) (_ & _ & Hg) H x. unfold in_field, first_bit, bit_count.
  destruct H as [H|(p & o & n & o' & n' & E1 & E2 & E3 & H)].
  - unfold bytes_disjoint in H. rewrite <- (field_width_size f), <- (field_width_size g). unfold field_size in *.
    destruct (f_kind f), (f_kind g); try (destruct Hf; fail); try (destruct Hg; fail); lia.
  - rewrite E1, E2. lia.
Qed.

Lemma encode_fields_bits pf src vo fx : forall buf buf',
  Forall (well_placed vo) fx -> Forall (storable pf) fx -> ForallOrdPairs no_overlap fx -> vo <= length buf ->
  foldM (encode_fixed pf src) fx buf = Ret buf' ->
  length buf' = length buf /\ (forall f, In f fx -> field_at src buf' f) /\
  (forall x, (forall f, In f fx -> ~ in_field f x) -> bit_of buf' x = bit_of buf x).
Proof.
  induction fx as [|f fx IH]; intros buf buf' Hp Hs Hd Hlen H; cbn [foldM] in H.
  - injection H as <-. split; [reflexivity|]. split; [intros f []|reflexivity].
  - inv_bind H. rename a into b1. inversion Hp; subst. inversion Hs; subst. inversion Hd; subst.
    destruct (encode_fixed_bits pf src vo buf f b1) as (L1 & F1 & K1); [assumption..|].
    destruct (IH b1 buf') as (L2 & F2 & K2); [assumption..|lia|exact H|].
    split; [lia|]. split.
    + intros g [<-|Hg]; [|apply F2; exact Hg]. destruct F1 as (z & Hz & Hb). exists z. split; [exact Hz|].
      intros j Hj. rewrite K2; [apply Hb; exact Hj|]. intros g Hg.
      assert (Hap : bits_apart f g).
      { rewrite !Forall_forall in *. apply (no_overlap_apart vo); auto. }
      apply Hap. unfold in_field. lia.
    + intros x Hx. rewrite K2 by (intros g Hg; apply Hx; right; exact Hg). apply K1. apply Hx. left. reflexivity.
Qed.

(** ** Variable parts *)

Lemma align_up_next v a : 0 < a -> next_multiple a v (align_up v a).
Proof.
  intros Ha. split; [apply align_up_div|]. split; [apply align_up_ge; exact Ha|].
  intros m [k ->] Hm. pose proof (align_up_lt v a Ha) as Hlt. destruct (align_up_div v a) as [j Hj]. rewrite Hj in *.
  destruct (Nat.le_gt_cases j k); [nia|]. assert (k * a + a <= j * a) by nia. lia.
Qed.

(** The image depends on the bytes below its size only. *)
Definition same_upto (n : nat) (a b : list byte) : Prop := forall i, i < n -> nth_error a i = nth_error b i.

Lemma same_bit n a b x : same_upto n a b -> x < 8 * n -> bit_of a x = bit_of b x.
Proof. intros H Hx. apply bit_of_nth. apply H. lia. Qed.

Lemma same_skipn n o a b : same_upto (o + n) a b -> same_upto n (skipn o a) (skipn o b).
Proof. intros H i Hi. rewrite !nth_error_skipn. apply H. lia. Qed.

Definition fields_inside (l : layout) : Prop := Forall (well_placed (l_var_off l)) (l_fixed l).

Lemma in_field_inside vo f x : well_placed vo f -> in_field f x -> x < 8 * vo.
Proof.
  intros (H1 & _ & H2) H. unfold in_field, first_bit, bit_count in H. rewrite <- field_width_size in H.
  unfold field_size in *. destruct (f_kind f); lia.
Qed.

Lemma image_ge_parts src :
  (forall l old new n, image src l old new n -> l_var_off l <= n) /\
  (forall vs old new o o', parts src vs old new o o' -> o <= o').
Proof.
  split.
  - apply (image_mind src (fun l old new n => l_var_off l <= n) (fun vs old new o o' => o <= o')); intros; try lia.
    destruct H3 as (_ & H3 & _). lia.
  - apply (parts_mind src (fun l old new n => l_var_off l <= n) (fun vs old new o o' => o <= o')); intros; try lia.
    destruct H3 as (_ & H3 & _). lia.
Qed.

Definition image_ext_P (src : source) (l : layout) (old new : list byte) (n : nat) : Prop :=
  everywhere fields_inside l -> forall old' new', same_upto n old old' -> same_upto n new new' -> image src l old' new' n.
Definition parts_ext_P (src : source) (vs : list (vfield layout)) (old new : list byte) (o o' : nat) : Prop :=
  (forall v cases c, In v vs -> v_kind v = VEnum cases -> In c cases -> everywhere fields_inside c) ->
  forall old' new', (forall i, o <= i < o' -> nth_error old i = nth_error old' i) ->
  (forall i, o <= i < o' -> nth_error new i = nth_error new' i) -> parts src vs old' new' o o'.

Lemma image_ext_step src l old new o n :
  (forall f, In f (l_fixed l) -> field_at src new f) ->
  (forall x, x < 8 * l_var_off l -> (forall f, In f (l_fixed l) -> ~ in_field f x) -> bit_of new x = bit_of old x) ->
  parts src (l_vars l) old new (l_var_off l) o -> parts_ext_P src (l_vars l) old new (l_var_off l) o ->
  next_multiple (l_align l) o n -> (forall i, o <= i < n -> nth_error new i = nth_error old i) ->
  image_ext_P src l old new n.
Proof.
  intros Hf Hu Hp IHp Hn Ht Hin old' new' Ho Hw. inversion Hin as [? Hl Hc]; subst.
  pose proof (proj2 (image_ge_parts src) _ _ _ _ _ Hp) as Hge. assert (Hon : o <= n) by apply Hn.
  apply im_intro with (o := o).
  - intros f Hff. destruct (Hf _ Hff) as (z & Hz & Hb). exists z. split; [exact Hz|]. intros j Hj.
    rewrite <- (Hb _ Hj). symmetry. apply (same_bit n); [exact Hw|].
    unfold fields_inside in Hl. rewrite Forall_forall in Hl.
    assert (x : first_bit f + j < 8 * l_var_off l) by (apply (in_field_inside _ f); [apply Hl; exact Hff|unfold in_field; lia]).
    lia.
  - intros x Hx Hnf. rewrite <- (same_bit n _ _ x Hw), <- (same_bit n _ _ x Ho) by lia. apply Hu; assumption.
  - apply IHp; [exact Hc| |]; intros i Hi; [apply Ho|apply Hw]; lia.
  - exact Hn.
  - intros i Hi. rewrite <- Hw, <- Ho by lia. apply Ht. lia.
Qed.

Lemma parts_ext_string src v vs old new o o' bs :
  v_kind v = VString -> src_bytes src (v_path v) = Ret bs ->
  (forall i, i < length bs -> nth_error new (o + i) = nth_error bs i) ->
  parts src vs old new (o + length bs) o' -> parts_ext_P src vs old new (o + length bs) o' ->
  parts_ext_P src (v :: vs) old new o o'.
Proof.
  intros Hk Hb Hn Hp IH Hc old' new' Ho Hw. pose proof (proj2 (image_ge_parts src) _ _ _ _ _ Hp) as Hge.
  eapply ps_string; [exact Hk|exact Hb| |].
  - intros i Hi. rewrite <- Hw by lia. apply Hn. exact Hi.
  - apply IH; [|intros i Hi; apply Ho; lia|intros i Hi; apply Hw; lia].
    intros w cases c Hin. apply Hc. right. exact Hin.
Qed.

Lemma parts_ext_case src v vs old new o o' cases k c n :
  v_kind v = VEnum cases -> src_tag src (v_path v) = Ret k -> nth_error cases k = Some c ->
  image src c (skipn o old) (skipn o new) n -> image_ext_P src c (skipn o old) (skipn o new) n ->
  parts src vs old new (o + n) o' -> parts_ext_P src vs old new (o + n) o' ->
  parts_ext_P src (v :: vs) old new o o'.
Proof.
  intros Hk Ht Hc Hi IHi Hp IH Hin old' new' Ho Hw. pose proof (proj2 (image_ge_parts src) _ _ _ _ _ Hp) as Hge.
  eapply ps_case; [exact Hk|exact Ht|exact Hc| |].
  - apply IHi.
    + eapply Hin; [left; reflexivity|exact Hk|eapply nth_error_In; exact Hc].
    + intros i Hii. rewrite !nth_error_skipn. apply Ho. lia.
    + intros i Hii. rewrite !nth_error_skipn. apply Hw. lia.
  - apply IH; [|intros i Hii; apply Ho; lia|intros i Hii; apply Hw; lia].
    intros w cs d Hd. apply Hin. right. exact Hd.
Qed.

Lemma parts_ext_nil src old new o : parts_ext_P src [] old new o o.
Proof. intros _ old' new' _ _. constructor. Qed.

Lemma image_ext src l old new n : image src l old new n -> image_ext_P src l old new n.
Proof.
  apply (image_mind src (image_ext_P src) (parts_ext_P src)); intros.
  - eapply image_ext_step; eassumption.
  - apply parts_ext_nil.
  - eapply parts_ext_string; eassumption.
  - eapply parts_ext_case; eassumption.
Qed.

Lemma parts_ext src vs old new o o' : parts src vs old new o o' -> parts_ext_P src vs old new o o'.
Proof.
  apply (parts_mind src (image_ext_P src) (parts_ext_P src)); intros.
  - eapply image_ext_step; eassumption.
  - apply parts_ext_nil.
  - eapply parts_ext_string; eassumption.
  - eapply parts_ext_case; eassumption.
Qed.

(** ** The encoder *)

Definition encodable (pf : profile) (l : layout) : Prop :=
  Forall (well_placed (l_var_off l)) (l_fixed l) /\ ForallOrdPairs no_overlap (l_fixed l) /\ Forall (storable pf) (l_fixed l).

Definition image_written (pf : profile) (src : source) (l : layout) : Prop := forall buf buf' n,
  encode_with_source pf src l buf = Ret (buf', n) ->
  length buf' = length buf /\ (forall i, n <= i -> nth_error buf' i = nth_error buf i) /\
  (forall m, encoding_size_with_source src l = Ret m -> m = n) /\ image src l buf buf' n.

Lemma encode_parts pf src vs :
  (forall v cases c, In v vs -> v_kind v = VEnum cases -> In c cases -> everywhere fields_inside c /\ image_written pf src c) ->
  forall buf off buf' off', encode_vars src (encode_with_source pf src) vs buf off = Ret (buf', off') ->
  length buf' = length buf /\ off <= off' /\ (forall i, i < off \/ off' <= i -> nth_error buf' i = nth_error buf i) /\
  (forall m, size_loop src (encoding_size_with_source src) vs off = Ret m -> m = off') /\ parts src vs buf buf' off off'.
Proof.
  induction vs as [|v vs IH]; intros Hc buf off buf' off' H; cbn [encode_vars] in H.
  - injection H as <- <-. split; [reflexivity|]. split; [lia|]. split; [auto|]. split; [intros m Hm; cbn in Hm; congruence|constructor].
  - assert (IH' := IH (fun w cases c Hw => Hc w cases c (or_intror Hw))). clear IH.
    cbn [size_loop]. destruct (v_kind v) as [|cases] eqn:Ek.
    + inv_bind H. inv_check H. inv_bind H. inv_check H. inv_bind H. rename a1 into b1.
      apply Nat.eqb_eq in Hc1. destruct (raw_write_length _ _ _ _ Ha1) as (L1 & E1 & Hfit).
      destruct (IH' _ _ _ _ H) as (L & Hle & K & S & P). split; [lia|]. split; [lia|].
      assert (Kb : forall i, i < off \/ off + length a0 <= i -> nth_error b1 i = nth_error buf i).
      { intros i Hi. rewrite E1, nth_error_write by exact Hfit.
        replace ((off <=? i) && (i <? off + length a0)) with false by lia. reflexivity. }
      split; [intros i Hi; rewrite K by lia; apply Kb; lia|]. split.
      * intros m Hm. rewrite Ha in Hm. cbn [bind] in Hm. apply S. exact Hm.
      * eapply ps_string; [exact Ek|exact Ha0| |].
        -- intros i Hi. rewrite K by lia. rewrite E1, nth_error_write by exact Hfit.
           replace ((off <=? off + i) && (off + i <? off + length a0)) with true by lia. f_equal. lia.
        -- rewrite <- Hc1. apply (parts_ext _ _ _ _ _ _ P).
           ++ intros w cases c Hw Hk Hcc. apply (Hc w cases c (or_intror Hw) Hk Hcc).
           ++ intros i Hi. apply Kb. lia.
           ++ reflexivity.
    + inv_bind H. inv_bind H. inv_bind H. destruct a1 as [sub' n1]. inv_bind H. rename a1 into n.
      unfold index_from in Ha0. destruct (Nat.leb_spec off (length buf)) as [Hlb|]; [|discriminate]. take_ret Ha0.
      rewrite pick_nth in Ha1. rewrite pick_nth in Ha2. destruct (nth_error cases a) as [c|] eqn:Ec; [|discriminate].
      destruct (Hc v cases c (or_introl eq_refl) Ek (nth_error_In _ _ Ec)) as [Hin Hw].
      destruct (Hw _ _ _ Ha1) as (L1 & K1 & S1 & I1). rewrite skipn_length in L1. specialize (S1 _ Ha2). subst n1.
      set (b1 := firstn off buf ++ sub') in *.
      assert (Lb : length b1 = length buf) by (unfold b1; rewrite app_length, firstn_length; lia).
      assert (Kb : forall i, i < off \/ off + n <= i -> nth_error b1 i = nth_error buf i).
      { intros i Hi. unfold b1. destruct (Nat.lt_ge_cases i off) as [Hlt|Hge].
        - rewrite nth_error_app1 by (rewrite firstn_length; lia). rewrite nth_error_firstn.
          destruct (Nat.ltb_spec i off); [reflexivity|lia].
        - rewrite nth_error_app2 by (rewrite firstn_length; lia). rewrite firstn_length, Nat.min_l by lia.
          rewrite K1 by lia. rewrite nth_error_skipn. f_equal. lia. }
      destruct (IH' _ _ _ _ H) as (L & Hle & K & S & P). split; [lia|]. split; [lia|].
      split; [intros i Hi; rewrite K by lia; apply Kb; lia|]. split.
      * intros m Hm. rewrite Ha in Hm. cbn [bind] in Hm. rewrite pick_nth, Ec, Ha2 in Hm. cbn [bind] in Hm. apply S. exact Hm.
      * eapply ps_case; [exact Ek|exact Ha|exact Ec| |].
        -- apply (image_ext _ _ _ _ _ I1); [exact Hin|intros i Hi; reflexivity|].
           intros i Hi. rewrite nth_error_skipn, K by lia. unfold b1.
           rewrite nth_error_app2 by (rewrite firstn_length; lia). rewrite firstn_length, Nat.min_l by lia. f_equal. lia.
        -- apply (parts_ext _ _ _ _ _ _ P).
           ++ intros w cs d Hd Hk Hcc. apply (Hc w cs d (or_intror Hd) Hk Hcc).
           ++ intros i Hi. apply Kb. lia.
           ++ reflexivity.
Qed.

Lemma everywhere_impl (P Q : layout -> Prop) : (forall l, P l -> Q l) -> forall l, everywhere P l -> everywhere Q l.
Proof.
  intros H l HP. induction HP as [l Hl Hc IH]. constructor; [apply H; exact Hl|exact IH].
Qed.

Lemma encode_image pf src l : everywhere (encodable pf) l -> image_written pf src l.
Proof.
  induction l as [al vo ix fx vs IH] using layout_ind'. intros He buf buf' n H. inversion He as [? (Hp & Hd & Hs) Hc]; subst.
  cbn [l_fixed l_var_off l_vars] in *. cbn [encode_with_source] in H. inv_check H. inv_bind H. rename a into b1.
  inv_bind H. destruct a as [b2 off]. inv_bind H. injection H as <- <-.
  destruct (encode_fields_bits pf src vo fx buf b1 Hp Hs Hd ltac:(lia) Ha) as (L1 & F1 & U1).
  assert (Hparts : forall v cases c, In v vs -> v_kind v = VEnum cases -> In c cases ->
                   everywhere fields_inside c /\ image_written pf src c).
  { intros v cases c Hv Hk Hcc. split.
    - apply (everywhere_impl (encodable pf)); [intros l' (H1 & _); exact H1|]. eapply Hc; eassumption.
    - eapply IH; try eassumption. eapply Hc; eassumption. }
  destruct (encode_parts pf src vs Hparts _ _ _ _ Ha0) as (L2 & Hle & K2 & S2 & P2).
  destruct (align_nat_inv _ _ _ Ha1) as (_ & Hal & _ & En). subst a.
  pose proof (align_up_ge off al Hal) as Hup.
  assert (K1 : forall i, vo <= i -> nth_error b1 i = nth_error buf i).
  { intros i Hi. assert (B : forall k, k < 8 -> bit_of b1 (8 * i + k) = bit_of buf (8 * i + k)).
    { intros k Hk. apply U1. intros f Hf Hx. rewrite Forall_forall in Hp. pose proof (in_field_inside vo f _ (Hp _ Hf) Hx). lia. }
    apply byte_from_bits. exact B. }
  split; [lia|]. split; [intros i Hi; rewrite K2 by lia; apply K1; lia|]. split.
  - intros m Hm. cbn [encoding_size_with_source] in Hm. inv_bind Hm. specialize (S2 _ Ha2). subst a.
    congruence.
  - apply im_intro with (o := off); cbn [l_fixed l_var_off l_vars l_align].
    + intros f Hf. destruct (F1 f Hf) as (z & Hz & Hb). exists z. split; [exact Hz|]. intros j Hj. rewrite <- (Hb _ Hj).
      apply bit_of_nth. apply K2. left. rewrite Forall_forall in Hp.
      assert (first_bit f + j < 8 * vo) by (apply (in_field_inside _ f); [apply Hp; exact Hf|unfold in_field; lia]). lia.
    + intros x Hx Hnf. rewrite <- (U1 x Hnf). apply bit_of_nth. apply K2. lia.
    + apply (parts_ext _ _ _ _ _ _ P2).
      * intros v cases c Hv Hk Hcc. apply (Hparts v cases c Hv Hk Hcc).
      * intros i Hi. apply K1. lia.
      * reflexivity.
    + apply align_up_next. exact Hal.
    + intros i Hi. rewrite K2 by lia. apply K1. lia.
Qed.

(** A computed layout with storable tags. *)
Lemma encoded_bits pf src t q l buf buf' n :
  calculate_layout t q = Ret l -> marshallable pf l -> encode_with_source pf src l buf = Ret (buf', n) ->
  length buf' = length buf /\ (forall i, n <= i -> nth_error buf' i = nth_error buf i) /\ image src l buf buf' n.
Proof.
  intros Hl Hm H. assert (He : everywhere (encodable pf) l).
  { assert (Hg : everywhere (fun l' => Forall (well_placed (l_var_off l')) (l_fixed l') /\ ForallOrdPairs no_overlap (l_fixed l')) l).
    { eapply everywhere_calculated; [|exact Hl]. intros t' q' l' H'. pose proof (calculate_layout_ok _ _ _ H') as Ho.
      split; [apply Ho|apply Ho]. }
    clear - Hg Hm. unfold marshallable in Hm. induction Hg as [l [H1 H2] Hc IH]. inversion Hm as [? Hs Hsc]; subst.
    constructor; [split; [exact H1|split; [exact H2|exact Hs]]|].
    intros v cases c Hv Hk Hcc. eapply IH; [exact Hv|exact Hk|exact Hcc|]. eapply Hsc; eassumption. }
  destruct (encode_image pf src l He _ _ _ H) as (H1 & H2 & _ & H4). auto.
Qed.

(** ** The image is unique *)

Lemma number_for_unique src f z z' : number_for src f z -> number_for src f z' -> z = z'.
Proof.
  unfold number_for. destruct (f_kind f); intros H H'.
  - congruence.
  - destruct H as (n & H & ->), H' as (n' & H' & ->). f_equal. congruence.
  - destruct H.
  - destruct H as (n & H & ->), H' as (n' & H' & ->). f_equal. congruence.
Qed.

Lemma next_multiple_unique a x y z : next_multiple a x y -> next_multiple a x z -> y = z.
Proof. intros (H1 & H2 & H3) (G1 & G2 & G3). apply Nat.le_antisymm; auto. Qed.

Lemma in_some_field fx x : (exists f, In f fx /\ in_field f x) \/ (forall f, In f fx -> ~ in_field f x).
Proof.
  induction fx as [|f fx [(g & Hg & Hx)|IH]].
  - right. intros f [].
  - left. exists g. split; [right; exact Hg|exact Hx].
  - assert (D : in_field f x \/ ~ in_field f x) by (unfold in_field; lia). destruct D as [D|D].
    + left. exists f. split; [left; reflexivity|exact D].
    + right. intros g [<-|Hg]; [exact D|apply IH; exact Hg].
Qed.

Definition image_unique_P (src : source) (l : layout) (old new : list byte) (n : nat) : Prop :=
  forall new' n', image src l old new' n' -> n' = n /\ same_upto n new' new.
Definition parts_unique_P (src : source) (vs : list (vfield layout)) (old new : list byte) (o o' : nat) : Prop :=
  forall new' p, parts src vs old new' o p -> p = o' /\ forall i, o <= i < o' -> nth_error new' i = nth_error new i.

Lemma image_unique src l old new n : image src l old new n -> image_unique_P src l old new n.
Proof.
  apply (image_mind src (image_unique_P src) (parts_unique_P src)).
  - clear. intros l old new o n Hf Hu Hp IH Hn Ht new' n' H. inversion H as [? ? ? p ? Hf' Hu' Hp' Hn' Ht']; subst.
    destruct (IH _ _ Hp') as [-> Hb]. pose proof (next_multiple_unique _ _ _ _ Hn' Hn) as ->. split; [reflexivity|].
    intros i Hi. destruct (Nat.lt_ge_cases i (l_var_off l)) as [H1|H1].
    + apply byte_from_bits. intros k Hk. destruct (in_some_field (l_fixed l) (8 * i + k)) as [(f & Hff & Hx)|Hx].
      * destruct (Hf _ Hff) as (z & Hz & Hz1), (Hf' _ Hff) as (z' & Hz' & Hz1').
        assert (z' = z) as -> by (eapply number_for_unique; eassumption). unfold in_field in Hx.
        replace (8 * i + k) with (first_bit f + (8 * i + k - first_bit f)) by lia. rewrite Hz1, Hz1' by lia. reflexivity.
      * rewrite Hu', Hu by (exact Hx || lia). reflexivity.
    + destruct (Nat.lt_ge_cases i o) as [H2|H2]; [apply Hb; lia|]. rewrite Ht, Ht' by lia. reflexivity.
  - clear. intros old new o new' p H. inversion H; subst. split; [reflexivity|]. intros i Hi. lia.
  - clear. intros v vs old new o o' bs Hk Hb Hn Hp IH new' p H.
    inversion H as [|? ? ? ? ? ? bs' Hk' Hb' Hn' Hp'|? ? ? ? ? ? cases k c m Hk' Hb' Hn' Hi' Hp']; subst; [|congruence].
    assert (bs' = bs) as -> by congruence. destruct (IH _ _ Hp') as [-> G]. split; [reflexivity|]. intros i Hi.
    destruct (Nat.lt_ge_cases i (o + length bs)); [|apply G; lia].
    replace i with (o + (i - o)) by lia. rewrite Hn, Hn' by lia. reflexivity.
  - clear. intros v vs old new o o' cases k c n Hk Hb Hc Hi IHi Hp IH new' p H.
    inversion H as [|? ? ? ? ? ? bs' Hk' Hb' Hn' Hp'|? ? ? ? ? ? cases' k' c' m Hk' Hb' Hn' Hi' Hp']; subst; [congruence|].
    assert (cases' = cases) as -> by congruence. assert (k' = k) as -> by congruence. assert (c' = c) as -> by congruence.
    destruct (IHi _ _ Hi') as [-> G1]. destruct (IH _ _ Hp') as [-> G]. split; [reflexivity|]. intros i Hii.
    destruct (Nat.lt_ge_cases i (o + n)); [|apply G; lia].
    specialize (G1 (i - o) ltac:(lia)). rewrite !nth_error_skipn in G1. replace (o + (i - o)) with i in G1 by lia. exact G1.
Qed.
