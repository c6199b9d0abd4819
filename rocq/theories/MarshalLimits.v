(** * Limits of the marshaller: tag widths, undersized buffers, alignment *)

From Coq Require Import Permutation ZifyBool ZifyNat ZifyN.
From Verif Require Import Base BaseFacts UtilModel UtilSpec UtilProofs StrModel TypesModel TypesSpec TypesProofs.
From Verif Require Import MarshalModel MarshalSpec ListFacts LayoutProofs FieldProofs LayoutTotal PresentsFacts MarshalProofs MarshalMore.

(** ** Tag widths *)

Lemma tag_bits_bad cs : (Z.of_nat (length cs) < 2 ^ 64)%Z ->
  (bad_case_count (length cs) <-> In (tag_bits cs) [8; 16; 32; 64]).
Proof.
  intros Hs. destruct (required_bits_spec (Z.of_nat (length cs - 1))) as (B1 & B2 & B3); [lia|].
  unfold tag_bits. set (b := required_bits (Z.of_nat (length cs - 1))) in *.
  assert (G : forall k, (0 < k)%Z -> (b = k <-> 2 ^ (k - 1) < Z.of_nat (length cs) <= 2 ^ k)%Z).
  { intros k Hk. assert (P0 : (1 <= 2 ^ (k - 1))%Z) by (assert (0 < 2 ^ (k - 1))%Z by (apply Z.pow_pos_nonneg; lia); lia).
    assert (P1 : (1 <= 2 ^ k)%Z) by (assert (0 < 2 ^ k)%Z by (apply Z.pow_pos_nonneg; lia); lia). split.
    - intros E. subst k. split; [|lia]. destruct (Z.lt_ge_cases (2 ^ (b - 1)) (Z.of_nat (length cs))); [assumption|].
      specialize (B3 (b - 1)%Z ltac:(lia)). lia.
    - intros [H1 H2]. pose proof (B3 k ltac:(lia) ltac:(lia)).
      destruct (Z.eq_dec b k) as [E|Hne]; [exact E|].
      pose proof (Z.pow_le_mono_r 2 b (k - 1) ltac:(lia) ltac:(lia)). lia. }
  unfold bad_case_count. change 7%Z with (8 - 1)%Z. change 15%Z with (16 - 1)%Z. change 31%Z with (32 - 1)%Z.
  change 63%Z with (64 - 1)%Z. rewrite <- !G by lia. cbn [In]. split.
  - intros [E|[E|[E|E]]]; rewrite E; auto 6.
  - intros [E|[E|[E|[E|[]]]]]; lia.
Qed.

Lemma tag_bits_pos cs : 2 <= length cs -> (Z.of_nat (length cs) < 2 ^ 64)%Z -> 1 <= tag_bits cs.
Proof.
  intros H Hs. destruct (required_bits_spec (Z.of_nat (length cs - 1))) as (B1 & B2 & B3); [lia|].
  unfold tag_bits. set (b := required_bits (Z.of_nat (length cs - 1))) in *.
  destruct (Z.eq_dec b 0) as [E|]; [|lia]. rewrite E in B2. change (2 ^ 0)%Z with 1%Z in B2. lia.
Qed.

Lemma all_enums_flat P t : forall q e cs, all_enums P t -> In (e, KTag cs) (flat t q) -> all_enums P (TEnum cs).
Proof.
  induction t using ty_ind'; intros q e cs' Ha Hin; cbn [flat] in Hin.
  - destruct Hin.
  - destruct Hin as [E|[]]. discriminate.
  - destruct Hin as [E|[]]. discriminate.
  - apply (flat_members_In (fun t => t)) in Hin as (t & q' & Ht & Hin). inversion Ha as [| | |? HF| |]; subst.
    rewrite Forall_forall in *. eapply H; [exact Ht|apply HF; exact Ht|exact Hin].
  - apply (flat_members_In (fun f => snd f)) in Hin as (t & q' & Ht & Hin). inversion Ha as [| | | |? HF|]; subst.
    rewrite Forall_forall in *. eapply H; [exact Ht|apply (HF _ Ht)|exact Hin].
  - destruct Hin as [E|[]]. injection E as <- <-. exact Ha.
Qed.

Lemma unsigned_bits p n : is_unsigned p = true -> n = 8 * prim_size p -> In n [8; 16; 32; 64; 128].
Proof. destruct p; cbn [is_unsigned prim_size]; intros H ->; try discriminate; cbn; auto 6. Qed.

Definition good_case_count (n : nat) : Prop := 2 <= n /\ ~ bad_case_count n.

Lemma marshallable_type pf t : forall q l,
  small t -> all_enums good_case_count t -> calculate_layout t q = Ret l -> marshallable pf l.
Proof.
  induction t as [t IH] using ty_payload_ind. intros q l Hs Ha Hc.
  pose proof (calculate_layout_ok _ _ _ Hc) as Hl. constructor.
  - pose proof (lo_kinds _ _ Hl) as Hk. pose proof (lo_place _ _ Hl) as Hp.
    pose proof (calculate_layout_narrow _ _ _ Hs Hc) as Hn. rewrite Forall_forall in *. intros f Hf.
    destruct (Hk _ Hf) as (k & Hin & Hr). destruct (Hp _ Hf) as (_ & _ & Hw). specialize (Hn _ Hf).
    unfold storable. unfold narrow in Hn. destruct (f_kind f) as [p| |i p|p o n]; try exact I.
    destruct k as [p'| |cs]; cbn [kind_rel] in Hr; try (destruct Hr; fail). subst n. destruct Hw as [Hu Hw].
    pose proof (flat_tag_cases _ _ _ _ Hin) as Hcs. unfold small in Hs.
    pose proof (all_enums_flat _ _ _ _ _ Ha Hin) as Hae. inversion Hae as [| | | | |? [H2 Hb] _]; subst.
    pose proof (tag_bits_pos cs H2 ltac:(lia)) as Hpos. rewrite (tag_bits_bad cs ltac:(lia)) in Hb.
    assert (tag_bits cs <> 8 * prim_size p); [|split; [lia|intros; lia]].
    intros E. pose proof (unsigned_bits p _ Hu E) as Hi. cbn [In] in Hi, Hb. lia.
  - intros v cases c Hv Hk Hcin. destruct (lay_ok_enum _ _ _ _ _ Hl Hv Hk Hcin) as (cs & cse & i & H1 & H2 & _ & H4).
    eapply (IH q (v_path v) cs cse H1 (nth_error_In _ _ H2)).
    + eapply flat_tag_small; [exact Hs|exact H1|eapply nth_error_In; exact H2].
    + pose proof (all_enums_flat _ _ _ _ _ Ha H1) as Hae. inversion Hae as [| | | | |? _ HF]; subst.
      rewrite Forall_forall in HF. apply HF. eapply nth_error_In. exact H2.
    + exact H4.
Qed.

(** ** A record that is a single enum *)

Lemma enum_layout cs q l : calculate_layout (TEnum cs) q = Ret l ->
  exists p, primitive_for_bits (tag_bits cs) = Ret p /\
    l_fixed l = [{| f_path := q; f_kind := FBit p 0 (tag_bits cs); f_offset := 0 |}].
Proof.
  intros H. unfold calculate_layout in H. inv_bind H. cbn [unroll_type] in Ha. destruct (0 <? length cs); [|discriminate].
  inv_bind Ha. injection Ha as <-. unfold finish_layout in H. inv_bind H. destruct a as [bits conts].
  unfold allocate_bitfields in Ha. cbn [sort_desc insert_desc] in Ha. inv_bind Ha. destruct a as [r cs']. injection Ha as <- <-.
  cbn [alloc place b_bits] in Ha1. inv_bind Ha1. inv_bind Ha1. cbn [alloc bind length b_path app] in Ha1. injection Ha1 as <- <-.
  fold (tag_bits cs) in *. rename a into p. exists p. split; [exact Ha|].
  cbn [cont_fields cont_field app sort_desc insert_desc assign_offsets kind_size f_kind bind c_prim] in H.
  inv_bind H. inv_bind H. inv_bind H.
  assert (E : a2 = [{| f_path := q; f_kind := FBit p 0 (tag_bits cs); f_offset := 0 |}]).
  { cbn in Ha3. injection Ha3 as <-. reflexivity. }
  subst a2. destruct a3 as [vs' ix']. injection H as <-. reflexivity.
Qed.

Lemma primitive_for_bits_exact n p : primitive_for_bits n = Ret p -> n <= 64 ->
  is_unsigned p = true /\ prim_size p <= 8 /\ n <= 8 * prim_size p /\ (In n [8; 16; 32; 64] <-> n = 8 * prim_size p).
Proof.
  intros H Hn. destruct (primitive_for_bits_spec _ _ H) as [Hu Hle].
  pose proof (primitive_for_bits_narrow _ _ H Hn) as Hs. split; [exact Hu|]. split; [exact Hs|]. split; [exact Hle|].
  unfold primitive_for_bits in H. destruct (Nat.leb_spec n 128); [|discriminate]. injection H as <-. cbn [In].
  destruct (Nat.ltb_spec 64 n); [lia|].
  destruct (Nat.ltb_spec 32 n); [cbn [prim_size]; lia|].
  destruct (Nat.ltb_spec 16 n); [cbn [prim_size]; lia|].
  destruct (Nat.ltb_spec 8 n); cbn [prim_size]; lia.
Qed.

Lemma enum_get_tag pf cs l data f :
  calculate_layout (TEnum cs) [] = Ret l -> l_fixed l = [f] -> get_case_tag pf l data [] = read_tag pf f data.
Proof.
  intros Hc Hf. destruct (index_entry (TEnum cs) [] l Hc [] (KTag cs)) as (j & x & g & Hj & Ex & Hsr & Hfo & Hg & _).
  { left. reflexivity. }
  unfold get_case_tag. rewrite (navigate_hit pf (TEnum cs) [] l Hc data [] x j Hj Hsr). cbn [bind]. rewrite Hfo. cbn [bind].
  rewrite Hf in Hg. destruct Hg as [<-|[]]. reflexivity.
Qed.

(** An enum with a harmless number of cases: whatever encoding did with the payload, the tag is there. *)
Lemma enum_tag_stored pf src cs l k buf buf' n :
  (Z.of_nat (length cs) < 2 ^ 64)%Z -> layout_new (TEnum cs) = Ret l -> ~ bad_case_count (length cs) ->
  src_tag src [] = Ret k -> k < length cs -> encode_with_source pf src l buf = Ret (buf', n) ->
  get_case_tag pf l buf' [] = Ret k.
Proof.
  intros Hs Hc Hb Hk Hlt He. unfold layout_new in Hc. destruct (enum_layout _ _ _ Hc) as (p & Hp & Hf).
  pose proof (tag_bits_le cs Hs) as H64. destruct (primitive_for_bits_exact _ _ Hp H64) as (Hu & Hsz & Hle & Hiff).
  rewrite (tag_bits_bad cs Hs), Hiff in Hb. rewrite (enum_get_tag _ _ _ _ _ Hc Hf).
  pose proof (lo_place _ _ (calculate_layout_ok _ _ _ Hc)) as Hpl. rewrite Hf in Hpl.
  destruct l as [al vo ix fx vs]. cbn [l_fixed l_var_off] in *. subst fx.
  destruct (encode_split _ _ _ _ _ _ _ _ _ _ He) as (Hvo & b1 & Hb1 & L1 & L2 & K).
  set (f := {| f_path := []; f_kind := FBit p 0 (tag_bits cs); f_offset := 0 |}) in *.
  inversion Hpl as [|? ? Hfp _]; subst.
  assert (Hsf : sound_field pf vo f).
  { split; [exact Hfp|]. split; [|exact Hsz]. unfold storable, f. cbn [f_kind]. destruct p; try discriminate; cbn [prim_size] in *; lia. }
  destruct (encode_fixed_ok pf src vo buf f (Z.of_nat k) Hsf Hvo) as (b1' & E1 & _ & R & _).
  { unfold ans, f. cbn [f_kind f_path]. rewrite Hk. reflexivity. }
  { unfold fits, f. cbn [f_kind]. unfold tag_bits.
    destruct (required_bits_spec (Z.of_nat (length cs - 1))) as (B1 & B2 & _); [lia|]. rewrite Z2Nat.id by lia. lia. }
  cbn [foldM] in Hb1. rewrite E1 in Hb1. cbn [bind] in Hb1. injection Hb1 as ->.
  assert (R' : rd pf f buf' = Ret (Z.of_nat k)).
  { rewrite <- R. apply rd_ext with (vo := vo); [exact Hsf|lia|lia|]. destruct Hfp as (Hfit & _).
    apply slice_ext. intros i Hi. apply K. lia. }
  unfold rd in R'. unfold f at 1 in R'. cbn [f_kind] in R'.
  destruct (read_tag pf f buf') as [m| |]; cbn [bind] in R'; try discriminate. injection R' as R'. f_equal. lia.
Qed.

(** With one of the other numbers of cases a debug build panics. *)
Lemma enum_tag_debug src cs l k buf :
  (Z.of_nat (length cs) < 2 ^ 64)%Z -> layout_new (TEnum cs) = Ret l -> bad_case_count (length cs) ->
  src_tag src [] = Ret k -> encode_with_source Debug src l buf = Panic.
Proof.
  intros Hs Hc Hb Hk. unfold layout_new in Hc. destruct (enum_layout _ _ _ Hc) as (p & Hp & Hf).
  pose proof (tag_bits_le cs Hs) as H64. destruct (primitive_for_bits_exact _ _ Hp H64) as (Hu & Hsz & Hle & Hiff).
  rewrite (tag_bits_bad cs Hs), Hiff in Hb. destruct l as [al vo ix fx vs]. cbn [l_fixed] in Hf. subst fx.
  cbn [encode_with_source]. destruct (vo <=? length buf); [|reflexivity]. cbn [bind foldM].
  unfold encode_fixed. cbn [f_kind f_path]. rewrite Hk. cbn [bind]. rewrite Hu. unfold wshl at 1.
  replace (Z.of_nat (tag_bits cs) <? prim_bits p)%Z with false by (unfold prim_bits; lia). reflexivity.
Qed.

(** ... and a release build does not store the tag: its bits keep the old content. *)
Lemma enum_tag_release src cs l k buf buf' n :
  (Z.of_nat (length cs) < 2 ^ 64)%Z -> layout_new (TEnum cs) = Ret l -> bad_case_count (length cs) ->
  src_tag src [] = Ret k -> encode_with_source Release src l buf = Ret (buf', n) ->
  firstn (l_var_off l) buf' = firstn (l_var_off l) buf /\
  get_case_tag Release l buf' [] = get_case_tag Release l buf [].
Proof.
  intros Hs Hc Hb Hk He. unfold layout_new in Hc. destruct (enum_layout _ _ _ Hc) as (p & Hp & Hf).
  pose proof (tag_bits_le cs Hs) as H64. destruct (primitive_for_bits_exact _ _ Hp H64) as (Hu & Hsz & Hle & Hiff).
  rewrite (tag_bits_bad cs Hs), Hiff in Hb. rewrite !(enum_get_tag _ _ _ _ _ Hc Hf).
  pose proof (lo_place _ _ (calculate_layout_ok _ _ _ Hc)) as Hpl. rewrite Hf in Hpl.
  destruct l as [al vo ix fx vs]. cbn [l_fixed l_var_off] in *. subst fx.
  destruct (encode_split _ _ _ _ _ _ _ _ _ _ He) as (Hvo & b1 & Hb1 & L1 & L2 & K).
  set (f := {| f_path := []; f_kind := FBit p 0 (tag_bits cs); f_offset := 0 |}) in *.
  inversion Hpl as [|? ? (Hfit & _) _]; subst. cbn [f_offset field_size f_kind f] in Hfit.
  assert (Hlp : prim_size p <= length buf) by (unfold f, field_size in Hfit; cbn [f_offset f_kind] in Hfit; lia).
  assert (E1 : b1 = buf).
  { cbn [foldM] in Hb1. unfold f, encode_fixed in Hb1. cbn [f_kind f_path f_offset] in Hb1. rewrite Hk in Hb1. cbn [bind] in Hb1. rewrite Hu in Hb1.
    unfold wshl in Hb1 at 1. replace (Z.of_nat (tag_bits cs) <? prim_bits p)%Z with false in Hb1 by (unfold prim_bits; lia).
    cbn [bind] in Hb1. replace (Z.of_nat (tag_bits cs) mod prim_bits p)%Z with 0%Z in Hb1.
    2:{ unfold prim_bits. rewrite Hb. replace (Z.of_nat (8 * prim_size p)) with (8 * Z.of_nat (prim_size p))%Z by lia.
        rewrite Z.mod_same; [reflexivity|]. destruct p; cbn; lia. }
    assert (Hw : (8 <= prim_bits p)%Z) by (unfold prim_bits; destruct p; cbn; lia).
    assert (H2w : (256 <= 2 ^ prim_bits p)%Z) by (change 256%Z with (2 ^ 8)%Z; apply Z.pow_le_mono_r; lia).
    rewrite Z.shiftl_0_r, (Z.mod_small 1) in Hb1 by lia. unfold wsub at 1 in Hb1. cbn [Z.leb Z.compare Pos.compare Pos.compare_cont bind] in Hb1.
    change (1 - 1)%Z with 0%Z in Hb1. change (Z.of_nat 0) with 0%Z in Hb1. unfold wshl in Hb1.
    replace (0 <? prim_bits p)%Z with true in Hb1 by lia. rewrite !Z.shiftl_0_r, Zmod_0_l in Hb1. cbn [bind] in Hb1.
    rewrite raw_read_ok in Hb1 by lia. cbn [bind] in Hb1. rewrite Z.land_0_r, Z.lor_0_r in Hb1.
    unfold unot in Hb1. rewrite Z.sub_0_r in Hb1. unfold umax in Hb1.
    pose proof (slice_le_range buf 0 (prim_size p) ltac:(lia)) as HV. fold (prim_bits p) in HV.
    rewrite land_low_mask in Hb1 by lia. rewrite Z.mod_small in Hb1 by exact HV.
    rewrite <- (slice_length buf 0 (prim_size p)) in Hb1 at 1 by lia. rewrite le_bytes_le_val in Hb1.
    rewrite raw_write_ok in Hb1 by (rewrite slice_length; lia). cbn [bind] in Hb1. injection Hb1 as <-.
    apply list_ext. intros i. rewrite nth_error_write by (rewrite slice_length; lia). rewrite slice_length by lia.
    destruct ((0 <=? i) && (i <? 0 + prim_size p)) eqn:Ei; [|reflexivity].
    rewrite nth_error_slice. replace (i - 0 <? prim_size p) with true by lia. f_equal. lia. }
  subst b1. split.
  - apply list_ext. intros i. rewrite !nth_error_firstn. destruct (Nat.ltb_spec i vo); [apply K; assumption|reflexivity].
  - unfold read_tag. unfold f at 1 3. cbn [f_kind]. rewrite Hu. unfold f. cbn [f_offset].
    rewrite !raw_read_ok by lia.
    replace (slice buf' 0 (prim_size p)) with (slice buf 0 (prim_size p)); [reflexivity|].
    apply slice_ext. intros i Hi. symmetry. apply K. unfold f, field_size in Hfit. cbn [f_offset f_kind] in Hfit. lia.
Qed.

(** ** Undersized buffers *)

Lemma short_fixed_panics pf src l buf : length buf < l_var_off l -> encode_with_source pf src l buf = Panic.
Proof.
  destruct l as [al vo ix fx vs]. cbn [l_var_off encode_with_source]. intros H.
  destruct (Nat.leb_spec vo (length buf)); [lia|reflexivity].
Qed.

Lemma encode_vars_app src enc vs ws : forall buf off buf1 off1,
  encode_vars src enc vs buf off = Ret (buf1, off1) ->
  encode_vars src enc (vs ++ ws) buf off = encode_vars src enc ws buf1 off1.
Proof.
  induction vs as [|v vs IH]; intros buf off buf1 off1 H; cbn [encode_vars app] in *.
  - injection H as <- <-. reflexivity.
  - destruct (v_kind v).
    + inv_bind H. rewrite Ha. cbn [bind]. inv_check H. cbn [bind]. inv_bind H. rewrite Ha0. cbn [bind].
      inv_check H. inv_bind H. rewrite Ha1. cbn [bind]. apply IH. exact H.
    + inv_bind H. rewrite Ha. cbn [bind]. inv_bind H. rewrite Ha0. cbn [bind]. inv_bind H. rewrite Ha1. cbn [bind].
      destruct a1 as [sub m]. inv_bind H. rewrite Ha2. cbn [bind]. apply IH. exact H.
Qed.

(** What [encode_correct] uses about the fixed fields. *)
Lemma fixed_sound pf t q l : small t -> calculate_layout t q = Ret l -> marshallable pf l ->
  Forall (sound_field pf (l_var_off l)) (l_fixed l).
Proof.
  intros Hs Hc Hm. pose proof (lo_place _ _ (calculate_layout_ok _ _ _ Hc)) as Hp.
  pose proof (calculate_layout_narrow _ _ _ Hs Hc) as Hn.
  assert (Hst : Forall (storable pf) (l_fixed l)) by (inversion Hm; assumption).
  rewrite Forall_forall in *. intros f Hf. split; [apply Hp; exact Hf|].
  split; [apply Hst; exact Hf|apply Hn; exact Hf].
Qed.

Lemma fixed_answers src t q l v : small t -> calculate_layout t q = Ret l -> presents src t q v -> typed t v ->
  Forall (fun f => exists z, ans src f = Ret z /\ fits f z) (l_fixed l).
Proof.
  intros Hs Hc Hp Ht. pose proof (presents_flat _ _ _ _ Hp Ht) as Hans.
  pose proof (lo_kinds _ _ (calculate_layout_ok _ _ _ Hc)) as Hk.
  rewrite Forall_forall in *. intros f Hf. destruct (Hk _ Hf) as (k & Hin & Hr).
  pose proof (Hans _ Hin) as Ha. unfold answers in Ha. cbn [fst snd] in Ha. unfold ans, fits.
  destruct k as [p| |cs], (f_kind f) as [p'| |i p'|p' o n]; cbn [kind_rel] in Hr; try (destruct Hr; fail).
  - subst p'. destruct Ha as (z & H1 & H2). exists z. auto.
  - destruct Ha as (bs & H1 & H2 & H3). rewrite H1. exists (Z.of_nat (length bs)). split; [reflexivity|lia].
  - subst n. destruct Ha as (k & l' & t' & v' & H1 & H2 & _). rewrite H1. exists (Z.of_nat k). split; [reflexivity|].
    split; [lia|]. assert (k < length cs) by (apply nth_error_Some; congruence).
    pose proof (flat_tag_cases _ _ _ _ Hin). unfold small in Hs. unfold tag_bits.
    destruct (required_bits_spec (Z.of_nat (length cs - 1))) as (B1 & B2 & _); [lia|]. rewrite Z2Nat.id by lia. lia.
Qed.

Lemma vars_good pf src t q l v : small t -> calculate_layout t q = Ret l -> marshallable pf l ->
  presents src t q v -> typed t v -> Forall (vgood pf src (fun _ _ _ _ _ => True)) (l_vars l).
Proof.
  intros Hs Hc Hm Hp Ht. pose proof (calculate_layout_ok _ _ _ Hc) as Hl.
  pose proof (presents_flat _ _ _ _ Hp Ht) as Hans. rewrite Forall_forall in *.
  intros w Hw. destruct (var_flat t q l Hc w Hw) as (k & Hin & Hiv & Hr).
  pose proof (Hans _ Hin) as Ha. unfold answers in Ha. cbn [fst snd] in Ha. destruct Hr as [_ Hr]. cbn [fst snd] in Hr.
  unfold vgood. destruct k as [p| |cs]; [destruct Hr| |].
  - rewrite Hr. destruct Ha as (bs & H1 & H2 & _). exists bs. auto.
  - destruct Hr as (ls & Hk & _ & Hls). rewrite Hk. destruct Ha as (k & l' & t' & v' & H1 & H2 & H3 & H4).
    destruct (members_nth_l _ _ _ _ _ _ _ Hls H2) as (c & Hcn & Hcc). cbn [snd Nat.add] in Hcc.
    exists k, c. split; [exact H1|]. split; [exact Hcn|]. intros n Hn buf Hb.
    assert (Hs' : small t') by (apply (flat_tag_small _ _ _ _ (l', t') Hs Hin); eapply nth_error_In; exact H2).
    assert (Hm' : marshallable pf c) by (eapply everywhere_case; [exact Hm|exact Hw|exact Hk|eapply nth_error_In; exact Hcn]).
    destruct (encode_correct pf src t' _ c v' Hs' Hcc Hm' H3 H4 n Hn buf Hb) as (buf' & E & L & K & _).
    exists buf'. auto.
Qed.

(** A record that ends with a string: a buffer with room for everything before the string but not for the string
    is written past its end. *)
Lemma short_string_overruns pf src t l v al vs w off bs buf :
  small t -> layout_new t = Ret l -> marshallable pf l -> presents src t [] v -> typed t v ->
  l_vars l = vs ++ [w] -> v_kind w = VString -> src_bytes src (v_path w) = Ret bs ->
  encoding_size_with_source src (Layout al (l_var_off l) (l_indices l) (l_fixed l) vs) = Ret off -> al = 1 ->
  off <= length buf -> length buf < off + length bs ->
  encode_with_source pf src l buf = Undef.
Proof.
  intros Hs Hc Hm Hp Ht Hvs Hk Hbs Hsz -> Hlo Hhi. unfold layout_new in Hc.
  pose proof (vars_good _ _ _ _ _ _ Hs Hc Hm Hp Ht) as Hg. rewrite Hvs in Hg. apply Forall_app in Hg as [Hg Hw].
  inversion Hw as [|? ? Hw' _]; subst. unfold vgood in Hw'. rewrite Hk in Hw'. destruct Hw' as (bs' & W1 & W2).
  assert (bs' = bs) as -> by congruence.
  cbn [encoding_size_with_source] in Hsz. inv_bind Hsz. rename Ha into Hoff. apply align_nat_inv in Hsz as (_ & _ & _ & E).
  assert (a = off) as ->.
  { rewrite E, align_up_id; [reflexivity|lia|exists a; lia]. }
  pose proof (size_loop_ge src _ _ _ _ Hoff) as Hge.
  pose proof (fixed_sound _ _ _ _ Hs Hc Hm) as Hso. pose proof (fixed_answers _ _ _ _ _ Hs Hc Hp Ht) as Han.
  pose proof (lo_disj _ _ (calculate_layout_ok _ _ _ Hc)) as Hd.
  destruct l as [al' vo ix fx vs']. cbn [l_fixed l_var_off l_vars l_indices] in *. subst vs'.
  destruct (encode_fixed_all pf src vo fx buf Hso Hd ltac:(lia) Han) as (b1 & E1 & L1 & _).
  destruct (encode_vars_ok pf src _ vs Hg vo off b1 Hoff ltac:(lia)) as (b2 & E2 & L2 & _).
  cbn [encode_with_source]. destruct (Nat.leb_spec vo (length buf)); [|lia]. rewrite E1. cbn [bind].
  rewrite (encode_vars_app _ _ _ _ _ _ _ _ E2). cbn [encode_vars]. rewrite Hk, W1. cbn [bind].
  destruct (Nat.leb_spec off (length b2)); [|lia]. rewrite W2. cbn [bind]. rewrite Nat.eqb_refl.
  unfold raw_write. destruct (Nat.leb_spec (off + length bs) (length b2)); [lia|].
  destruct (Nat.leb_spec off (length b2)); [reflexivity|lia].
Qed.

(** ** Alignment *)

Lemma pow2_16_divide a b : pow2_16 a -> pow2_16 b -> a <= b -> Nat.divide a b.
Proof.
  intros (e & _ & ->) (f & _ & ->) H. apply Nat.pow_le_mono_r_iff in H; [|lia].
  exists (2 ^ (f - e)). rewrite <- Nat.pow_add_r. f_equal. lia.
Qed.

Lemma link_vars_kinds vs : forall k ix vs' ix', link_vars k vs ix = Ret (vs', ix') -> map v_kind vs' = map v_kind vs.
Proof.
  induction vs as [|v vs IH]; intros k ix vs' ix' H; cbn [link_vars] in H.
  - injection H as <- <-. reflexivity.
  - destruct (search ix (v_path v)); [|discriminate]. inv_bind H. inv_bind H. destruct a1 as [r ix1]. injection H as <- <-.
    cbn [map v_kind]. f_equal. eapply IH. exact Ha0.
Qed.

Lemma vfield_align_kind v w : v_kind v = v_kind w -> vfield_align v = vfield_align w.
Proof. intros H. unfold vfield_align. rewrite H. reflexivity. Qed.

Lemma finish_layout_var_align u l v vs :
  finish_layout u = Ret l -> l_vars l = v :: vs -> Nat.divide (vfield_align v) (l_var_off l).
Proof.
  destruct u as [[fx bs] us]. intros H Hv. unfold finish_layout in H. inv_bind H. destruct a as [bits conts].
  inv_bind H. destruct a as [placed size]. inv_bind H. cbv zeta in H. inv_bind H. inv_bind H. inv_bind H.
  destruct a2 as [vars' ix]. injection H as <-. cbn [l_vars l_var_off] in *. apply link_vars_kinds in Ha4.
  destruct (sort_desc (fun l r => vfield_align l <? vfield_align r) us) as [|w ws]; subst vars'; [discriminate|].
  injection Ha4 as E _. apply align_nat_inv in Ha2 as (_ & _ & _ & ->). rewrite (vfield_align_kind _ _ E). apply align_up_div.
Qed.

Lemma fold_max_in cs : forall a c, In c cs -> l_align c <= fold_left Nat.max (map l_align cs) a.
Proof.
  assert (M : forall l a, a <= fold_left Nat.max l a).
  { induction l as [|b l IH]; intros a; cbn [fold_left]; [lia|]. specialize (IH (Nat.max a b)). lia. }
  induction cs as [|d cs IH]; intros a c [].
  - subst d. cbn [map fold_left]. specialize (M (map l_align cs) (Nat.max a (l_align c))). lia.
  - cbn [map fold_left]. apply IH. assumption.
Qed.

Lemma vfield_align_ge v cases c : v_kind v = VEnum cases -> In c cases -> l_align c <= vfield_align v.
Proof.
  intros Hk Hc. unfold vfield_align. rewrite Hk. destruct cases as [|d cs]; [destruct Hc|].
  destruct Hc as [->|Hc]; [|apply fold_max_in; exact Hc].
  clear Hk. generalize (l_align c). induction cs as [|e cs IH]; intros a; cbn [map fold_left]; [lia|].
  specialize (IH (Nat.max a (l_align e))). lia.
Qed.

(** The payload of the first variable part starts aligned for every case. *)
Lemma first_payload_aligned t q l v vs cases c :
  calculate_layout t q = Ret l -> l_vars l = v :: vs -> v_kind v = VEnum cases -> In c cases ->
  Nat.divide (l_align c) (l_var_off l).
Proof.
  intros Hc Hv Hk Hin. pose proof (calculate_layout_ok _ _ _ Hc) as Hl.
  assert (Hcs : forall c', In c' cases -> pow2_16 (l_align c')).
  { intros c' Hc'. assert (Hvin : In v (l_vars l)) by (rewrite Hv; left; reflexivity).
    destruct (lay_ok_enum _ _ _ _ _ Hl Hvin Hk Hc') as (cs & cse & i & _ & _ & _ & H4).
    exact (lo_align _ _ (calculate_layout_ok _ _ _ H4)). }
  apply Nat.divide_trans with (vfield_align v).
  - apply pow2_16_divide; [apply Hcs; exact Hin| |eapply vfield_align_ge; eassumption].
    apply vfield_align_pow2. intros cases' c' Hk' Hc'. apply Hcs. congruence.
  - unfold calculate_layout in Hc. inv_bind Hc. eapply finish_layout_var_align; eassumption.
Qed.

Lemma assign_offsets_kinds fs : forall start placed total,
  assign_offsets fs start = Ret (placed, total) -> map f_kind placed = map f_kind fs.
Proof.
  induction fs as [|f fs IH]; intros start placed total H; cbn [assign_offsets] in H.
  - injection H as <- <-. reflexivity.
  - inv_bind H. inv_bind H. destruct a0 as [r tot]. injection H as <- <-. cbn [map f_kind]. f_equal. eapply IH. exact Ha0.
Qed.

Lemma field_size_kind f g : f_kind f = f_kind g -> field_size f = field_size g.
Proof. intros H. unfold field_size. rewrite H. reflexivity. Qed.

(** The alignment of a layout is a multiple of the size of each of its fixed fields. *)
Lemma finish_layout_align u l f :
  finish_layout u = Ret l -> (exists e, e <= 4 /\ l_align l = 2 ^ e) -> In f (l_fixed l) ->
  Nat.divide (field_size f) (l_align l).
Proof.
  destruct u as [[fx bs] us]. intros H Hal Hf. unfold finish_layout in H. inv_bind H. destruct a as [bits conts].
  inv_bind H. destruct a as [placed size]. inv_bind H. rename a into fa. cbv zeta in H. inv_bind H. inv_bind H. inv_bind H.
  destruct a1 as [vars' ix]. injection H as <-. cbn [l_fixed l_align] in *.
  apply pow2_16_divide; [apply pow2_16_field|exact Hal|]. apply Nat.le_trans with fa; [|lia].
  assert (Hmax : forall g, In g placed -> field_size g <= fa).
  { pose proof (assign_offsets_kinds _ _ _ _ Ha0) as Ek.
    pose proof (sort_desc_key field_size (fx ++ conts)) as Hs.
    destruct (sort_desc (fun l r => field_size l <? field_size r) (fx ++ conts)) as [|h rest].
    - destruct placed; [|discriminate]. intros g [].
    - destruct placed as [|h' rest']; [discriminate|]. cbn [map] in Ek. injection Ek as E1 E2.
      assert (Efa : field_size h' = fa).
      { unfold field_size. destruct (f_kind h'); cbn [kind_size] in Ha1; try discriminate; injection Ha1 as <-; reflexivity. }
      intros g [<-|Hg]; [lia|]. apply (in_map f_kind) in Hg. rewrite E2 in Hg. apply in_map_iff in Hg as (g0 & E0 & Hg0).
      inversion Hs as [|? ? _ HF]; subst. rewrite Forall_forall in HF. specialize (HF _ Hg0).
      rewrite <- (field_size_kind _ _ E0), (field_size_kind h' h E1). exact HF. }
  apply in_app_or in Hf as [Hf|Hf].
  - apply filter_In in Hf as [Hf _]. apply Hmax. exact Hf.
  - destruct (Forall2_in_r _ _ _ _ (bit_fields_spec _ _ _ Ha3) Hf) as (b & _ & _ & p & Hfc & Hk).
    unfold find_container in Hfc.
    destruct (find (fun f => match f_kind f with FContainer j _ => j =? b_index b | _ => false end) (rev placed)) as [g|] eqn:Eg; [|discriminate].
    apply find_some in Eg as [Hg _]. apply in_rev in Hg. specialize (Hmax _ Hg).
    destruct (f_kind g) as [p'| |i p'|p' o n] eqn:Egk; try discriminate. injection Hfc as _ <-.
    unfold field_size in *. rewrite Hk. rewrite Egk in Hmax. exact Hmax.
Qed.

Lemma field_divides_align t q l f : calculate_layout t q = Ret l -> In f (l_fixed l) -> Nat.divide (field_size f) (l_align l).
Proof.
  intros Hc Hf. pose proof (lo_align _ _ (calculate_layout_ok _ _ _ Hc)) as Ha. unfold calculate_layout in Hc. inv_bind Hc.
  eapply finish_layout_align; eassumption.
Qed.

(** ** Debug builds panic on every tag that cannot be stored *)

Lemma encode_fixed_result pf src vo buf f :
  well_placed vo f -> vo <= length buf -> (exists z, ans src f = Ret z) -> encode_fixed pf src buf f <> Undef.
Proof.
  intros (Hfit & _ & Hk) Hvo (z & Hz). unfold encode_fixed, ans, field_size in *. destruct (f_kind f) as [p| |i p|p o n].
  - rewrite Hz. cbn [bind].
    rewrite raw_write_ok by (rewrite le_bytes_length; lia). discriminate.
  - destruct (src_len src (f_path f)); cbn [bind] in *; try discriminate.
    destruct (Z.of_nat a <=? 2 ^ 32 - 1)%Z; [|discriminate].
    rewrite raw_write_ok by (rewrite le_bytes_length; lia). discriminate.
  - destruct Hk.
  - destruct (src_tag src (f_path f)); cbn [bind] in *; try discriminate. destruct Hk as [-> Hon].
    unfold wshl, wsub. repeat first
      [ rewrite raw_read_ok by lia; cbn [bind]
      | rewrite raw_write_ok by (rewrite le_bytes_length; lia); discriminate
      | match goal with |- context [bind (if ?b then _ else _) _] => destruct b; cbn [bind]; try discriminate end
      | match goal with |- context [match pf with _ => _ end] => destruct pf; cbn [bind]; try discriminate end ].
Qed.

Lemma unstorable_panics src buf f vo :
  well_placed vo f -> ~ storable Debug f -> encode_fixed Debug src buf f <> Undef -> 
  (exists z, ans src f = Ret z) -> encode_fixed Debug src buf f = Panic.
Proof.
  intros (Hfit & _ & Hk) Hn Hu (z & Hz). unfold storable, encode_fixed, ans in *. destruct (f_kind f) as [p| |i p|p o n]; try tauto.
  destruct (src_tag src (f_path f)); cbn [bind] in *; try discriminate. destruct Hk as [-> Hon].
  unfold wshl at 1. destruct (Z.ltb_spec (Z.of_nat n) (prim_bits p)) as [Hlt|Hge]; [|reflexivity]. cbn [bind].
  match goal with |- bind ?x _ = _ => destruct x eqn:Ew; cbn [bind]; try reflexivity end.
  - unfold wshl at 1. destruct (Z.ltb_spec (Z.of_nat o) (prim_bits p)) as [Hlt'|Hge]; [|reflexivity].
    exfalso. apply Hn. unfold prim_bits in *. split; [lia|intros _; lia].
  - exfalso. unfold wsub in Ew. destruct (1 <=? _)%Z; discriminate.
Qed.

Lemma foldM_unstorable src vo fs : forall buf,
  Forall (well_placed vo) fs -> Forall (fun f => exists z, ans src f = Ret z) fs -> vo <= length buf ->
  ~ Forall (storable Debug) fs -> foldM (encode_fixed Debug src) fs buf = Panic.
Proof.
  induction fs as [|f fs IH]; intros buf Hw Ha Hvo Hn; [exfalso; apply Hn; constructor|].
  inversion Hw as [|? ? Hw1 Hw2]; inversion Ha as [|? ? Ha1 Ha2]; subst. cbn [foldM].
  pose proof (encode_fixed_result Debug src vo buf f Hw1 Hvo Ha1) as Hu.
  assert (Hd : storable Debug f \/ ~ storable Debug f).
  { unfold storable. destruct (f_kind f) as [p| |i p|p o n]; try tauto.
    destruct (Nat.lt_ge_cases n (8 * prim_size p)); [|right; intros [? _]; lia].
    destruct (Nat.lt_ge_cases o (8 * prim_size p)); [left; split; [assumption|intros _; assumption]|].
    right. intros [_ H1]. specialize (H1 eq_refl). lia. }
  destruct Hd as [Hs|Hs]; [|rewrite (unstorable_panics _ _ _ _ Hw1 Hs Hu Ha1); reflexivity].
  destruct (encode_fixed Debug src buf f) as [b| |] eqn:E; cbn [bind]; [|reflexivity|contradiction].
  apply encode_fixed_length in E. apply IH; [exact Hw2|exact Ha2|lia|]. intros HF. apply Hn. constructor; assumption.
Qed.

(** Storability at the top level is necessary in a debug build. *)
Lemma debug_encode_panics src t q l v buf :
  small t -> calculate_layout t q = Ret l -> presents src t q v -> typed t v ->
  ~ Forall (storable Debug) (l_fixed l) -> encode_with_source Debug src l buf = Panic.
Proof.
  intros Hs Hc Hp Ht Hn. pose proof (lo_place _ _ (calculate_layout_ok _ _ _ Hc)) as Hw.
  pose proof (fixed_answers _ _ _ _ _ Hs Hc Hp Ht) as Ha.
  destruct l as [al vo ix fx vs]. cbn [l_fixed l_var_off] in *. cbn [encode_with_source].
  destruct (Nat.leb_spec vo (length buf)) as [Hvo|]; [|reflexivity].
  rewrite (foldM_unstorable src vo fx buf Hw); [reflexivity| |exact Hvo|exact Hn].
  eapply Forall_impl; [|exact Ha]. cbv beta. intros f (z & Hz & _). eauto.
Qed.
