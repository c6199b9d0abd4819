(** * Property C72 *)

From Verif Require Import Base StrModel TypesModel MarshalModel MarshalSpec FormatSpec FormatBits FormatLayout LayoutProofs MarshalMore MarshalLimits MarshalTop ValSource.

(** C72: the fixed part has no holes: it is a sequence of fields and of containers of tags, padded to the alignment of
    the variable parts. With C10 (fields do not overlap) and the order below this determines every offset. *)
Theorem fixed_part_has_no_holes : forall t q l, calculate_layout t q = Ret l -> exists size,
  (forall i, i < size <-> exists f, In f (l_fixed l) /\ f_offset f <= i < f_offset f + field_width f) /\
  next_multiple (greatest (map part_alignment (l_vars l))) size (l_var_off l).
Proof. exact (fun t q l H => fo_dense l (calculate_format t q l H)). Qed.
Print Assumptions fixed_part_has_no_holes.

(** struct { a: u8, e: enum { x: (), y: string, z: (u16, u64) }, b: u32, f: enum of 40 cases, s: string, c: i16,
    g: enum { x: (), y: u8 } } *)
Definition ex_format_ty : ty :=
  TStruct [([97%Z], TPrim PU8);
           ([101%Z], TEnum [([120%Z], TUnit); ([121%Z], TString); ([122%Z], TTuple [TPrim PU16; TPrim PU64])]);
           ([98%Z], TPrim PU32);
           ([102%Z], TEnum (map (fun i => ([(112 + Z.of_nat i)%Z], TUnit)) (seq 0 40)));
           ([115%Z], TString);
           ([99%Z], TPrim PI16);
           ([103%Z], TEnum [([120%Z], TUnit); ([121%Z], TPrim PU8)])].

Example fixed_part_has_no_holes_ex : exists l, calculate_layout ex_format_ty [] = Ret l /\
  map (fun f => (f_path f, f_kind f, f_offset f)) (l_fixed l) =
    [([2], FPrim PU32, 0); ([4], FLength, 4); ([5], FPrim PI16, 8); ([0], FPrim PU8, 10);
     ([3], FBit PU8 0 6, 11); ([1], FBit PU8 6 2, 11); ([6], FBit PU8 0 1, 12)] /\
  l_var_off l = 16.
Proof. eexists. split; [vm_compute; reflexivity|]. split; reflexivity. Qed.

(** C72: a record is aligned for its widest field and its most aligned variable part. *)
Theorem record_alignment : forall t q l, calculate_layout t q = Ret l ->
  l_align l = greatest (map field_width (l_fixed l) ++ map part_alignment (l_vars l)).
Proof. exact (fun t q l H => fo_align l (calculate_format t q l H)). Qed.
Print Assumptions record_alignment.

Example record_alignment_ex : exists l, calculate_layout ex_format_ty [] = Ret l /\ l_align l = 8 /\
  map field_width (l_fixed l) = [4; 4; 2; 1; 1; 1; 1] /\ map part_alignment (l_vars l) = [8; 1; 1; 1].
Proof. eexists. split; [vm_compute; reflexivity|]. repeat split. Qed.

(** C72: the order of the fixed fields. *)
Theorem field_order : forall t q l f g, calculate_layout t q = Ret l -> In f (l_fixed l) -> In g (l_fixed l) ->
  f_offset f < f_offset g -> goes_first f g.
Proof. exact (fun t q l f g H => fo_order l (calculate_format t q l H) f g). Qed.
Print Assumptions field_order.

Example field_order_ex : exists l f g, calculate_layout ex_format_ty [] = Ret l /\ In f (l_fixed l) /\ In g (l_fixed l) /\
  f_offset f < f_offset g /\ f_path f = [5] /\ f_path g = [0] /\ goes_first f g /\ ~ goes_first g f.
Proof.
  eexists _, _, _. split; [vm_compute; reflexivity|]. split; [right; right; left; reflexivity|].
  split; [right; right; right; left; reflexivity|]. split; [cbn; lia|]. split; [reflexivity|]. split; [reflexivity|].
  split; [left; cbn; lia|]. intros [H|[H _]]; cbn in H; lia.
Qed.

(** C72: tags are packed in the order of [packed_first], each into the first container with room for it, right after the
    tags already there; a new container is the smallest that is large enough. The list of fixed fields has the tags in
    that order. *)
Theorem tags_packed_in_order : forall t q l, calculate_layout t q = Ret l ->
  ForallOrdPairs (fun f g => is_tag f -> is_tag g -> packed_first f g) (l_fixed l).
Proof. exact (fun t q l H => fo_tags l (calculate_format t q l H)). Qed.
Print Assumptions tags_packed_in_order.

Theorem tags_packed_tightly : forall t q l pre f post, calculate_layout t q = Ret l -> l_fixed l = pre ++ f :: post ->
  packed_next pre f.
Proof. exact (fun t q l pre f post H => fo_packed l (calculate_format t q l H) pre f post). Qed.
Print Assumptions tags_packed_tightly.

Example tags_packed_ex : exists l pre f g post, calculate_layout ex_format_ty [] = Ret l /\ l_fixed l = pre ++ f :: g :: post /\
  f_kind f = FBit PU8 0 6 /\ f_kind g = FBit PU8 6 2 /\ f_offset f = f_offset g.
Proof.
  eexists _, [_; _; _; _], _, _, _. split; [vm_compute; reflexivity|]. split; [reflexivity|]. repeat split.
Qed.

(** C72: the order of the variable parts. *)
Theorem part_order : forall t q l, calculate_layout t q = Ret l -> ForallOrdPairs part_first (l_vars l).
Proof. exact (fun t q l H => fo_parts l (calculate_format t q l H)). Qed.
Print Assumptions part_order.

Example part_order_ex : exists l, calculate_layout ex_format_ty [] = Ret l /\ map v_path (l_vars l) = [[1]; [3]; [4]; [6]].
Proof. eexists. split; [vm_compute; reflexivity|]. reflexivity. Qed.

(** C72: the bytes of an encoded record are the image of the source: two's complement numbers with the lowest bit first at
    the places above, the variable parts one after the other, and the rest as it was in the buffer. *)
Theorem encoded_record_image : forall pf src t q l buf buf' n,
  calculate_layout t q = Ret l -> marshallable pf l -> encode_with_source pf src l buf = Ret (buf', n) ->
  length buf' = length buf /\ (forall i, n <= i -> nth_error buf' i = nth_error buf i) /\ image src l buf buf' n.
Proof. exact encoded_bits. Qed.
Print Assumptions encoded_record_image.

(** { a: 200, e: z (513, 67305985), b: 7, f: 33rd case, s: "AB", c: -2, g: y 9 } *)
Definition ex_format_val : val :=
  VStruct [VPrim 200; VCase 2 (VTuple [VPrim 513; VPrim 67305985]); VPrim 7; VCase 33 VUnit; VStr [x41; x42]; VPrim (-2);
           VCase 1 (VPrim 9)].

Example encoded_record_image_ex : exists l, calculate_layout ex_format_ty [] = Ret l /\ marshallable Debug l /\
  encode_with_source Debug (val_source ex_format_val) l (repeat xee 40) =
    Ret ([x07; x00; x00; x00; x02; x00; x00; x00; xfe; xff; xc8; xa1; xef; xee; xee; xee;
          x01; x02; x03; x04; x00; x00; x00; x00; x01; x02; xee; xee; xee; xee; xee; xee;
          x41; x42; x09; xee; xee; xee; xee; xee], 40).
Proof.
  eexists. split; [vm_compute; reflexivity|]. split.
  - eapply (marshallable_type _ ex_format_ty []).
    + vm_compute; reflexivity.
    + unfold ex_format_ty. repeat constructor; cbn; unfold bad_case_count; lia.
    + vm_compute. reflexivity.
  - vm_compute. reflexivity.
Qed.

(** C72: these rules leave no freedom: two images of one source over the same buffer agree. *)
Theorem image_is_unique : forall src l old new n new' n', image src l old new n -> image src l old new' n' ->
  n' = n /\ forall i, i < n -> nth_error new' i = nth_error new i.
Proof. exact (fun src l old new n new' n' H H' => image_unique src l old new n H new' n' H'). Qed.
Print Assumptions image_is_unique.

Example image_is_unique_ex : exists l new n, calculate_layout ex_format_ty [] = Ret l /\
  image (val_source ex_format_val) l (repeat xee 40) new n /\ n = 40.
Proof.
  destruct encoded_record_image_ex as (l & H1 & H2 & H3). exists l. eexists _, _. split; [exact H1|].
  split; [eapply encoded_record_image; eassumption|reflexivity].
Qed.

(** Padding and unused bits are not cleared: encoding one record over different buffers gives different bytes. *)
Theorem encoding_is_canonical_refuted : exists t v l n b1 b2 r1 r2,
  typed t v /\ layout_new t = Ret l /\ marshallable Debug l /\
  encode_with_source Debug (val_source v) l b1 = Ret (r1, n) /\ encode_with_source Debug (val_source v) l b2 = Ret (r2, n) /\
  firstn n r1 <> firstn n r2.
Proof.
  exists (TEnum [([120%Z], TUnit); ([121%Z], TUnit)]), (VCase 1 VUnit). eexists. exists 1, [x00], [xf0]. eexists _, _.
  split; [eapply ty_enum; [reflexivity|constructor]|]. split; [vm_compute; reflexivity|].
  split. { eapply (marshallable_type _ (TEnum [([120%Z], TUnit); ([121%Z], TUnit)]) []).
    - vm_compute; reflexivity.
    - repeat constructor; cbn; unfold bad_case_count; lia.
    - vm_compute. reflexivity. }
  split; [vm_compute; reflexivity|]. split; [vm_compute; reflexivity|]. discriminate.
Qed.
Print Assumptions encoding_is_canonical_refuted.
