(** * Property C93 *)

From Verif Require Import Base StrModel TypesModel MarshalModel MarshalSpec FormatSpec FormatBits PatchSpec PatchProofs MarshalMore MarshalLimits MarshalTop ValSource.

(** C93: encoding a value with one number changed gives the same record with the bytes of the number replaced; and the
    replaced bytes read as the changed value. *)
Theorem number_changed_in_place : forall pf src src' t l v r p z v' n buf,
  small t -> layout_new t = Ret l -> marshallable pf l -> presents src t [] v -> typed t v -> changed t v r p z v' ->
  in_range p z -> presents src' t [] v' -> encoding_size_with_source src l = Ret n -> n <= length buf ->
  exists buf1 x, encode_with_source pf src l buf = Ret (buf1, n) /\ x + width p <= n /\
    encode_with_source pf src' l buf = Ret (write buf1 x (le_bytes (width p) z), n) /\
    presents (marshaller_source pf l (write buf1 x (le_bytes (width p) z))) t [] v'.
Proof.
  intros pf src src' t l v r p z v' n buf Hs Hl Hm Hp Ht Hc Hz Hp' Hn Hb.
  destruct (patched_any pf src src' t l v r p z v' n buf Hs Hl Hm Hp Ht Hc Hz Hp' Hn Hb) as (b & x & H1 & H2 & H3 & H4 & _).
  exists b, x. auto.
Qed.
Print Assumptions number_changed_in_place.

(** struct { s: string, e: enum { x: (), y: (u8, u32) }, a: u16 } *)
Definition ex_patch_ty : ty :=
  TStruct [([115%Z], TString); ([101%Z], TEnum [([120%Z], TUnit); ([121%Z], TTuple [TPrim PU8; TPrim PU32])]); ([97%Z], TPrim PU16)].
Definition ex_patch_val (s : list byte) (e a : Z) : val :=
  VStruct [VStr s; VCase 1 (VTuple [VPrim 7; VPrim e]); VPrim a].

Example number_changed_in_place_ex :
  changed ex_patch_ty (ex_patch_val [x41; x42] 5 9) [1; 1; 1] PU32 258 (ex_patch_val [x41; x42] 258 9) /\
  typed ex_patch_ty (ex_patch_val [x41; x42] 5 9) /\ in_range PU32 258 /\ small ex_patch_ty /\
  exists l buf1 buf2, layout_new ex_patch_ty = Ret l /\ marshallable Debug l /\
    encoding_size_with_source (val_source (ex_patch_val [x41; x42] 5 9)) l = Ret 20 /\
    encode_with_source Debug (val_source (ex_patch_val [x41; x42] 5 9)) l (repeat xff 24) = Ret (buf1, 20) /\
    encode_with_source Debug (val_source (ex_patch_val [x41; x42] 258 9)) l (repeat xff 24) = Ret (buf2, 20) /\
    buf1 = [x02; x00; x00; x00; x09; x00; xff; xff; x05; x00; x00; x00; x07; xff; xff; xff; x41; x42; xff; xff; xff; xff; xff; xff] /\
    buf2 = write buf1 8 [x02; x01; x00; x00].
Proof.
  assert (Ht : typed ex_patch_ty (ex_patch_val [x41; x42] 5 9)).
  { constructor. repeat (apply tl_cons || apply tl_nil).
    - constructor. reflexivity.
    - eapply ty_enum; [reflexivity|]. repeat constructor; cbn; lia.
    - constructor. cbn. lia. }
  split.
  { eapply ch_struct with (k := 1) (v' := VCase 1 (VTuple [VPrim 7; VPrim 258])); [reflexivity|reflexivity| |].
    - eapply ch_case; [reflexivity|]. eapply ch_tuple with (k := 1); [reflexivity|reflexivity|apply ch_here|].
      split; [reflexivity|]. split; [reflexivity|]. intros [|[|[|i]]] Hi; [reflexivity|congruence|reflexivity..].
    - split; [reflexivity|]. split; [reflexivity|]. intros [|[|[|i]]] Hi; [reflexivity|congruence|reflexivity..]. }
  split; [exact Ht|]. split; [cbn; lia|]. split; [reflexivity|].
  eexists _, _, _. split; [vm_compute; reflexivity|]. split.
  { eapply (marshallable_type _ ex_patch_ty []).
    - vm_compute; reflexivity.
    - unfold ex_patch_ty. repeat constructor; cbn; unfold bad_case_count; lia.
    - vm_compute. reflexivity. }
  split; [vm_compute; reflexivity|]. split; [vm_compute; reflexivity|]. split; [vm_compute; reflexivity|].
  split; vm_compute; reflexivity.
Qed.

(** C93: for a number that is not in the payload of an enum the place is the same in all records of the type: the offset
    which the layout has for it. *)
Theorem number_changed_at_its_offset : forall pf t l r p,
  small t -> layout_new t = Ret l -> marshallable pf l -> reaches t r (TPrim p) ->
  exists f, In f (l_fixed l) /\ f_path f = r /\ f_kind f = FPrim p /\
    forall src src' v z v' n buf, presents src t [] v -> typed t v -> changed t v r p z v' -> in_range p z ->
      presents src' t [] v' -> encoding_size_with_source src l = Ret n -> n <= length buf ->
      exists buf1, encode_with_source pf src l buf = Ret (buf1, n) /\ f_offset f + width p <= n /\
        encode_with_source pf src' l buf = Ret (write buf1 (f_offset f) (le_bytes (width p) z), n).
Proof. exact patched_fixed. Qed.
Print Assumptions number_changed_at_its_offset.

Example number_changed_at_its_offset_ex : reaches ex_patch_ty [2] (TPrim PU16) /\
  changed ex_patch_ty (ex_patch_val [] 5 9) [2] PU16 513 (ex_patch_val [] 5 513) /\
  exists l, layout_new ex_patch_ty = Ret l /\ In {| f_path := [2]; f_kind := FPrim PU16; f_offset := 4 |} (l_fixed l) /\
    forall s, In s [[]; [x41; x42; x43; x44; x45]] -> exists n buf1,
      encode_with_source Debug (val_source (ex_patch_val s 5 9)) l (repeat x00 24) = Ret (buf1, n) /\
      encode_with_source Debug (val_source (ex_patch_val s 5 513)) l (repeat x00 24) = Ret (write buf1 4 [x01; x02], n).
Proof.
  split; [eapply re_struct; [reflexivity|constructor]|]. split.
  { eapply ch_struct with (k := 2); [reflexivity|reflexivity|apply ch_here|].
    split; [reflexivity|]. split; [reflexivity|]. intros [|[|[|i]]] Hi; [reflexivity|reflexivity|congruence|reflexivity]. }
  eexists. split; [vm_compute; reflexivity|]. split; [cbn; auto|].
  intros s [<-|[<-|[]]]; eexists _, _; split; vm_compute; reflexivity.
Qed.

(** The place of a number in a payload depends on the parts before it. *)
Theorem payload_number_at_an_offset_refuted : exists t l r p,
  small t /\ layout_new t = Ret l /\ marshallable Debug l /\
  ~ exists x, forall v z v' n buf buf1, typed t v -> changed t v r p z v' -> in_range p z ->
    encode_with_source Debug (val_source v) l buf = Ret (buf1, n) ->
    encode_with_source Debug (val_source v') l buf = Ret (write buf1 x (le_bytes (width p) z), n).
Proof.
  set (t := TTuple [TString; TEnum [([120%Z], TUnit); ([121%Z], TPrim PU8)]]).
  assert (Hc : forall s a b, changed t (VTuple [VStr s; VCase 1 (VPrim a)]) [1; 1] PU8 b (VTuple [VStr s; VCase 1 (VPrim b)])).
  { intros s a b. eapply ch_tuple with (k := 1); [reflexivity|reflexivity| |].
    - eapply ch_case; [reflexivity|apply ch_here].
    - split; [reflexivity|]. split; [reflexivity|]. intros [|[|i]] Hi; [reflexivity|congruence|reflexivity]. }
  assert (Ht : forall s a, (Z.of_nat (length s) < 2 ^ 32)%Z -> (0 <= a < 256)%Z -> typed t (VTuple [VStr s; VCase 1 (VPrim a)])).
  { intros s a Hs Ha. constructor. repeat (apply tl_cons || apply tl_nil); [constructor; exact Hs|].
    eapply ty_enum; [reflexivity|]. constructor. exact Ha. }
  exists t. eexists. exists [1; 1], PU8. split; [reflexivity|]. split; [vm_compute; reflexivity|]. split.
  { eapply (marshallable_type _ t []).
    - vm_compute; reflexivity.
    - unfold t. repeat constructor; cbn; unfold bad_case_count; lia.
    - vm_compute. reflexivity. }
  intros (x & H).
  pose proof (H _ 2%Z _ 8 (repeat x00 12) _ (Ht [] 1%Z ltac:(cbn; lia) ltac:(lia)) (Hc [] 1%Z 2%Z) ltac:(cbn; lia) ltac:(vm_compute; reflexivity)) as H1.
  pose proof (H _ 2%Z _ 8 (repeat x00 12) _ (Ht [x41] 1%Z ltac:(cbn; lia) ltac:(lia)) (Hc [x41] 1%Z 2%Z) ltac:(cbn; lia) ltac:(vm_compute; reflexivity)) as H2.
  vm_compute in H1. do 12 (destruct x as [|x]; [vm_compute in H1, H2; discriminate|]).
  vm_compute in H1. discriminate.
Qed.
Print Assumptions payload_number_at_an_offset_refuted.
