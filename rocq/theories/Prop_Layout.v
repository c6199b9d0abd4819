(** * Properties C10 and C16 *)

From Coq Require Import Sorted.
From Verif Require Import Base StrModel TypesModel MarshalModel MarshalSpec LayoutProofs LayoutTotal PresentsFacts MarshalProofs MarshalMore MarshalLimits LayoutCover ValSource.

(** C10: fixed fields do not share a byte, tags in one container do not share a bit; everything lies in the fixed
    part, naturally aligned. [q] is the path of the record inside a larger one (empty for [Layout::new]), so the
    statement covers the layouts of enum payloads at every depth. *)
Theorem layout_no_overlap : forall t q l, calculate_layout t q = Ret l ->
  ForallOrdPairs no_overlap (l_fixed l) /\ Forall (well_placed (l_var_off l)) (l_fixed l).
Proof. exact (fun t q l H => conj (lo_disj _ _ (calculate_layout_ok _ _ _ H)) (lo_place _ _ (calculate_layout_ok _ _ _ H))). Qed.
Print Assumptions layout_no_overlap.

(** struct { a: u8, b: u32, e: enum { x: (), y: string, z: (u16, u64) }, s: string, f: enum { p: (), q: u8, r: () } } *)
Definition ex_layout_ty : ty :=
  TStruct [([97%Z], TPrim PU8); ([98%Z], TPrim PU32);
           ([101%Z], TEnum [([120%Z], TUnit); ([121%Z], TString); ([122%Z], TTuple [TPrim PU16; TPrim PU64])]);
           ([115%Z], TString);
           ([102%Z], TEnum [([112%Z], TUnit); ([113%Z], TPrim PU8); ([114%Z], TUnit)])].

Example layout_no_overlap_ex : exists l, layout_new ex_layout_ty = Ret l /\ length (l_fixed l) = 5 /\ l_var_off l = 16.
Proof. eexists. repeat split; vm_compute; reflexivity. Qed.

(** C10: the same for all nested layouts at once. *)
Theorem layout_no_overlap_everywhere : forall t q l, calculate_layout t q = Ret l ->
  everywhere (fun l' => ForallOrdPairs no_overlap (l_fixed l') /\ Forall (well_placed (l_var_off l')) (l_fixed l')) l.
Proof.
  exact (fun t q l H => everywhere_calculated _
    (fun t' q' l' H' => conj (lo_disj _ _ (calculate_layout_ok t' q' l' H')) (lo_place _ _ (calculate_layout_ok t' q' l' H'))) t q l H).
Qed.
Print Assumptions layout_no_overlap_everywhere.

Example layout_no_overlap_everywhere_ex :
  exists l v cases c, layout_new ex_layout_ty = Ret l /\ In v (l_vars l) /\ v_kind v = VEnum cases /\ In c cases /\
    length (l_fixed c) = 2.
Proof.
  eexists _, _, _, _. split; [vm_compute; reflexivity|]. split; [left; reflexivity|]. split; [reflexivity|].
  split; [right; right; left; reflexivity|]. reflexivity.
Qed.

(** C10: the fixed fields are exactly the elements of the type outside enum payloads, each with the right kind; a tag
    has the least number of bits that can count the cases. *)
Theorem layout_covers_elements : forall t q l, small t -> calculate_layout t q = Ret l ->
  NoDup (map f_path (l_fixed l)) /\
  (forall f, In f (l_fixed l) -> exists r u, f_path f = q ++ r /\ reaches t r u /\ field_for u (f_kind f)) /\
  (forall r u, reaches t r u -> is_element u -> exists f, In f (l_fixed l) /\ f_path f = q ++ r /\ field_for u (f_kind f)).
Proof. exact layout_fields. Qed.
Print Assumptions layout_covers_elements.

Example layout_covers_elements_ex :
  small ex_layout_ty /\ reaches ex_layout_ty [1] (TPrim PU32) /\
  exists l, layout_new ex_layout_ty = Ret l /\ map f_path (l_fixed l) = [[1]; [3]; [0]; [2]; [4]].
Proof.
  split; [vm_compute; reflexivity|]. split; [eapply re_struct; [reflexivity|constructor]|].
  eexists. split; [vm_compute; reflexivity|vm_compute; reflexivity].
Qed.

(** C10: the variable parts are exactly the strings and enums; an enum part has the layouts of its cases. *)
Theorem layout_covers_variable_parts : forall t q l, calculate_layout t q = Ret l ->
  NoDup (map v_path (l_vars l)) /\
  (forall v, In v (l_vars l) -> exists r, v_path v = q ++ r /\
     ((reaches t r TString /\ v_kind v = VString) \/
      exists cs ls, reaches t r (TEnum cs) /\ v_kind v = VEnum ls /\ length ls = length cs /\
        forall k c, nth_error ls k = Some c -> exists lb u, nth_error cs k = Some (lb, u) /\
                    calculate_layout u (v_path v ++ [k]) = Ret c)) /\
  (forall r u, reaches t r u -> (u = TString \/ exists cs, u = TEnum cs) -> In (q ++ r) (map v_path (l_vars l))).
Proof. exact layout_vars. Qed.
Print Assumptions layout_covers_variable_parts.

Example layout_covers_variable_parts_ex :
  exists l, layout_new ex_layout_ty = Ret l /\ map v_path (l_vars l) = [[2]; [3]; [4]].
Proof. eexists. split; [vm_compute; reflexivity|vm_compute; reflexivity]. Qed.

(** C10: the search index is strictly sorted and complete, so [binary_search_by] finds every element. *)
Theorem layout_index_sorted : forall t q l, calculate_layout t q = Ret l ->
  StronglySorted (fun x y => path_cmp (i_path x) (i_path y) = Gt) (l_indices l) /\
  (forall x, In x (l_indices l) -> exists f, nth_error (l_fixed l) (i_fixed x) = Some f /\ f_path f = i_path x) /\
  (forall f, In f (l_fixed l) -> exists x, In x (l_indices l) /\ i_path x = f_path f) /\
  (forall k v, nth_error (l_vars l) k = Some v -> exists x, In x (l_indices l) /\ i_path x = v_path v /\ i_var x = k).
Proof. exact layout_index. Qed.
Print Assumptions layout_index_sorted.

Example layout_index_sorted_ex :
  exists l, layout_new ex_layout_ty = Ret l /\ map i_path (l_indices l) = [[4]; [3]; [2]; [1]; [0]].
Proof. eexists. split; [vm_compute; reflexivity|vm_compute; reflexivity]. Qed.

(** C10: a layout exists exactly when no tuple, struct or enum inside the type is empty. *)
Theorem layout_exists_iff : forall t, small t -> ((exists l, layout_new t = Ret l) <-> inhabited_type t).
Proof. exact layout_iff. Qed.
Print Assumptions layout_exists_iff.

Example layout_exists_iff_ex :
  (exists l, layout_new ex_layout_ty = Ret l) /\ layout_new (TTuple [TPrim PU8; TStruct []]) = Panic.
Proof. split; [eexists; vm_compute; reflexivity|vm_compute; reflexivity]. Qed.

(** C16: every fixed field is at a multiple of its size from the start of its layout, and the alignment of the layout
    is a multiple of the size: a layout placed at a multiple of its alignment has only aligned accesses. *)
Theorem fixed_fields_aligned : forall t q l f base, calculate_layout t q = Ret l -> In f (l_fixed l) ->
  Nat.divide (l_align l) base -> Nat.divide (field_size f) (base + f_offset f).
Proof. exact fields_aligned. Qed.
Print Assumptions fixed_fields_aligned.

Example fixed_fields_aligned_ex :
  exists l f, layout_new ex_layout_ty = Ret l /\ In f (l_fixed l) /\ field_size f = 4 /\ f_offset f = 4 /\ l_align l = 8.
Proof.
  eexists _, _. split; [vm_compute; reflexivity|]. split; [right; left; reflexivity|]. repeat split; reflexivity.
Qed.

(** C16: the payload of the first variable part starts aligned, whatever the case. *)
Theorem first_payload_is_aligned : forall t q l v vs cases c, calculate_layout t q = Ret l ->
  l_vars l = v :: vs -> v_kind v = VEnum cases -> In c cases -> Nat.divide (l_align c) (l_var_off l).
Proof. exact first_payload_aligned. Qed.
Print Assumptions first_payload_is_aligned.

Example first_payload_is_aligned_ex :
  exists l v vs cases c, layout_new ex_layout_ty = Ret l /\ l_vars l = v :: vs /\ v_kind v = VEnum cases /\ In c cases /\
    l_align c = 8 /\ l_var_off l = 16.
Proof.
  eexists _, _, _, _, _. split; [vm_compute; reflexivity|]. split; [reflexivity|]. split; [reflexivity|].
  split; [right; right; left; reflexivity|]. split; reflexivity.
Qed.

(** C16: later payloads need not be aligned. In (enum { u8, u64 }, enum { u64, () }) with a [u8] in the first part, the
    [u64] of the second part is accessed at offset 9 of the record. *)
Theorem payload_alignment_refuted : exists t v l n buf buf' o c f,
  typed t v /\ layout_new t = Ret l /\ encoding_size_with_source (val_source v) l = Ret n /\ length buf = n /\
  encode_with_source Debug (val_source v) l buf = Ret (buf', n) /\
  variable_field_offset Debug l 1 buf' = Ret o /\
  (exists w cases, nth_error (l_vars l) 1 = Some w /\ v_kind w = VEnum cases /\ nth_error cases 0 = Some c) /\
  src_tag (val_source v) [1] = Ret 0 /\ In f (l_fixed c) /\
  field_size f = 8 /\ o + f_offset f = 9 /\ ~ Nat.divide (field_size f) (o + f_offset f).
Proof.
  exists (TTuple [TEnum [([97%Z], TPrim PU8); ([98%Z], TPrim PU64)]; TEnum [([97%Z], TPrim PU64); ([98%Z], TUnit)]]).
  exists (VTuple [VCase 0 (VPrim 5); VCase 0 (VPrim 7)]).
  eexists _, _, (repeat x00 24), _, _, _, _.
  split. { constructor. repeat econstructor; vm_compute; intuition discriminate. }
  split; [vm_compute; reflexivity|]. split; [vm_compute; reflexivity|]. split; [vm_compute; reflexivity|].
  split; [vm_compute; reflexivity|]. split; [vm_compute; reflexivity|].
  split. { eexists _, _. split; [vm_compute; reflexivity|]. split; [reflexivity|reflexivity]. }
  split; [vm_compute; reflexivity|]. split; [left; reflexivity|]. split; [reflexivity|]. split; [reflexivity|].
  cbn. intros [k Hk]. lia.
Qed.
Print Assumptions payload_alignment_refuted.
