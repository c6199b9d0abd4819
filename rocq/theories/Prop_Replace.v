(** * Property C94 *)

From Verif Require Import Base UtilSpec StrModel TypesModel MarshalModel MarshalSpec FormatSpec MarshalMore MarshalLimits MarshalTop ValSource.
From Verif Require Import NsmModel NsmSpec RecordSpec PatchSpec Prop_Patch ReplaceSpec ReplaceProofs ReplaceRecord.

(** C94: removing a row makes room for any row that is not longer than it was with its padding, even on a full page;
    inserted at the same place it takes the place of the former one. *)
Theorem row_replaced : forall a pg rows i row row', holds a pg rows -> nth_error rows i = Some row ->
  length row' <= align_up (length row) a ->
  exists pg1 pg2, remove_row a pg i = Ret pg1 /\ insert_row a pg1 i row' = Ret pg2 /\
    length pg1 = length pg /\ length pg2 = length pg /\ holds a pg2 (exchanged rows i row').
Proof. exact replaced_holds. Qed.
Print Assumptions row_replaced.

(** A full page of 32 bytes: nothing can be added. *)
Definition full_page : page :=
  [x02; x00; x00; x00; x1b; x00; x00; x00; x11; x00; x00; x00; xee; xee; xee; xee;
   x01; x02; x03; x04; x05; x06; x07; xee; x61; x62; x63; x64; x65; x0b; x0c; x0d].

Example full_page_holds : holds 8 full_page [[x61; x62; x63; x64; x65]; [x01; x02; x03; x04; x05; x06; x07]].
Proof.
  exists (repeat xee 29 ++ [x0b; x0c; x0d]), ([x00; x00; x00; x00] ++ repeat xee 25 ++ [x0b; x0c; x0d]),
    [OpAppend [x61; x62; x63; x64; x65]; OpAppend [x01; x02; x03; x04; x05; x06; x07]].
  split; [vm_compute; reflexivity|]. split; [|vm_compute; reflexivity].
  econstructor; [split; [vm_compute; repeat constructor|left; discriminate]|].
  econstructor; [split; [vm_compute; repeat constructor|left; discriminate]|]. constructor.
Qed.

Example row_replaced_ex : max_insert_row_size 8 full_page = Ret 0 /\
  exists pg1 pg2, remove_row 8 full_page 0 = Ret pg1 /\ insert_row 8 pg1 0 [x21; x22; x23; x24; x25; x26; x27; x28] = Ret pg2 /\
    get_row 8 pg2 0 = Ret [x21; x22; x23; x24; x25; x26; x27; x28] /\ get_row 8 pg2 1 = Ret [x01; x02; x03; x04; x05; x06; x07].
Proof. split; [vm_compute; reflexivity|]. eexists _, _. repeat (split; [vm_compute; reflexivity|]). vm_compute. reflexivity. Qed.

(** C94: if both rows take the same space with their paddings, no byte changes but those of the row with its padding and
    of its slot. If they have the same length, the slot does not change either; and if moreover the row is the last one
    or has no padding, nothing but the row has changed. *)
Theorem row_replaced_bytes : forall a pg rows i row row', holds a pg rows -> nth_error rows i = Some row ->
  align_up (length row') a = align_up (length row) a ->
  exists pg1 pg2 o, remove_row a pg i = Ret pg1 /\ insert_row a pg1 i row' = Ret pg2 /\
    aligned_row_offset a pg i = Ret o /\ o + align_up (length row) a <= length pg /\
    slice pg o (length row) = row /\ slice pg2 o (length row') = row' /\
    unchanged_but [(4 * (i + 1), 4); (o, align_up (length row) a)] pg pg2 /\
    (length row' = length row -> unchanged_but [(o, align_up (length row) a)] pg pg2 /\
       (S i = length rows \/ Nat.divide a (length row) -> pg2 = write pg o row')).
Proof. exact replaced_bytes. Qed.
Print Assumptions row_replaced_bytes.

Example row_replaced_bytes_ex : exists pg1 pg2,
  remove_row 8 full_page 1 = Ret pg1 /\ insert_row 8 pg1 1 [x31; x32; x33; x34; x35; x36; x37] = Ret pg2 /\
  aligned_row_offset 8 full_page 1 = Ret 16 /\ pg2 = write full_page 16 [x31; x32; x33; x34; x35; x36; x37].
Proof. eexists _, _. repeat (split; [vm_compute; reflexivity|]). vm_compute. reflexivity. Qed.

(** The padding is not kept in general: a row that is removed and put back leaves another page, with bytes of the row
    behind it in the padding. *)
Theorem page_restored_refuted : exists a pg rows i row pg1 pg2, holds a pg rows /\ nth_error rows i = Some row /\
  remove_row a pg i = Ret pg1 /\ insert_row a pg1 i row = Ret pg2 /\ pg2 <> pg.
Proof.
  exists 8, full_page, [[x61; x62; x63; x64; x65]; [x01; x02; x03; x04; x05; x06; x07]], 0, [x61; x62; x63; x64; x65].
  eexists _, _. split; [exact full_page_holds|]. split; [reflexivity|].
  split; [vm_compute; reflexivity|]. split; [vm_compute; reflexivity|]. discriminate.
Qed.
Print Assumptions page_restored_refuted.

(** C94: on a page of records, encoding the value with one number changed over the bytes of the row and putting these in
    place of the row changes the bytes of the number on the page, and otherwise at most the padding of the row. The page
    then is a page of the records with the value exchanged. If the number is not in the payload of an enum then its place
    in the row is the offset which the layout has for it. *)
Theorem number_updated_on_page : forall pf t l a pg rows vs i v r p z v' src',
  small t -> layout_new t = Ret l -> marshallable pf l -> holds a pg rows -> Forall2 (record_of pf t l) vs rows ->
  nth_error vs i = Some v -> changed t v r p z v' -> in_range p z -> presents src' t [] v' ->
  exists row row' pg1 pg2 o x,
    get_row a pg i = Ret row /\ encode_with_source pf src' l row = Ret (row', length row) /\
    remove_row a pg i = Ret pg1 /\ insert_row a pg1 i row' = Ret pg2 /\
    holds a pg2 (exchanged rows i row') /\ Forall2 (record_of pf t l) (exchanged vs i v') (exchanged rows i row') /\
    aligned_row_offset a pg i = Ret o /\ x + width p <= length row /\
    slice pg2 (o + x) (width p) = le_bytes (width p) z /\
    unchanged_but [(o + x, width p); (o + length row, align_up (length row) a - length row)] pg pg2 /\
    (S i = length vs \/ Nat.divide a (length row) -> pg2 = write pg (o + x) (le_bytes (width p) z)) /\
    (reaches t r (TPrim p) -> exists f, In f (l_fixed l) /\ f_path f = r /\ f_kind f = FPrim p /\ x = f_offset f).
Proof. exact number_on_page. Qed.
Print Assumptions number_updated_on_page.

(** Two records of struct { s: string, e: enum { x: (), y: (u8, u32) }, a: u16 } on a page; the number in the payload of
    the first is changed to 258. Its row has 18 bytes and 6 bytes of padding, which change. *)
Definition record_bytes (s : list byte) (e a : Z) : list byte :=
  match layout_new ex_patch_ty with
  | Ret l => match encoding_size_with_source (val_source (ex_patch_val s e a)) l with
             | Ret n => match encode_with_source Debug (val_source (ex_patch_val s e a)) l (repeat xff n) with
                        | Ret (b, _) => b
                        | _ => []
                        end
             | _ => []
             end
  | _ => []
  end.

Lemma ex_patch_typed s e a : (0 <= e < 2 ^ 32)%Z -> (0 <= a < 2 ^ 16)%Z -> (Z.of_nat (length s) < 2 ^ 32)%Z -> typed ex_patch_ty (ex_patch_val s e a).
Proof.
  intros He Ha Hs. constructor. repeat (apply tl_cons || apply tl_nil).
  - constructor. exact Hs.
  - eapply ty_enum; [reflexivity|]. repeat constructor; cbn; lia.
  - constructor. cbn. lia.
Qed.

Example number_updated_on_page_ex : exists l pg pg1 pg2,
  layout_new ex_patch_ty = Ret l /\ marshallable Debug l /\
  holds 8 pg [record_bytes [x41; x42] 5 9; record_bytes [x43] 6 10] /\
  Forall2 (record_of Debug ex_patch_ty l) [ex_patch_val [x41; x42] 5 9; ex_patch_val [x43] 6 10]
    [record_bytes [x41; x42] 5 9; record_bytes [x43] 6 10] /\
  changed ex_patch_ty (ex_patch_val [x41; x42] 5 9) [1; 1; 1] PU32 258 (ex_patch_val [x41; x42] 258 9) /\
  remove_row 8 pg 0 = Ret pg1 /\ insert_row 8 pg1 0 (write (record_bytes [x41; x42] 5 9) 8 [x02; x01; x00; x00]) = Ret pg2 /\
  slice pg 72 24 = record_bytes [x41; x42] 5 9 ++ [xee; xee; xee; xee] /\
  slice pg2 72 24 = write (record_bytes [x41; x42] 5 9) 8 [x02; x01; x00; x00] ++ slice pg 68 4 /\
  firstn 72 pg2 = firstn 72 pg.
Proof.
  eexists _, _, _, _. split; [vm_compute; reflexivity|]. split.
  { eapply (marshallable_type _ ex_patch_ty []).
    - vm_compute; reflexivity.
    - unfold ex_patch_ty. repeat constructor; cbn; unfold bad_case_count; lia.
    - vm_compute. reflexivity. }
  split.
  { exists (repeat xee 96). eexists _, [OpAppend (record_bytes [x41; x42] 5 9); OpAppend (record_bytes [x43] 6 10)].
    split; [vm_compute; reflexivity|]. split; [|vm_compute; reflexivity].
    econstructor; [split; [apply Nat.leb_le; vm_compute; reflexivity|left; discriminate]|].
    econstructor; [split; [apply Nat.leb_le; vm_compute; reflexivity|left; discriminate]|]. constructor. }
  split.
  { apply Forall2_cons; [|apply Forall2_cons; [|constructor]].
    - exists (val_source (ex_patch_val [x41; x42] 5 9)). eexists _, (repeat xff 20), _.
      split; [apply every_value_presented, ex_patch_typed; [lia|lia|reflexivity]|].
      split; [apply ex_patch_typed; [lia|lia|reflexivity]|]. split; [vm_compute; reflexivity|].
      split; [apply Nat.leb_le; vm_compute; reflexivity|]. split; [vm_compute; reflexivity|]. vm_compute; reflexivity.
    - exists (val_source (ex_patch_val [x43] 6 10)). eexists _, (repeat xff 20), _.
      split; [apply every_value_presented, ex_patch_typed; [lia|lia|reflexivity]|].
      split; [apply ex_patch_typed; [lia|lia|reflexivity]|]. split; [vm_compute; reflexivity|].
      split; [apply Nat.leb_le; vm_compute; reflexivity|]. split; [vm_compute; reflexivity|]. vm_compute; reflexivity. }
  split; [apply number_changed_in_place_ex|].
  repeat (split; [vm_compute; reflexivity|]). vm_compute; reflexivity.
Qed.
