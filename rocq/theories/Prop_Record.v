(** * Property C65: records on pages *)

From Coq Require Import Strings.String.
From Verif Require Import Base StrModel Utf8Model UtilSpec TypesModel MarshalModel MarshalSpec LayoutProofs MarshalLimits ValSource.
From Verif Require Import JsonModel JsonSpec JsonTop JsonMore JsonExamples NsmModel NsmSpec RecordSpec RecordProofs.
Local Open Scope list_scope.
Local Open Scope nat_scope.

(** C65: a page that went through a legal history of encoded records shows the plain list of values: each row read back
    through the marshaller presents the value at that place, is exactly as long as the record says, and starts at a
    multiple of the row alignment. *)
Theorem page_of_records : forall pf t l, small t -> layout_new t = Ret l -> marshallable pf l ->
  forall a pg pg0 ops rows vops,
  initialize_page a pg = Ret pg0 -> legal (List.length pg) a [] ops rows -> Forall2 (stores pf t l) vops ops ->
  let vs := fold_left val_step vops [] in
  exists pg', foldM (apply_op a) ops pg0 = Ret pg' /\ num_rows pg' = Ret (List.length vs) /\
    forall i, match nth_error vs i with
      | Some v => exists row off, get_row a pg' i = Ret row /\
          presents (marshaller_source pf l row) t [] v /\ encoding_size pf l row = Ret (List.length row) /\
          aligned_row_offset a pg' i = Ret off /\ Nat.divide a off /\ slice pg' off (List.length row) = row
      | None => get_row a pg' i = Panic
      end.
Proof. exact records_lemma. Qed.
Print Assumptions page_of_records.

(** (string, u16) *)
Definition rx_ty : ty := TTuple [TString; TPrim PU16].
Definition rx_val (s : list byte) (n : Z) : val := VTuple [VStr s; VPrim n].
Definition rx_row1 : list byte := [x01; x00; x00; x00; x07; x00; x41; x2a].
Definition rx_row2 : list byte := [x03; x00; x00; x00; x02; x01; x42; x43; x44; x00; x00; x00].
Definition rx_ops : list page_op := [OpAppend rx_row1; OpInsert 0 rx_row2; OpAppend rx_row1; OpRemove 1].
Definition rx_vops : list val_op :=
  [VAppend (rx_val [x41] 7); VInsert 0 (rx_val [x42; x43; x44] 258); VAppend (rx_val [x41] 7); VRemove 1].

Example page_of_records_ex : exists l pg0,
  small rx_ty /\ layout_new rx_ty = Ret l /\ marshallable Debug l /\ initialize_page 4 (repeat xff 48) = Ret pg0 /\
  legal 48 4 [] rx_ops [rx_row2; rx_row1] /\ Forall2 (stores Debug rx_ty l) rx_vops rx_ops.
Proof.
  assert (T : forall s n, (Z.of_nat (List.length s) < 100)%Z -> (0 <= n < 300)%Z -> typed rx_ty (rx_val s n)).
  { intros s n H1 H2. constructor. constructor; [constructor; lia|]. constructor; [constructor; cbn; lia|constructor]. }
  eexists _, _. split; [vm_compute; reflexivity|]. split; [vm_compute; reflexivity|]. split.
  { eapply (marshallable_type _ rx_ty []); [vm_compute; reflexivity|repeat constructor|vm_compute; reflexivity]. }
  split; [vm_compute; reflexivity|]. split.
  { repeat (econstructor; [cbn [op_ok]; unfold row_ok; vm_compute; repeat split; try (left; discriminate); repeat constructor|]).
    constructor. }
  assert (R1 : forall l, layout_new rx_ty = Ret l -> record_of Debug rx_ty l (rx_val [x41] 7) rx_row1).
  { intros l E. vm_compute in E. injection E as <-. exists (val_source (rx_val [x41] 7)), 8, (repeat x2a 9). eexists.
    split; [apply every_value_presented, T; cbn; lia|]. split; [apply T; cbn; lia|].
    split; [vm_compute; reflexivity|]. split; [cbn; lia|]. split; [vm_compute; reflexivity|]. reflexivity. }
  assert (R2 : forall l, layout_new rx_ty = Ret l -> record_of Debug rx_ty l (rx_val [x42; x43; x44] 258) rx_row2).
  { intros l E. vm_compute in E. injection E as <-. exists (val_source (rx_val [x42; x43; x44] 258)), 12, (repeat x00 12). eexists.
    split; [apply every_value_presented, T; cbn; lia|]. split; [apply T; cbn; lia|].
    split; [vm_compute; reflexivity|]. split; [cbn; lia|]. split; [vm_compute; reflexivity|]. reflexivity. }
  repeat constructor; first [apply R1 | apply R2]; vm_compute; reflexivity.
Qed.

(** C65: when the row alignment is a multiple of the alignment of the layout and the page starts at a multiple of the row
    alignment, every fixed-size field of a stored record lies at an address that is a multiple of its size. *)
Theorem stored_fields_aligned : forall t l a pg rows i off addr f, layout_new t = Ret l -> holds a pg rows ->
  Nat.divide (l_align l) a -> Nat.divide a addr -> aligned_row_offset a pg i = Ret off -> In f (l_fixed l) ->
  Nat.divide (field_size f) (addr + off + f_offset f).
Proof. exact stored_aligned. Qed.
Print Assumptions stored_fields_aligned.

Example stored_fields_aligned_ex : exists l pg f, layout_new rx_ty = Ret l /\ holds 4 pg [rx_row2; rx_row1] /\
  Nat.divide (l_align l) 4 /\ aligned_row_offset 4 pg 1 = Ret 28 /\ In f (l_fixed l) /\ field_size f = 2 /\ f_offset f = 4.
Proof.
  eexists _, _, _. split; [vm_compute; reflexivity|]. split.
  { exists (repeat x00 48). eexists. exists [OpAppend rx_row2; OpAppend rx_row1].
    split; [vm_compute; reflexivity|]. split; [|vm_compute; reflexivity].
    do 2 (econstructor; [split; [vm_compute; repeat constructor|left; discriminate]|]). constructor. }
  split; [exists 1; reflexivity|]. split; [vm_compute; reflexivity|]. split; [right; left; reflexivity|]. split; reflexivity.
Qed.

(** C65: whatever was in the padding, the JSON of a stored record is the JSON of the value. *)
Theorem stored_record_json : forall pf t l, small t -> layout_new t = Ret l -> marshallable pf l ->
  forall fl v row src, record_of pf t l v row -> presents src t [] v ->
  json_encode fl t (marshaller_source pf l row) = json_encode fl t src.
Proof. exact record_json. Qed.
Print Assumptions stored_record_json.

Example stored_record_json_ex : exists l, layout_new rx_ty = Ret l /\
  json_encode jx_fl rx_ty (marshaller_source Debug l rx_row2) = Ret (utf8_encode (lit "[""BCD"",258]")) /\
  presents (val_source (rx_val [x42; x43; x44] 258)) rx_ty [] (rx_val [x42; x43; x44] 258).
Proof.
  eexists. split; [vm_compute; reflexivity|]. split; [vm_compute; reflexivity|]. apply every_value_presented.
  constructor. constructor; [constructor; cbn; lia|]. constructor; [constructor; cbn; lia|constructor].
Qed.

(** C65: whether a record can be stored is decided by comparing its predicted size with the reported capacity, for
    records that take any space. *)
Theorem record_fits_iff : forall pf t l, small t -> layout_new t = Ret l -> marshallable pf l ->
  forall a pg rows src v n m, holds a pg rows -> presents src t [] v -> typed t v ->
  encoding_size_with_source src l = Ret n -> 0 < n -> max_insert_row_size a pg = Ret m ->
  exists row, encode_with_source pf src l (repeat x00 n) = Ret (row, n) /\ record_of pf t l v row /\ List.length row = n /\
    ((exists pg', append_row a pg row = Ret pg') <-> n <= m).
Proof. exact record_fits. Qed.
Print Assumptions record_fits_iff.

Example record_fits_iff_ex : exists l pg,
  layout_new rx_ty = Ret l /\ holds 4 pg [rx_row2] /\ max_insert_row_size 4 pg = Ret 12 /\
  encoding_size_with_source (val_source (rx_val (repeat x41 6) 1)) l = Ret 12 /\
  encoding_size_with_source (val_source (rx_val (repeat x41 7) 1)) l = Ret 16.
Proof.
  eexists _, _. split; [vm_compute; reflexivity|]. split.
  { exists (repeat x00 36). eexists. exists [OpAppend rx_row2].
    split; [vm_compute; reflexivity|]. split; [|vm_compute; reflexivity].
    econstructor; [split; [vm_compute; repeat constructor|left; discriminate]|]. constructor. }
  repeat split; vm_compute; reflexivity.
Qed.

(** C65: for records that take no space the comparison does not decide: on a full page of units it succeeds and storing
    one more panics. *)
Theorem record_fits_refuted : exists t l a pg rows src v n m,
  layout_new t = Ret l /\ marshallable Debug l /\ holds a pg rows /\ presents src t [] v /\ typed t v /\
  encoding_size_with_source src l = Ret n /\ max_insert_row_size a pg = Ret m /\ n <= m /\
  exists row, encode_with_source Debug src l (repeat x00 n) = Ret (row, n) /\ append_row a pg row = Panic.
Proof.
  exists TUnit. eexists. exists 4. eexists. exists [[]], (val_source VUnit), VUnit, 0, 0.
  split; [vm_compute; reflexivity|]. split.
  { eapply (marshallable_type _ TUnit []); [vm_compute; reflexivity|repeat constructor|vm_compute; reflexivity]. }
  split. { exists (repeat x00 8). eexists. exists [OpAppend []]. split; [vm_compute; reflexivity|]. split; [|vm_compute; reflexivity].
    econstructor; [split; [vm_compute; repeat constructor|right; vm_compute; repeat constructor]|]. constructor. }
  split; [apply every_value_presented; constructor|]. split; [constructor|].
  split; [vm_compute; reflexivity|]. split; [vm_compute; reflexivity|]. split; [lia|].
  exists []. split; vm_compute; reflexivity.
Qed.
Print Assumptions record_fits_refuted.
