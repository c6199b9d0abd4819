(** * Property C82: the bytes of a slotted page *)

From Verif Require Import Base PowerFacts NsmModel NsmSpec NsmBytesSpec NsmBytes.

(** A page of 40 bytes and a history on it. *)
Definition fresh40 : page := repeat xee 40.
Definition history40 : list page_op :=
  [OpAppend [x61; x62; x63]; OpInsert 0 [x01; x02; x03; x04; x05]; OpAppend [x2a]; OpRemove 1; OpInsert 1 [x07; x08]].

Example history40_legal : legal (length fresh40) 4 [] history40 [[x01; x02; x03; x04; x05]; [x07; x08]; [x2a]].
Proof.
  unfold history40.
  econstructor; [split; [vm_compute; repeat constructor|left; discriminate]|].
  econstructor; [split; [repeat constructor|split; [vm_compute; repeat constructor|left; discriminate]]|].
  econstructor; [split; [vm_compute; repeat constructor|left; discriminate]|].
  econstructor; [vm_compute; repeat constructor|].
  econstructor; [split; [vm_compute; repeat constructor|split; [vm_compute; repeat constructor|left; discriminate]]|].
  constructor.
Qed.

(** C82: the page after any legal history, every byte of it: the fields written down one after the other, with
    paddings and free bytes as the byte-level reading of the operations says. *)
Theorem page_history_bytes : forall a pg pg0 ops rows,
  initialize_page a pg = Ret pg0 -> legal (length pg) a [] ops rows ->
  let '(cells, free) := fold_left (bytes_op a) ops ([], skipn 4 pg) in
  foldM (apply_op a) ops pg0 = Ret (page_bytes cells free) /\
  page_is a (page_bytes cells free) cells free /\ map fst cells = rows.
Proof. exact bytes_history. Qed.
Print Assumptions page_history_bytes.

(** The removed row 61 62 63 has left 63 behind as padding of the row 07 08 that took its place, and bytes of the
    row 2a in the free area. *)
(** The row 61 62 63 was stored first, moved down and was removed: 62 63 are still there as padding of the row
    that was inserted before it. *)
Example page_history_bytes_ex : exists pg0, initialize_page 4 fresh40 = Ret pg0 /\
  fold_left (bytes_op 4) history40 ([], skipn 4 fresh40) =
    ([([x01; x02; x03; x04; x05], [x62; x63; xee]); ([x07; x08], [xee; xee]); ([x2a], [xee; xee; xee])],
     repeat xee 8) /\
  foldM (apply_op 4) history40 pg0 =
    Ret ([x03; x00; x00; x00] ++ [x23; x00; x00; x00] ++ [x1e; x00; x00; x00] ++ [x1b; x00; x00; x00] ++
         repeat xee 8 ++ [x2a; xee; xee; xee] ++ [x07; x08; xee; xee] ++ [x01; x02; x03; x04; x05; x62; x63; xee]).
Proof. eexists. split; [vm_compute; reflexivity|]. split; vm_compute; reflexivity. Qed.

(** C82: every reachable page has this form. *)
Theorem page_layout : forall a pg rows, holds a pg rows ->
  exists cells free, page_is a pg cells free /\ map fst cells = rows.
Proof. exact holds_bytes. Qed.
Print Assumptions page_layout.

(** C82: the form is enough. A page that has it, wherever it comes from, shows its rows, and an operation within
    the capacity turns it into the page the byte-level reading of the operation says. *)
Theorem page_form_shows : forall a pg cells free,
  page_is a pg cells free -> shows a pg (map fst cells).
Proof. intros a pg cells free H. exact (NsmProofs.rep_shows (page_is_rep a pg cells free H)). Qed.
Print Assumptions page_form_shows.

Theorem page_form_step : forall a pg cells free op,
  page_is a pg cells free -> op_ok (length pg) a (map fst cells) op ->
  let '(cells', free') := bytes_op a (cells, free) op in
  apply_op a pg op = Ret (page_bytes cells' free') /\
  page_is a (page_bytes cells' free') cells' free' /\
  map fst cells' = spec_op (map fst cells) op.
Proof. exact bytes_step. Qed.
Print Assumptions page_form_step.

(** A page that was not made by the page functions, and an operation on it. *)
Example page_form_step_ex :
  let cells := [([x01; x02; x03], [xaa]); ([], []); ([x04], [xbb; xcc; xdd])] in
  let free := [x10; x11; x12; x13; x14; x15; x16; x17] in
  page_is 4 (page_bytes cells free) cells free /\
  page_bytes cells free =
    [x03; x00; x00; x00] ++ [x1d; x00; x00; x00] ++ [x1c; x00; x00; x00] ++ [x1b; x00; x00; x00] ++
    free ++ [x04; xbb; xcc; xdd] ++ [x01; x02; x03; xaa] /\
  op_ok (length (page_bytes cells free)) 4 (map fst cells) (OpInsert 0 [x05]) /\
  bytes_op 4 (cells, free) (OpInsert 0 [x05]) =
    ([([x05], [x02; x03; xaa]); ([x01; x02; x03], [xaa]); ([], []); ([x04], [xbb; xcc; xdd])], []).
Proof.
  cbv zeta. split; [|split; [|split]].
  - split; [apply pow2_true; reflexivity|]. split; [exists 8; vm_compute; reflexivity|]. split; [reflexivity|]. split; [|reflexivity].
    constructor; [split; [vm_compute; repeat constructor|exists 1; reflexivity]|].
    constructor; [split; [vm_compute; repeat constructor|exists 0; reflexivity]|].
    constructor; [split; [vm_compute; repeat constructor|exists 1; reflexivity]|]. constructor.
  - vm_compute. reflexivity.
  - split; [vm_compute; repeat constructor|]. split; [vm_compute; repeat constructor|left; discriminate].
  - vm_compute. reflexivity.
Qed.

(** C82: two pages of one size with the same rows agree in the number of rows, in the slot table, and in the
    place of every row, whatever their histories. *)
Theorem page_table_determined : forall a pg1 pg2 rows,
  holds a pg1 rows -> holds a pg2 rows -> length pg1 = length pg2 ->
  firstn (4 * (length rows + 1)) pg1 = firstn (4 * (length rows + 1)) pg2 /\
  forall i row, nth_error rows i = Some row -> exists o,
    slice pg1 o (length row) = row /\ slice pg2 o (length row) = row /\
    o + length row <= length pg1 /\ 4 * (length rows + 1) <= o.
Proof. exact table_same. Qed.
Print Assumptions page_table_determined.

(** C82: they need not agree otherwise, even when they were the same page to begin with. *)
Theorem page_bytes_determined_refuted : exists a pg0 ops1 ops2 rows pg1 pg2,
  initialize_page a pg0 = Ret pg0 /\
  legal (length pg0) a [] ops1 rows /\ foldM (apply_op a) ops1 pg0 = Ret pg1 /\
  legal (length pg0) a [] ops2 rows /\ foldM (apply_op a) ops2 pg0 = Ret pg2 /\ pg1 <> pg2.
Proof.
  exists 4, (repeat x00 16), [], [OpAppend [x2a]; OpRemove 0], []. eexists. eexists.
  split; [vm_compute; reflexivity|]. split; [constructor|]. split; [reflexivity|]. split.
  - econstructor; [split; [vm_compute; repeat constructor|left; discriminate]|].
    econstructor; [vm_compute; repeat constructor|]. constructor.
  - split; [vm_compute; reflexivity|]. vm_compute. discriminate.
Qed.
Print Assumptions page_bytes_determined_refuted.

(** C82: removing the last row changes the count and nothing else; the bytes of the row stay on the page. *)
Theorem removed_last_row_stays : forall a pg rows row, holds a pg (rows ++ [row]) ->
  exists pg', remove_row a pg (length rows) = Ret pg' /\ holds a pg' rows /\ skipn 4 pg' = skipn 4 pg.
Proof. exact remove_last_bytes. Qed.
Print Assumptions removed_last_row_stays.

Example removed_last_row_stays_ex : exists pg, holds 4 pg ([[x01]] ++ [[x61; x62; x63]]) /\
  bind (remove_row 4 pg 1) (fun pg' => Ret (slice pg' 32 3)) = Ret [x61; x62; x63].
Proof.
  eexists. split.
  - exists fresh40. eexists. exists [OpAppend [x01]; OpAppend [x61; x62; x63]].
    split; [vm_compute; reflexivity|]. split; [|vm_compute; reflexivity].
    econstructor; [split; [vm_compute; repeat constructor|left; discriminate]|].
    econstructor; [split; [vm_compute; repeat constructor|left; discriminate]|]. constructor.
  - vm_compute. reflexivity.
Qed.
