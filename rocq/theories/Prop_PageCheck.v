(** * C85: pages found in bytes *)

From Verif Require Import Base UtilModel PowerSpec PowerFacts UtilSpec NsmModel NsmSpec NsmBytesSpec NsmBytes PageCheckSpec PageCheck.

(** Sixteen-byte and larger pages written as four-byte numbers. *)
Definition of_words (ws : list nat) : list byte := words ws.

(** Reading a row of arbitrary bytes: the bytes its slot and the slot before it point at if these lie on the page,
    a panic otherwise, and never a read outside the page. *)
Theorem found_row_exact : forall a pg i, power_of_two (Z.of_nat a) -> (Z.of_nat a <= 2 ^ 32)%Z ->
  (row_there a pg i /\
   get_row a pg i = Ret (slice pg (row_start a pg i) (row_top a pg i - row_pad a pg i - row_start a pg i))) \/
  (~ row_there a pg i /\ get_row a pg i = Panic).
Proof. exact (fun a pg i H => get_row_exact_aux a pg i (proj1 (pow2_true _) H)). Qed.
Print Assumptions found_row_exact.

(** Three slots, of which the second points into the slot table and the third behind the page: the first row, from 12 to 14 with two bytes of padding behind it,
    and the second row, from 4 to 12. *)
Example found_row_exact_ex :
  let pg := of_words [3; 14; 4; 40] in
  row_there 4 pg 0 /\ row_there 4 pg 1 /\ ~ row_there 4 pg 2 /\
  get_row 4 pg 0 = Ret [x28; x00] /\ get_row 4 pg 1 = Ret [x0e; x00; x00; x00; x04; x00; x00; x00] /\
  get_row 4 pg 2 = Panic.
Proof.
  cbv zeta. split; [vm_compute; lia|]. split; [vm_compute; lia|].
  split; [intros (_ & _ & H & _); vm_compute in H; lia|]. repeat split; vm_compute; reflexivity.
Qed.

(** Bytes of a legal size are a page that some history of the interface leads to exactly when every row it counts
    can be read and the slot table ends no later than the last row starts. *)
Theorem found_page_exact : forall a pg n, page_shape a (length pg) -> num_rows pg = Ret n ->
  ((exists rows, holds a pg rows) <->
   (forall i, i < n -> exists row, get_row a pg i = Ret row) /\ 4 * (n + 1) <= row_top a pg n).
Proof.
  intros a pg n Hs Hn. pose proof Hs as (_ & _ & Hmin & _). rewrite num_rows_word in Hn by exact Hmin. injection Hn as <-.
  rewrite (found_page a pg Hs). split; intros [H1 H2]; (split; [|exact H2]); intros i Hi; apply (there_row a pg i Hs); apply H1; exact Hi.
Qed.
Print Assumptions found_page_exact.

(** The size is legal for every page of a history. *)
Theorem found_page_shape : forall a pg rows, holds a pg rows -> page_shape a (length pg).
Proof. exact holds_shape. Qed.
Print Assumptions found_page_shape.

(** The rows and the paddings of the page, and the bytes that are free, are there to be read off: such a page can be
    had by filling a page with its rows in order. *)
Theorem found_page_history : forall a pg cells free, page_is a pg cells free ->
  exists pg0, initialize_page a pg = Ret pg0 /\
    legal (length pg) a [] (map OpAppend (map fst cells)) (map fst cells) /\
    foldM (apply_op a) (map OpAppend (map fst cells)) pg0 = Ret pg.
Proof. exact form_history. Qed.
Print Assumptions found_page_history.

Definition found24 : list byte := of_words [2; 21; 16; 238; 772; 1].

Example found_page_exact_ex :
  page_shape 4 (length found24) /\ num_rows found24 = Ret 2 /\
  (forall i, i < 2 -> exists row, get_row 4 found24 i = Ret row) /\ 4 * (2 + 1) <= row_top 4 found24 2 /\
  exists cells free, page_is 4 found24 cells free /\ map fst cells = [[x01; x00; x00]; [x04; x03; x00; x00]].
Proof.
  assert (Hs : page_shape 4 (length found24)).
  { split; [apply pow2_true; reflexivity|]. split; [exists 6; reflexivity|]. split; vm_compute; [repeat constructor|reflexivity]. }
  split; [exact Hs|]. split; [reflexivity|]. split.
  { intros [|[|i]] Hi; [eexists; vm_compute; reflexivity|eexists; vm_compute; reflexivity|lia]. }
  split; [vm_compute; repeat constructor|].
  exists [([x01; x00; x00], [x00]); ([x04; x03; x00; x00], [])], [xee; x00; x00; x00]. split; [|reflexivity].
  split; [apply pow2_true; reflexivity|]. split; [exists 6; reflexivity|]. split; [reflexivity|]. split; [|vm_compute; reflexivity].
  constructor; [split; [vm_compute; repeat constructor|exists 1; reflexivity]|].
  constructor; [split; [vm_compute; repeat constructor|exists 1; reflexivity]|]. constructor.
Qed.

(** If every row can be read, no operation reads or writes outside the page, even where rows run into the table. *)
Theorem readable_page_safe : forall a pg n op, page_shape a (length pg) -> num_rows pg = Ret n ->
  (forall i, i < n -> exists row, get_row a pg i = Ret row) -> apply_op a pg op <> Undef.
Proof. exact readable_safe. Qed.
Print Assumptions readable_page_safe.

(** Appending never does, whatever the bytes. *)
Theorem found_append_safe : forall a pg row, append_row a pg row <> Undef.
Proof. exact safe_append. Qed.
Print Assumptions found_append_safe.

(** *** What unchecked bytes lead to *)

(** A slot that points behind the page: removing or inserting a row copies memory outside the page, although the
    interface is called with valid arguments. *)
Theorem unchecked_remove_refuted : exists a pg i n, page_shape a (length pg) /\ num_rows pg = Ret n /\ i < n /\
  remove_row a pg i = Undef.
Proof.
  exists 8, (of_words [3; 72; 40; 24; 0; 0; 0; 0; 0; 0; 0; 0; 0; 0; 0; 0]), 1, 3.
  split; [split; [apply pow2_true; reflexivity|]; split; [exists 8; reflexivity|]; split; vm_compute; [repeat constructor|reflexivity]|].
  split; [reflexivity|]. split; [lia|]. vm_compute. reflexivity.
Qed.
Print Assumptions unchecked_remove_refuted.

Theorem unchecked_insert_refuted : exists a pg i row mx, page_shape a (length pg) /\
  max_insert_row_size a pg = Ret mx /\ length row <= mx /\ insert_row a pg i row = Undef.
Proof.
  exists 8, (of_words [2; 72; 40; 0; 0; 0; 0; 0; 0; 0; 0; 0; 0; 0; 0; 0]), 1, [x2a], 24.
  split; [split; [apply pow2_true; reflexivity|]; split; [exists 8; reflexivity|]; split; vm_compute; [repeat constructor|reflexivity]|].
  split; [reflexivity|]. split; [vm_compute; repeat constructor|]. vm_compute. reflexivity.
Qed.
Print Assumptions unchecked_insert_refuted.

(** That every row can be read is not enough: a row that runs into the slot table is not what it was after the row
    before it has been removed. *)
Theorem readable_is_page_refuted : exists a pg row pg', page_shape a (length pg) /\ num_rows pg = Ret 2 /\
  (forall i, i < 2 -> exists r, get_row a pg i = Ret r) /\
  get_row a pg 1 = Ret row /\ remove_row a pg 0 = Ret pg' /\ get_row a pg' 0 <> Ret row.
Proof.
  exists 4, (of_words [2; 12; 0; 7]). eexists. eexists.
  split; [split; [apply pow2_true; reflexivity|]; split; [exists 4; reflexivity|]; split; vm_compute; [repeat constructor|reflexivity]|].
  split; [reflexivity|]. split.
  { intros [|[|i]] Hi; [eexists; vm_compute; reflexivity|eexists; vm_compute; reflexivity|lia]. }
  split; [vm_compute; reflexivity|]. split; [vm_compute; reflexivity|]. vm_compute. discriminate.
Qed.
Print Assumptions readable_is_page_refuted.
