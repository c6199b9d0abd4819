(** * Specification of slotted pages: a plain list of rows *)

From Verif Require Import Base NsmModel UtilSpec.

(** Operations on the plain list. *)
Definition spec_op (rows : list (list byte)) (op : page_op) : list (list byte) :=
  match op with
  | OpAppend row => rows ++ [row]
  | OpInsert i row => firstn i rows ++ row :: skipn i rows
  | OpRemove i => firstn i rows ++ skipn (S i) rows
  end.

(** Bytes taken by the row data of a page with row alignment [a]. *)
Definition stored (a : nat) (rows : list (list byte)) : nat :=
  list_sum (map (fun r => align_up (length r) a) rows).

(** Capacity of a page of [len] bytes (truncated at 0). *)
Definition capacity (len a : nat) (rows : list (list byte)) : nat :=
  len - stored a rows - align_up (4 * (length rows + 2)) a.

(** A further 4-byte slot fits between the slot table and the row data. *)
Definition slot_fits (len a : nat) (rows : list (list byte)) : Prop :=
  4 * (length rows + 2) + stored a rows <= len.

(** A row that may be added. *)
Definition row_ok (len a : nat) (rows : list (list byte)) (row : list byte) : Prop :=
  length row <= capacity len a rows /\ (row <> [] \/ slot_fits len a rows).

Definition op_ok (len a : nat) (rows : list (list byte)) (op : page_op) : Prop :=
  match op with
  | OpAppend row => row_ok len a rows row
  | OpInsert i row => i <= length rows /\ row_ok len a rows row
  | OpRemove i => i < length rows
  end.

(** A history in which every operation is legal at the time it is issued. *)
Inductive legal (len a : nat) : list (list byte) -> list page_op -> list (list byte) -> Prop :=
| legal_nil rows : legal len a rows [] rows
| legal_cons rows op ops rows' :
    op_ok len a rows op ->
    legal len a (spec_op rows op) ops rows' ->
    legal len a rows (op :: ops) rows'.

(** A page is reachable and should hold [rows]: it was initialised and then went through a legal history. *)
Definition holds (a : nat) (pg : page) (rows : list (list byte)) : Prop :=
  exists pg_init pg0 ops,
    initialize_page a pg_init = Ret pg0 /\
    legal (length pg_init) a [] ops rows /\
    foldM (apply_op a) ops pg0 = Ret pg.

(** Everything the read API reports about a page. *)
Definition shows (a : nat) (pg : page) (rows : list (list byte)) : Prop :=
  num_rows pg = Ret (length rows) /\
  (forall i, get_row a pg i = match nth_error rows i with Some r => Ret r | None => Panic end).
