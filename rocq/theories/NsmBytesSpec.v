(** * The bytes of a slotted page

    What a page looks like byte by byte, and what every operation makes of these bytes. Nothing here refers to
    the functions of [NsmModel]: a page is written down as its fields one after the other. *)

From Verif Require Import Base NsmModel PowerSpec UtilSpec.

(** A stored row: its bytes and the padding bytes behind them. *)
Notation cell := (list byte * list byte)%type.

Definition cell_bytes (c : cell) : list byte := fst c ++ snd c.

(** The row area: the first row is the last thing in the page, every further row is stored before it. *)
Definition data (cells : list cell) : list byte := concat (rev (map cell_bytes cells)).

(** The slot table of rows stored below offset [top]: each slot is the offset of the row plus the length of its
    padding. *)
Fixpoint slots (top : nat) (cells : list cell) : list nat :=
  match cells with
  | [] => []
  | c :: rest =>
      let offset := top - length (cell_bytes c) in
      (offset + length (snd c)) :: slots offset rest
  end.

(** Numbers in four bytes each, least significant byte first. *)
Definition words (vs : list nat) : list byte := concat (map (fun v => le_bytes 4 (Z.of_nat v)) vs).

(** Number of bytes of a page with these rows and this free area. *)
Definition extent (cells : list cell) (free : list byte) : nat :=
  4 * (length cells + 1) + length free + length (data cells).

(** The page: the number of rows, the slot table, the free area, the row area. *)
Definition page_bytes (cells : list cell) (free : list byte) : list byte :=
  words (length cells :: slots (extent cells free) cells) ++ free ++ data cells.

(** Padding is shorter than the alignment and fills each row up to a multiple of it. *)
Definition padded (a : nat) (c : cell) : Prop :=
  length (snd c) < a /\ Nat.divide a (length (fst c) + length (snd c)).

(** [pg] is a page of row alignment [a] with these rows, paddings and free bytes. *)
Definition page_is (a : nat) (pg : list byte) (cells : list cell) (free : list byte) : Prop :=
  power_of_two (Z.of_nat a) /\ Nat.divide a (length pg) /\ (Z.of_nat (length pg) < 2 ^ 32)%Z /\
  Forall (padded a) cells /\ pg = page_bytes cells free.

(** ** What the operations do to the bytes *)

(** A row goes to position [i]. The first four bytes of the free area become a slot and the last [d] bytes of
    it, with [d] the length of the row filled up to the alignment, become row area. The rows from [i] on move
    down by [d] bytes; the row is written over the first of the [d] bytes that are vacated, and what is left of
    them, whatever it was, is its padding. *)
Definition put_row (a i : nat) (row : list byte) (st : list cell * list byte) : list cell * list byte :=
  let '(cells, free) := st in
  let d := align_up (length row) a in
  let kept := length free - d in
  let moved := data (skipn i cells) in
  let vacated := skipn (length moved) (skipn kept free ++ moved) in
  (firstn i cells ++ (row, skipn (length row) vacated) :: skipn i cells, skipn 4 (firstn kept free)).

(** Row [i] goes away. The rows behind it move up over its [d] bytes. The last slot and the [d] bytes at the low
    end of the row area, both as they were, are free bytes now. *)
Definition take_row (i : nat) (st : list cell * list byte) : list cell * list byte :=
  let '(cells, free) := st in
  let d := length (cell_bytes (nth i cells ([], []))) in
  (firstn i cells ++ skipn (S i) cells,
   words [last (slots (extent cells free) cells) 0] ++ free ++ firstn d (data cells)).

Definition bytes_op (a : nat) (st : list cell * list byte) (op : page_op) : list cell * list byte :=
  match op with
  | OpAppend row => put_row a (length (fst st)) row st
  | OpInsert i row => put_row a i row st
  | OpRemove i => take_row i st
  end.
