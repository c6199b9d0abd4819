(** * Vocabulary for pages found in bytes (C85) *)

From Verif Require Import Base UtilModel PowerSpec UtilSpec.

(** The [k]-th four-byte number of a page: number 0 counts the rows, number [i + 1] is the slot of row [i]. *)
Definition word (pg : list byte) (k : nat) : nat := Z.to_nat (le_val (slice pg (4 * k) 4)).

(** A slot is an offset that is a multiple of the alignment, plus the length of the padding. *)
Definition slot_offset (a v : nat) : nat := a * (v / a).
Definition slot_padding (a v : nat) : nat := v mod a.

(** Where the bytes of row [i] and its padding end: at the row before it, at the end of the page for the first. *)
Definition row_top (a : nat) (pg : list byte) (i : nat) : nat :=
  match i with O => length pg | S _ => slot_offset a (word pg i) end.

Definition row_start (a : nat) (pg : list byte) (i : nat) : nat := slot_offset a (word pg (S i)).
Definition row_pad (a : nat) (pg : list byte) (i : nat) : nat := slot_padding a (word pg (S i)).

(** The slot of row [i] lies on the page, and the row it describes too. *)
Definition row_there (a : nat) (pg : list byte) (i : nat) : Prop :=
  i < word pg 0 /\ 4 * (i + 2) <= length pg /\
  row_start a pg i + row_pad a pg i <= row_top a pg i /\ row_top a pg i <= length pg + row_pad a pg i.

(** The bytes between a slot table and the rows do not overlap: the table ends where the last row starts, or before. *)
Definition table_clear (a : nat) (pg : list byte) : Prop :=
  4 * (word pg 0 + 1) <= row_top a pg (word pg 0).

(** A size and an alignment a page can have. *)
Definition page_shape (a len : nat) : Prop :=
  power_of_two (Z.of_nat a) /\ Nat.divide a len /\ 4 <= len /\ (Z.of_nat len < 2 ^ 32)%Z.
