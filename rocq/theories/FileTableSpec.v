(** * What the properties about the files of a new volume say *)

From Verif Require Import Base FileTableModel.
Local Open Scope Z_scope.

(** The location of an offset: the volume in the upper eight bits. *)
Definition place (index offset : Z) : Z := index * 2 ^ 56 + offset.

(** [n] is the least number of blocks of [bs] bytes that hold [size] bytes. *)
Definition holds_just (bs size n : Z) : Prop := size <= n * bs < size + bs.

(** The two extents have a block in common. *)
Definition shares_block (x y : extent) : Prop :=
  exists b, x_block x <= b < x_block x + x_blocks x /\ x_block y <= b < x_block y + x_blocks y.

(** Outside of the locations of [n] blocks of [bs] bytes from [offset] on, nothing has changed. *)
Definition untouched (index offset bs n : Z) (st st' : pages) : Prop :=
  forall l, (forall k, 0 <= k < n -> l <> place index (offset + k * bs)) -> st' l = st l.
