(** * Vocabulary for tables found in bytes (C89) *)

From Verif Require Import Base TypesModel MarshalModel MarshalSpec NsmModel PageCheckSpec.

(** What can be seen in the bytes of a page without knowing where they come from: every row can be read, the size found in
    the row is its length, the marshaller presents the value of the list, and the slots end before the rows. *)
Definition table_page (pf : profile) (t : ty) (l : layout) (a : nat) (pg : list byte) (vs : list val) : Prop :=
  num_rows pg = Ret (length vs) /\ 4 * (length vs + 1) <= row_top a pg (length vs) /\
  forall i v, nth_error vs i = Some v ->
    exists row, get_row a pg i = Ret row /\ encoding_size pf l row = Ret (length row) /\ presents (marshaller_source pf l row) t [] v.

(** A check of the bytes that looks at sizes only. *)
Definition sizes_check (pf : profile) (l : layout) (a : nat) (pg : list byte) : Prop :=
  exists n, num_rows pg = Ret n /\ 4 * (n + 1) <= row_top a pg n /\
    forall i, i < n -> exists row, get_row a pg i = Ret row /\ encoding_size pf l row = Ret (length row).
