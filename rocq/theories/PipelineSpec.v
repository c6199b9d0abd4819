(** * Specification vocabulary: JSON texts loaded into a page and dumped from it *)

From Verif Require Import Base StrModel TypesModel MarshalModel JsonModel NsmModel.

Section Pipeline.
Context (alnum : Z -> bool) (fl : floats) (pf : profile) (t : ty) (l : layout) (a : nat).

(** Decode a text, encode the value into a buffer of the predicted size, append the record. *)
Definition load_one (pg : page) (text : str) : outcome (result page jerr) :=
  '(d, r) <- json_decode alnum fl pf t text [] ;;
  match r with
  | Err e => Ret (Err e)
  | Ok _ =>
      n <- encoding_size_with_source (ds_source d) l ;;
      '(row, _) <- encode_with_source pf (ds_source d) l (repeat x00 n) ;;
      pg' <- append_row a pg row ;;
      Ret (Ok pg')
  end.

Fixpoint load (texts : list str) (pg : page) : outcome (result page jerr) :=
  match texts with
  | [] => Ret (Ok pg)
  | text :: texts =>
      r <- load_one pg text ;;
      match r with Ok pg' => load texts pg' | Err e => Ret (Err e) end
  end.

(** Read the rows from [i] on and encode each as JSON. *)
Fixpoint dump_rows (pg : page) (i n : nat) : outcome (list (list byte)) :=
  match n with
  | O => Ret []
  | S n =>
      row <- get_row a pg i ;;
      bs <- json_encode fl t (marshaller_source pf l row) ;;
      rest <- dump_rows pg (S i) n ;;
      Ret (bs :: rest)
  end.

Definition dump (pg : page) : outcome (list (list byte)) :=
  n <- num_rows pg ;; dump_rows pg 0 n.
End Pipeline.
