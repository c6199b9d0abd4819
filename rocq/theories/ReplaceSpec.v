(** * Specification vocabulary: replacing a row of a page *)

From Verif Require Import Base.

(** The bytes outside the given ranges (start and length) are the same. *)
Definition unchanged_but (ranges : list (nat * nat)) (l l' : list byte) : Prop :=
  length l' = length l /\
  forall j, Forall (fun r => j < fst r \/ fst r + snd r <= j) ranges -> nth_error l' j = nth_error l j.

(** A list with one entry exchanged. *)
Definition exchanged {A} (l : list A) (i : nat) (x : A) : list A := firstn i l ++ x :: skipn (S i) l.
