(** * What the types of SQL expressions mean (specification, independent of the inference functions) *)

From Coq Require Import List.
From Verif Require Import Base SqlNameModel SqlModel.

(** [sub a b]: the two types have one shape and [b] is nullable wherever [a] is. *)
Inductive sub : stype -> stype -> Prop :=
| sub_scalar t n m : (n = true -> m = true) -> sub (TyScalar t n) (TyScalar t m)
| sub_tuple l1 l2 : subs l1 l2 -> sub (TyTuple l1) (TyTuple l2)
with subs : list stype -> list stype -> Prop :=
| subs_nil : subs [] []
| subs_cons a b l1 l2 : sub a b -> subs l1 l2 -> subs (a :: l1) (b :: l2).

(** [c] is the least type above [a] and [b]. *)
Definition least_above (a b c : stype) : Prop :=
  sub a c /\ sub b c /\ forall d, sub a d -> sub b d -> sub c d.

(** Some type lies above both. *)
Definition joinable (a b : stype) : Prop := exists d, sub a d /\ sub b d.
