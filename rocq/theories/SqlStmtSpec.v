(** * What INSERT, UPDATE and DELETE may do (specification) *)

From Verif Require Import Base SqlNameModel SqlModel SqlSpec.

Section Spec.
Context (up : Z -> list Z).
Notation same := (name_eqb up).

(** The column takes values of the given type. *)
Definition takes (c : attribute) (t : data_type) (null : bool) : Prop :=
  a_type c = t /\ (null = true -> a_null c = true).

(** The column [n] of a table: if a table listed a name twice the last column would count. *)
Definition column_of (table : list attribute) (n : name) (c : attribute) : Prop :=
  last_named up table c /\ same n (a_name c) = true.

(** Values of the given types, in order, for the columns [targets] of a table. *)
Definition storable (table : list attribute) (targets : list name) (values : list attribute) : Prop :=
  distinct up targets /\
  Forall2 (fun n v => exists c, column_of table n c /\ takes c (a_type v) (a_null v)) targets values /\
  forall c, last_named up table c -> a_null c = false -> exists n, In n targets /\ same n (a_name c) = true.

(** Assignments [columns = e] to columns of a table; [typed e t null] gives the expressions' types. *)
Definition assignable (typed : expr -> data_type -> bool -> Prop) (table : list attribute)
  (assignments : list (list name * expr)) : Prop :=
  distinct up (flat_map fst assignments) /\
  Forall (fun a => exists t null, typed (snd a) t null /\
                   Forall (fun n => exists c, column_of table n c /\ takes c t null) (fst a)) assignments.

End Spec.
