(** * Specification vocabulary for alignment *)

From Verif Require Import Base.
Local Open Scope Z_scope.

(** [r] is the least multiple of [a] that is not below [v]. *)
Definition least_multiple_from (a v r : Z) : Prop :=
  (a | r) /\ v <= r /\ forall m, (a | m) -> v <= m -> r <= m.

(** Rounding up on natural numbers. *)
Definition align_up (v a : nat) : nat := ((v + a - 1) / a * a)%nat.
