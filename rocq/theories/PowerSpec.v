(** * Specification vocabulary: powers of two *)

From Verif Require Import Base.
Local Open Scope Z_scope.

Definition power_of_two (z : Z) : Prop := exists k, 0 <= k /\ z = 2 ^ k.
