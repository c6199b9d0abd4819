(** * What the properties about parts of SQL statements say *)

From Verif Require Import Base StrModel SqlNameModel SqlModel LrModel SqlGrammar.

(** [part n w v X u x a b]: in a derivation of the words [w] as a phrase of [n] with value [v], the words [u], which stand
    between [a] and [b], are a phrase of [X] with value [x]. *)
Inductive part : forall n, list token -> ty n -> forall X, list token -> ty X -> list token -> list token -> Prop :=
| P_here n w v : gram n w v -> part n w v n w v [] []
| P_in n l f w v X u x a b : In (l ==> f) (rules n) -> part_all (ty n) l w f v X u x a b -> part n w v X u x a b
with part_all : forall (A : Type) (l : list nonterm), list token -> arrows l A -> A ->
  forall X, list token -> ty X -> list token -> list token -> Prop :=
| P_first A n l w w' y f v X u x a b :
    part n w y X u x a b -> gram_all A l w' (f y) v -> part_all A (n :: l) (w ++ w') f v X u x a (b ++ w')
| P_later A n l w w' y f v X u x a b :
    gram n w y -> part_all A l w' (f y) v X u x a b -> part_all A (n :: l) (w ++ w') f v X u x (w ++ a) b.

(** The kinds of expressions, from the tightest to the loosest. *)
Definition expression_kinds : list nonterm :=
  [GPrimaryExpression; GUnaryExpression; GMultiplicativeExpression; GAdditiveExpression; GComparativeExpression;
   GComplexExpression; GNotExpression; GAndExpression; GOrExpression; GExpression].

(** A statement that changes the rows for which [e] holds, and the same for all rows. *)
Inductive changes (e : expr) : statement -> statement -> Prop :=
| C_delete t : changes e (StDelete {| d_table := t; d_where := Some e |}) (StDelete {| d_table := t; d_where := None |})
| C_update t l : changes e (StUpdate {| u_table := t; u_assignments := l; u_where := Some e |})
    (StUpdate {| u_table := t; u_assignments := l; u_where := None |}).
