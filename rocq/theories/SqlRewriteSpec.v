(** * Other ways to write a statement (specification)

    Rewritings of statements that should make no difference to a reader, inside of arbitrary statements. They mention
    neither types nor the catalog. *)

From Coq Require Import Sorting.Permutation.
From Verif Require Import Base SqlNameModel SqlModel.

(** Both optional parts are missing, or both are there and related. *)
Inductive both {A : Type} (R : A -> A -> Prop) : option A -> option A -> Prop :=
| both_none : both R None None
| both_some a b : R a b -> both R (Some a) (Some b).

(** [a op b] is [b (flipped op) a]. *)
Inductive flipped : compare_op -> compare_op -> Prop :=
| fl_equal : flipped CEqual CEqual
| fl_differ : flipped CNotEqual CNotEqual
| fl_less : flipped CLess CGreater
| fl_less_equal : flipped CLessEqual CGreaterEqual
| fl_greater : flipped CGreater CLess
| fl_greater_equal : flipped CGreaterEqual CLessEqual.

(** [NOT a op b] is [a (opposite op) b]. *)
Inductive opposite : compare_op -> compare_op -> Prop :=
| op_equal : opposite CEqual CNotEqual
| op_differ : opposite CNotEqual CEqual
| op_less : opposite CLess CGreaterEqual
| op_less_equal : opposite CLessEqual CGreater
| op_greater : opposite CGreater CLessEqual
| op_greater_equal : opposite CGreaterEqual CLess.

(** AND becomes OR and back under NOT. *)
Inductive dual : binary_op -> binary_op -> Prop :=
| du_and : dual BAnd BOr
| du_or : dual BOr BAnd.

Inductive commutative : binary_op -> Prop :=
| co_and : commutative BAnd | co_or : commutative BOr | co_add : commutative BAdd | co_multiply : commutative BMultiply.

Inductive associative : binary_op -> Prop :=
| as_op op : commutative op -> associative op
| as_concat : associative BConcat.

(** [a op (b op' c)] is [(a op b) op' (a op c)]. *)
Inductive distributes : binary_op -> binary_op -> Prop :=
| di_add : distributes BMultiply BAdd
| di_subtract : distributes BMultiply BSubtract
| di_and_or : distributes BAnd BOr
| di_or_and : distributes BOr BAnd.

Inductive same_expr : expr -> expr -> Prop :=
(** Laws *)
| e_between e lo hi : same_expr (EBetween e lo hi) (EBinary BAnd (ECompare CLessEqual lo e) (ECompare CLessEqual e hi))
| e_flip op op' a b : flipped op op' -> same_expr (ECompare op a b) (ECompare op' b a)
| e_not op op' a b : opposite op op' -> same_expr (EUnary UNot (ECompare op a b)) (ECompare op' a b)
| e_dual op op' a b : dual op op' ->
    same_expr (EUnary UNot (EBinary op a b)) (EBinary op' (EUnary UNot a) (EUnary UNot b))
| e_subtract a b : same_expr (EBinary BSubtract a b) (EBinary BAdd a (EUnary UNegate b))
| e_commute op a b : commutative op -> same_expr (EBinary op a b) (EBinary op b a)
| e_regroup op a b c : associative op -> same_expr (EBinary op (EBinary op a b) c) (EBinary op a (EBinary op b c))
| e_distribute op op' a b c : distributes op op' ->
    same_expr (EBinary op a (EBinary op' b c)) (EBinary op' (EBinary op a b) (EBinary op a c))
| e_in_order e es es' : Permutation es es' -> same_expr (EIn e (SpList es)) (EIn e (SpList es'))
(** Anywhere inside *)
| e_refl e : same_expr e e
| e_sym a b : same_expr a b -> same_expr b a
| e_trans a b c : same_expr a b -> same_expr b c -> same_expr a c
| e_row es es' : Forall2 same_expr es es' -> same_expr (ETuple es) (ETuple es')
| e_select s s' : same_select s s' -> same_expr (ESelect s) (ESelect s')
| e_unary op e e' : same_expr e e' -> same_expr (EUnary op e) (EUnary op e')
| e_binary op a b a' b' : same_expr a a' -> same_expr b b' -> same_expr (EBinary op a b) (EBinary op a' b')
| e_compare op a b a' b' : same_expr a a' -> same_expr b b' -> same_expr (ECompare op a b) (ECompare op a' b')
| e_in e e' s s' : same_expr e e' -> same_spec s s' -> same_expr (EIn e s) (EIn e' s')
| e_range e lo hi e' lo' hi' : same_expr e e' -> same_expr lo lo' -> same_expr hi hi' ->
    same_expr (EBetween e lo hi) (EBetween e' lo' hi')
| e_case o o' whens whens' els els' : both same_expr o o' ->
    Forall2 (fun w w' => same_expr (fst w) (fst w') /\ same_expr (snd w) (snd w')) whens whens' -> both same_expr els els' ->
    same_expr (ECase o whens els) (ECase o' whens' els')

with same_spec : set_spec -> set_spec -> Prop :=
| p_select s s' : same_select s s' -> same_spec (SpSelect s) (SpSelect s')
| p_list es es' : Forall2 same_expr es es' -> same_spec (SpList es) (SpList es')
| p_name q : same_spec (SpName q) (SpName q)

with same_select : select -> select -> Prop :=
(** Laws: the order of the tables of WITH, which do not see each other *)
| q_with common common' e order lim : Permutation common common' ->
    same_select (Select common e order lim) (Select common' e order lim)
(** Anywhere inside *)
| q_refl s : same_select s s
| q_trans a b c : same_select a b -> same_select b c -> same_select a c
| q_inside common common' e e' order order' lim lim' : Forall2 same_cte common common' -> same_set e e' ->
    Forall2 (fun o o' => same_expr (fst (fst o)) (fst (fst o')) /\ snd (fst o) = snd (fst o') /\ snd o = snd o') order order' ->
    both (fun l l' => same_expr (fst l) (fst l') /\ both same_expr (snd l) (snd l')) lim lim' ->
    same_select (Select common e order lim) (Select common' e' order' lim')

with same_cte : cte -> cte -> Prop :=
| c_inside id columns q q' : same_select q q' -> same_cte (Cte id columns q) (Cte id columns q')

with same_set : set_expr -> set_expr -> Prop :=
(** Laws: the order in FROM when the columns are listed, and in GROUP BY *)
| x_from mode l from from' wh group : Permutation from from' ->
    same_set (SQuery mode (RList l) from wh group) (SQuery mode (RList l) from' wh group)
| x_group mode columns from wh gs gs' having : Permutation gs gs' ->
    same_set (SQuery mode columns from wh (Some (gs, having))) (SQuery mode columns from wh (Some (gs', having)))
(** Anywhere inside *)
| x_refl e : same_set e e
| x_trans a b c : same_set a b -> same_set b c -> same_set a c
| x_rows rows rows' : Forall2 (Forall2 same_expr) rows rows' -> same_set (SValues rows) (SValues rows')
| x_inside mode columns columns' from from' wh wh' group group' :
    same_columns columns columns' -> same_from from from' -> both same_expr wh wh' ->
    both (fun g g' => Forall2 same_expr (fst g) (fst g') /\ both same_expr (snd g) (snd g')) group group' ->
    same_set (SQuery mode columns from wh group) (SQuery mode columns' from' wh' group')
| x_op op l r l' r' : same_set l l' -> same_set r r' -> same_set (SOp op l r) (SOp op l' r')

with same_from : list table_expr -> list table_expr -> Prop :=
(** Laws: a comma is a cross join *)
| f_cross a b l r c : same_from (a ++ TJoin l r JCross c :: b) (a ++ l :: r :: b)
(** Anywhere inside *)
| f_trans a b c : same_from a b -> same_from b c -> same_from a c
| f_sym a b : same_from a b -> same_from b a
| f_inside from from' : Forall2 same_item from from' -> same_from from from'

with same_item : table_expr -> table_expr -> Prop :=
(** Laws: grouping of cross joins *)
| i_regroup a b c k1 k2 k3 k4 :
    same_item (TJoin (TJoin a b JCross k1) c JCross k2) (TJoin a (TJoin b c JCross k3) JCross k4)
(** Anywhere inside *)
| i_refl t : same_item t t
| i_select s s' alias : same_select s s' -> same_item (TSelect s alias) (TSelect s' alias)
| i_join l l' r r' op c c' : same_item l l' -> same_item r r' -> same_on c c' ->
    same_item (TJoin l r op c) (TJoin l' r' op c')

with same_on : join_constraint -> join_constraint -> Prop :=
| n_on e e' : same_expr e e' -> same_on (JExpr e) (JExpr e')
| n_using l : same_on (JColumns l) (JColumns l)

with same_columns : result_columns -> result_columns -> Prop :=
| l_all : same_columns RAll RAll
| l_list l l' : Forall2 same_column l l' -> same_columns (RList l) (RList l')

with same_column : result_column -> result_column -> Prop :=
| k_star n : same_column (RAllFrom n) (RAllFrom n)
| k_expr e e' rename : same_expr e e' -> same_column (RExpr e rename) (RExpr e' rename).

(** Statements with rewritten expressions and queries. *)
Inductive same_statement : statement -> statement -> Prop :=
| s_select s s' : same_select s s' -> same_statement (StSelect s) (StSelect s')
| s_insert i i' : i_table i = i_table i' -> i_columns i = i_columns i' -> same_set (i_source i) (i_source i') ->
    same_statement (StInsert i) (StInsert i')
| s_update u u' : u_table u = u_table u' ->
    Forall2 (fun a a' => fst a = fst a' /\ same_expr (snd a) (snd a')) (u_assignments u) (u_assignments u') ->
    both same_expr (u_where u) (u_where u') -> same_statement (StUpdate u) (StUpdate u')
| s_delete d d' : d_table d = d_table d' -> both same_expr (d_where d) (d_where d') ->
    same_statement (StDelete d) (StDelete d').

Inductive same_sql : sql_statement -> sql_statement -> Prop :=
| y_statement s s' : same_statement s s' -> same_sql (SqlStatement s) (SqlStatement s')
| y_explain s s' : same_statement s s' -> same_sql (SqlExplain s) (SqlExplain s').
