(** * The SQL parser and the grammar

    Every derivation in the grammar has a tree of the productions, and with the correctness of the tables the parser
    accepts exactly the grammar. Written by a script. *)

From Coq Require Import Strings.String.
From Verif Require Import Base StrModel SqlNameModel SqlModel LrModel LrSpec LrProofs SqlTables SqlCert SqlActions SqlGrammar SqlTrees.
Local Open Scope list_scope.

(** ** From the grammar to trees *)

Definition node (k : nat) {A : Type} (inj : A -> sym) (w : list token) (v : A) : Prop :=
  exists t, derives productions (NT k) t w /\ ev t = Ret (inj v).

Fixpoint realized (n : nonterm) : list token -> ty n -> Prop :=
  match n as n0 return list token -> ty n0 -> Prop with
  | Tok s => fun w v => w = [(terminal s, v)]
  | Opt m => fun w o => match o with None => w = [] | Some v => realized m w v end
  | GQueryPlan => fun w v => w = [(terminal "QUERY", fst v); (terminal "PLAN", snd v)]
  | GSqlStatement => node 61 Variant41
  | GStatement => node 62 Variant42
  | GInsertStatement => node 31 Variant21
  | GColumnNameList => node 12 Variant8
  | GDeleteStatement => node 19 Variant13
  | GUpdateStatement => node 74 Variant46
  | GAssignments => node 9 Variant6
  | GAssignment => node 8 Variant5
  | GSelectStatement => node 60 Variant40
  | GTableExpressions => node 68 Variant11
  | GCommonTableExpressionList => node 15 Variant11
  | GCommonTableExpression => node 14 Variant10
  | GSelectCoreList => node 58 Variant38
  | GCompoundOperator => node 18 Variant12
  | GSelectCore => node 57 Variant38
  | GSelectMode => node 59 Variant39
  | GTupleList => node 72 Variant45
  | GTuple => node 71 Variant16
  | GResultColumns => node 54 Variant37
  | GResultColumnList => node 53 Variant36
  | GResultColumn => node 52 Variant35
  | GQualifiedIdentifier => node 51 Variant8
  | GFromClause => node 26 Variant17
  | GTableExpressionList => node 67 Variant17
  | GTableExpression => node 66 Variant43
  | GTableOrSubQuery => node 70 Variant43
  | GTableAlias => node 64 Variant20
  | GJoinOperator => node 33 Variant23
  | GJoinType => node 34 Variant24
  | GJoinConstraint => node 32 Variant22
  | GIdentifierList => node 30 Variant8
  | GWhereClause => node 77 Variant4
  | GGroupByClause => node 27 Variant18
  | GOrderByClause => node 43 Variant30
  | GOrderingTermList => node 49 Variant30
  | GOrderingTerm => node 48 Variant34
  | GOrderingCollation => node 45 Variant20
  | GOrderingDirection => node 47 Variant33
  | GLimitClause => node 36 Variant26
  | GAttachStatement => node 10 Variant7
  | GDescribeStatement => node 20 Variant14
  | GSchemaName => node 55 Variant20
  | GExpressionList => node 25 Variant16
  | GPrimaryExpression => node 50 Variant4
  | GUnaryExpression => node 73 Variant4
  | GMultiplicativeExpression => node 39 Variant4
  | GAdditiveExpression => node 6 Variant4
  | GComparativeExpression => node 16 Variant4
  | GComplexExpression => node 17 Variant4
  | GCaseExpression => node 11 Variant4
  | GWhenClauses => node 76 Variant48
  | GWhenClause => node 75 Variant47
  | GElseClause => node 21 Variant4
  | GNotExpression => node 40 Variant4
  | GAndExpression => node 7 Variant4
  | GOrExpression => node 42 Variant4
  | GExpression => node 23 Variant4
  | GLiteralValue => node 38 Variant28
  | GIdentifier => node 29 Variant20
  | GNumericLiteral => node 41 Variant29
  | GStringLiteral => node 63 Variant29
  end.

Fixpoint seq_realized (A : Type) (l : list nonterm) : list token -> arrows l A -> A -> Prop :=
  match l as l0 return list token -> arrows l0 A -> A -> Prop with
  | [] => fun w f v => w = [] /\ v = f
  | n :: l' => fun w f v => exists w1 w2 x, w = w1 ++ w2 /\ (Forall fine w1 -> realized n w1 x) /\ seq_realized A l' w2 (f x) v
  end.

Definition served (n : nonterm) (r : rule n) : Prop :=
  forall w v, seq_realized (ty n) (projT1 r) w (projT2 r) v -> Forall fine w -> realized n w v.

Ltac open_seq :=
  repeat match goal with
  | H : Forall fine (_ ++ _) |- _ => apply Forall_app in H as [? H]
  | F : Forall fine ?w, H : Forall fine ?w -> _ |- _ => specialize (H F)
  | H : seq_realized _ _ _ _ _ |- _ => cbn [seq_realized projT1 projT2] in H
  | H : exists _, _ |- _ => destruct H
  | H : _ /\ _ |- _ => destruct H
  | H : _ = _ ++ _ |- _ => subst
  | H : ?w = [] |- _ => subst w
  end.

Ltac open_real :=
  repeat match goal with
  | H : realized (Opt _) _ ?o |- _ => destruct o; cbn [realized] in H
  | H : realized (Tok _) _ _ |- _ => cbn [realized] in H
  | H : realized GQueryPlan _ _ |- _ => cbn [realized] in H
  | H : realized _ _ _ |- _ => destruct H as (? & ? & ?)
  | H : node _ _ _ _ |- _ => destruct H as (? & ? & ?)
  | H : ?w = [] |- _ => subst w
  | H : ?w = [_] |- _ => subst w
  | H : ?w = [_; _] |- _ => subst w
  end.

Ltac flatten :=
  repeat match goal with |- context [[?a; ?b] ++ ?w] => change ([a; b] ++ w) with ([a] ++ [b] ++ w) end.

Ltac derive :=
  repeat (apply D_cons; [first [eassumption|apply D_T]|]); apply D_nil.

Ltac build p :=
  eexists (Node p _); split; [eapply D_NT; [reflexivity|derive]|evaluate; reflexivity].

Lemma served_SqlStatement_0 : match nth_error (rules GSqlStatement) 0 with Some r => served GSqlStatement r | None => True end.
Proof. cbn [nth_error rules]. intros w v H F. open_seq. open_real; rewrite ?app_nil_l; flatten; build 181. Qed.

Lemma served_SqlStatement_1 : match nth_error (rules GSqlStatement) 1 with Some r => served GSqlStatement r | None => True end.
Proof. cbn [nth_error rules]. intros w v H F. open_seq. open_real; rewrite ?app_nil_l; flatten; first [build 182|build 183]. Qed.

Lemma served_SqlStatement_2 : match nth_error (rules GSqlStatement) 2 with Some r => served GSqlStatement r | None => True end.
Proof. cbn [nth_error rules]. intros w v H F. open_seq. open_real; rewrite ?app_nil_l; flatten; build 184. Qed.

Lemma served_SqlStatement_3 : match nth_error (rules GSqlStatement) 3 with Some r => served GSqlStatement r | None => True end.
Proof. cbn [nth_error rules]. intros w v H F. open_seq. open_real; rewrite ?app_nil_l; flatten; build 185. Qed.

Lemma served_QueryPlan_0 : match nth_error (rules GQueryPlan) 0 with Some r => served GQueryPlan r | None => True end.
Proof. cbn [nth_error rules]. intros w v H F. open_seq. open_real. reflexivity. Qed.

Lemma served_Statement_0 : match nth_error (rules GStatement) 0 with Some r => served GStatement r | None => True end.
Proof. cbn [nth_error rules]. intros w v H F. open_seq. open_real; rewrite ?app_nil_l; flatten; build 186. Qed.

Lemma served_Statement_1 : match nth_error (rules GStatement) 1 with Some r => served GStatement r | None => True end.
Proof. cbn [nth_error rules]. intros w v H F. open_seq. open_real; rewrite ?app_nil_l; flatten; build 187. Qed.

Lemma served_Statement_2 : match nth_error (rules GStatement) 2 with Some r => served GStatement r | None => True end.
Proof. cbn [nth_error rules]. intros w v H F. open_seq. open_real; rewrite ?app_nil_l; flatten; build 188. Qed.

Lemma served_Statement_3 : match nth_error (rules GStatement) 3 with Some r => served GStatement r | None => True end.
Proof. cbn [nth_error rules]. intros w v H F. open_seq. open_real; rewrite ?app_nil_l; flatten; build 189. Qed.

Lemma served_InsertStatement_0 : match nth_error (rules GInsertStatement) 0 with Some r => served GInsertStatement r | None => True end.
Proof. cbn [nth_error rules]. intros w v H F. open_seq. open_real; rewrite ?app_nil_l; flatten; first [build 84|build 85|build 86|build 87]. Qed.

Lemma served_ColumnNameList_0 : match nth_error (rules GColumnNameList) 0 with Some r => served GColumnNameList r | None => True end.
Proof. cbn [nth_error rules]. intros w v H F. open_seq. open_real; rewrite ?app_nil_l; flatten; build 26. Qed.

Lemma served_DeleteStatement_0 : match nth_error (rules GDeleteStatement) 0 with Some r => served GDeleteStatement r | None => True end.
Proof. cbn [nth_error rules]. intros w v H F. open_seq. open_real; rewrite ?app_nil_l; flatten; first [build 62|build 63|build 64|build 65]. Qed.

Lemma served_UpdateStatement_0 : match nth_error (rules GUpdateStatement) 0 with Some r => served GUpdateStatement r | None => True end.
Proof. cbn [nth_error rules]. intros w v H F. open_seq. open_real; rewrite ?app_nil_l; flatten; first [build 213|build 214|build 215|build 216]. Qed.

Lemma served_Assignments_0 : match nth_error (rules GAssignments) 0 with Some r => served GAssignments r | None => True end.
Proof. cbn [nth_error rules]. intros w v H F. open_seq. open_real; rewrite ?app_nil_l; flatten; build 18. Qed.

Lemma served_Assignments_1 : match nth_error (rules GAssignments) 1 with Some r => served GAssignments r | None => True end.
Proof. cbn [nth_error rules]. intros w v H F. open_seq. open_real; rewrite ?app_nil_l; flatten; build 19. Qed.

Lemma served_Assignment_0 : match nth_error (rules GAssignment) 0 with Some r => served GAssignment r | None => True end.
Proof. cbn [nth_error rules]. intros w v H F. open_seq. open_real; rewrite ?app_nil_l; flatten; build 17. Qed.

Lemma served_SelectStatement_0 : match nth_error (rules GSelectStatement) 0 with Some r => served GSelectStatement r | None => True end.
Proof. cbn [nth_error rules]. intros w v H F. open_seq. open_real; rewrite ?app_nil_l; flatten; first [build 173|build 174|build 175|build 176]. Qed.

Lemma served_SelectStatement_1 : match nth_error (rules GSelectStatement) 1 with Some r => served GSelectStatement r | None => True end.
Proof. cbn [nth_error rules]. intros w v H F. open_seq. open_real; rewrite ?app_nil_l; flatten; first [build 177|build 178|build 179|build 180]. Qed.

Lemma served_TableExpressions_0 : match nth_error (rules GTableExpressions) 0 with Some r => served GTableExpressions r | None => True end.
Proof. cbn [nth_error rules]. intros w v H F. open_seq. open_real; rewrite ?app_nil_l; flatten; build 199. Qed.

Lemma served_CommonTableExpressionList_0 : match nth_error (rules GCommonTableExpressionList) 0 with Some r => served GCommonTableExpressionList r | None => True end.
Proof. cbn [nth_error rules]. intros w v H F. open_seq. open_real; rewrite ?app_nil_l; flatten; build 31. Qed.

Lemma served_CommonTableExpressionList_1 : match nth_error (rules GCommonTableExpressionList) 1 with Some r => served GCommonTableExpressionList r | None => True end.
Proof. cbn [nth_error rules]. intros w v H F. open_seq. open_real; rewrite ?app_nil_l; flatten; build 32. Qed.

Lemma served_CommonTableExpression_0 : match nth_error (rules GCommonTableExpression) 0 with Some r => served GCommonTableExpression r | None => True end.
Proof. cbn [nth_error rules]. intros w v H F. open_seq. open_real; rewrite ?app_nil_l; flatten; build 29. Qed.

Lemma served_CommonTableExpression_1 : match nth_error (rules GCommonTableExpression) 1 with Some r => served GCommonTableExpression r | None => True end.
Proof. cbn [nth_error rules]. intros w v H F. open_seq. open_real; rewrite ?app_nil_l; flatten; build 30. Qed.

Lemma served_SelectCoreList_0 : match nth_error (rules GSelectCoreList) 0 with Some r => served GSelectCoreList r | None => True end.
Proof. cbn [nth_error rules]. intros w v H F. open_seq. open_real; rewrite ?app_nil_l; flatten; build 168. Qed.

Lemma served_SelectCoreList_1 : match nth_error (rules GSelectCoreList) 1 with Some r => served GSelectCoreList r | None => True end.
Proof. cbn [nth_error rules]. intros w v H F. open_seq. open_real; rewrite ?app_nil_l; flatten; build 169. Qed.

Lemma served_CompoundOperator_0 : match nth_error (rules GCompoundOperator) 0 with Some r => served GCompoundOperator r | None => True end.
Proof. cbn [nth_error rules]. intros w v H F. open_seq. open_real; rewrite ?app_nil_l; flatten; build 58. Qed.

Lemma served_CompoundOperator_1 : match nth_error (rules GCompoundOperator) 1 with Some r => served GCompoundOperator r | None => True end.
Proof. cbn [nth_error rules]. intros w v H F. open_seq. open_real; rewrite ?app_nil_l; flatten; build 59. Qed.

Lemma served_CompoundOperator_2 : match nth_error (rules GCompoundOperator) 2 with Some r => served GCompoundOperator r | None => True end.
Proof. cbn [nth_error rules]. intros w v H F. open_seq. open_real; rewrite ?app_nil_l; flatten; build 60. Qed.

Lemma served_CompoundOperator_3 : match nth_error (rules GCompoundOperator) 3 with Some r => served GCompoundOperator r | None => True end.
Proof. cbn [nth_error rules]. intros w v H F. open_seq. open_real; rewrite ?app_nil_l; flatten; build 61. Qed.

Lemma served_SelectCore_0 : match nth_error (rules GSelectCore) 0 with Some r => served GSelectCore r | None => True end.
Proof. cbn [nth_error rules]. intros w v H F. open_seq. open_real; rewrite ?app_nil_l; flatten; first [build 159|build 160|build 161|build 162]. Qed.

Lemma served_SelectCore_1 : match nth_error (rules GSelectCore) 1 with Some r => served GSelectCore r | None => True end.
Proof. cbn [nth_error rules]. intros w v H F. open_seq. open_real; rewrite ?app_nil_l; flatten; first [build 163|build 164|build 165|build 166]. Qed.

Lemma served_SelectCore_2 : match nth_error (rules GSelectCore) 2 with Some r => served GSelectCore r | None => True end.
Proof. cbn [nth_error rules]. intros w v H F. open_seq. open_real; rewrite ?app_nil_l; flatten; build 167. Qed.

Lemma served_SelectMode_0 : match nth_error (rules GSelectMode) 0 with Some r => served GSelectMode r | None => True end.
Proof. cbn [nth_error rules]. intros w v H F. open_seq. open_real; rewrite ?app_nil_l; flatten; first [build 170|build 171]. Qed.

Lemma served_SelectMode_1 : match nth_error (rules GSelectMode) 1 with Some r => served GSelectMode r | None => True end.
Proof. cbn [nth_error rules]. intros w v H F. open_seq. open_real; rewrite ?app_nil_l; flatten; build 172. Qed.

Lemma served_TupleList_0 : match nth_error (rules GTupleList) 0 with Some r => served GTupleList r | None => True end.
Proof. cbn [nth_error rules]. intros w v H F. open_seq. open_real; rewrite ?app_nil_l; flatten; build 208. Qed.

Lemma served_TupleList_1 : match nth_error (rules GTupleList) 1 with Some r => served GTupleList r | None => True end.
Proof. cbn [nth_error rules]. intros w v H F. open_seq. open_real; rewrite ?app_nil_l; flatten; build 209. Qed.

Lemma served_Tuple_0 : match nth_error (rules GTuple) 0 with Some r => served GTuple r | None => True end.
Proof. cbn [nth_error rules]. intros w v H F. open_seq. open_real; rewrite ?app_nil_l; flatten; build 207. Qed.

Lemma served_ResultColumns_0 : match nth_error (rules GResultColumns) 0 with Some r => served GResultColumns r | None => True end.
Proof. cbn [nth_error rules]. intros w v H F. open_seq. open_real; rewrite ?app_nil_l; flatten; build 154. Qed.

Lemma served_ResultColumns_1 : match nth_error (rules GResultColumns) 1 with Some r => served GResultColumns r | None => True end.
Proof. cbn [nth_error rules]. intros w v H F. open_seq. open_real; rewrite ?app_nil_l; flatten; build 155. Qed.

Lemma served_ResultColumnList_0 : match nth_error (rules GResultColumnList) 0 with Some r => served GResultColumnList r | None => True end.
Proof. cbn [nth_error rules]. intros w v H F. open_seq. open_real; rewrite ?app_nil_l; flatten; build 152. Qed.

Lemma served_ResultColumnList_1 : match nth_error (rules GResultColumnList) 1 with Some r => served GResultColumnList r | None => True end.
Proof. cbn [nth_error rules]. intros w v H F. open_seq. open_real; rewrite ?app_nil_l; flatten; build 153. Qed.

Lemma served_ResultColumn_0 : match nth_error (rules GResultColumn) 0 with Some r => served GResultColumn r | None => True end.
Proof. cbn [nth_error rules]. intros w v H F. open_seq. open_real; rewrite ?app_nil_l; flatten; build 148. Qed.

Lemma served_ResultColumn_1 : match nth_error (rules GResultColumn) 1 with Some r => served GResultColumn r | None => True end.
Proof. cbn [nth_error rules]. intros w v H F. open_seq. open_real; rewrite ?app_nil_l; flatten; first [build 149|build 150]. Qed.

Lemma served_ResultColumn_2 : match nth_error (rules GResultColumn) 2 with Some r => served GResultColumn r | None => True end.
Proof. cbn [nth_error rules]. intros w v H F. open_seq. open_real; rewrite ?app_nil_l; flatten; build 151. Qed.

Lemma served_QualifiedIdentifier_0 : match nth_error (rules GQualifiedIdentifier) 0 with Some r => served GQualifiedIdentifier r | None => True end.
Proof. cbn [nth_error rules]. intros w v H F. open_seq. open_real; rewrite ?app_nil_l; flatten; build 145. Qed.

Lemma served_QualifiedIdentifier_1 : match nth_error (rules GQualifiedIdentifier) 1 with Some r => served GQualifiedIdentifier r | None => True end.
Proof. cbn [nth_error rules]. intros w v H F. open_seq. open_real; rewrite ?app_nil_l; flatten; build 146. Qed.

Lemma served_QualifiedIdentifier_2 : match nth_error (rules GQualifiedIdentifier) 2 with Some r => served GQualifiedIdentifier r | None => True end.
Proof. cbn [nth_error rules]. intros w v H F. open_seq. open_real; rewrite ?app_nil_l; flatten; build 147. Qed.

Lemma served_FromClause_0 : match nth_error (rules GFromClause) 0 with Some r => served GFromClause r | None => True end.
Proof. cbn [nth_error rules]. intros w v H F. open_seq. open_real; rewrite ?app_nil_l; flatten; build 76. Qed.

Lemma served_TableExpressionList_0 : match nth_error (rules GTableExpressionList) 0 with Some r => served GTableExpressionList r | None => True end.
Proof. cbn [nth_error rules]. intros w v H F. open_seq. open_real; rewrite ?app_nil_l; flatten; build 197. Qed.

Lemma served_TableExpressionList_1 : match nth_error (rules GTableExpressionList) 1 with Some r => served GTableExpressionList r | None => True end.
Proof. cbn [nth_error rules]. intros w v H F. open_seq. open_real; rewrite ?app_nil_l; flatten; build 198. Qed.

Lemma served_TableExpression_0 : match nth_error (rules GTableExpression) 0 with Some r => served GTableExpression r | None => True end.
Proof. cbn [nth_error rules]. intros w v H F. open_seq. open_real; rewrite ?app_nil_l; flatten; build 195. Qed.

Lemma served_TableExpression_1 : match nth_error (rules GTableExpression) 1 with Some r => served GTableExpression r | None => True end.
Proof. cbn [nth_error rules]. intros w v H F. open_seq. open_real; rewrite ?app_nil_l; flatten; build 196. Qed.

Lemma served_TableOrSubQuery_0 : match nth_error (rules GTableOrSubQuery) 0 with Some r => served GTableOrSubQuery r | None => True end.
Proof. cbn [nth_error rules]. intros w v H F. open_seq. open_real; rewrite ?app_nil_l; flatten; first [build 202|build 203]. Qed.

Lemma served_TableOrSubQuery_1 : match nth_error (rules GTableOrSubQuery) 1 with Some r => served GTableOrSubQuery r | None => True end.
Proof. cbn [nth_error rules]. intros w v H F. open_seq. open_real; rewrite ?app_nil_l; flatten; first [build 204|build 205]. Qed.

Lemma served_TableOrSubQuery_2 : match nth_error (rules GTableOrSubQuery) 2 with Some r => served GTableOrSubQuery r | None => True end.
Proof. cbn [nth_error rules]. intros w v H F. open_seq. open_real; rewrite ?app_nil_l; flatten; build 206. Qed.

Lemma served_TableAlias_0 : match nth_error (rules GTableAlias) 0 with Some r => served GTableAlias r | None => True end.
Proof. cbn [nth_error rules]. intros w v H F. open_seq. open_real; rewrite ?app_nil_l; flatten; first [build 191|build 192]. Qed.

Lemma served_JoinOperator_0 : match nth_error (rules GJoinOperator) 0 with Some r => served GJoinOperator r | None => True end.
Proof. cbn [nth_error rules]. intros w v H F. open_seq. open_real; rewrite ?app_nil_l; flatten; first [build 90|build 91]. Qed.

Lemma served_JoinOperator_1 : match nth_error (rules GJoinOperator) 1 with Some r => served GJoinOperator r | None => True end.
Proof. cbn [nth_error rules]. intros w v H F. open_seq. open_real; rewrite ?app_nil_l; flatten; first [build 92|build 93]. Qed.

Lemma served_JoinOperator_2 : match nth_error (rules GJoinOperator) 2 with Some r => served GJoinOperator r | None => True end.
Proof. cbn [nth_error rules]. intros w v H F. open_seq. open_real; rewrite ?app_nil_l; flatten; build 94. Qed.

Lemma served_JoinType_0 : match nth_error (rules GJoinType) 0 with Some r => served GJoinType r | None => True end.
Proof. cbn [nth_error rules]. intros w v H F. open_seq. open_real; rewrite ?app_nil_l; flatten; first [build 95|build 96]. Qed.

Lemma served_JoinType_1 : match nth_error (rules GJoinType) 1 with Some r => served GJoinType r | None => True end.
Proof. cbn [nth_error rules]. intros w v H F. open_seq. open_real; rewrite ?app_nil_l; flatten; first [build 97|build 98]. Qed.

Lemma served_JoinType_2 : match nth_error (rules GJoinType) 2 with Some r => served GJoinType r | None => True end.
Proof. cbn [nth_error rules]. intros w v H F. open_seq. open_real; rewrite ?app_nil_l; flatten; first [build 99|build 100]. Qed.

Lemma served_JoinType_3 : match nth_error (rules GJoinType) 3 with Some r => served GJoinType r | None => True end.
Proof. cbn [nth_error rules]. intros w v H F. open_seq. open_real; rewrite ?app_nil_l; flatten; build 101. Qed.

Lemma served_JoinConstraint_0 : match nth_error (rules GJoinConstraint) 0 with Some r => served GJoinConstraint r | None => True end.
Proof. cbn [nth_error rules]. intros w v H F. open_seq. open_real; rewrite ?app_nil_l; flatten; build 88. Qed.

Lemma served_JoinConstraint_1 : match nth_error (rules GJoinConstraint) 1 with Some r => served GJoinConstraint r | None => True end.
Proof. cbn [nth_error rules]. intros w v H F. open_seq. open_real; rewrite ?app_nil_l; flatten; build 89. Qed.

Lemma served_IdentifierList_0 : match nth_error (rules GIdentifierList) 0 with Some r => served GIdentifierList r | None => True end.
Proof. cbn [nth_error rules]. intros w v H F. open_seq. open_real; rewrite ?app_nil_l; flatten; build 82. Qed.

Lemma served_IdentifierList_1 : match nth_error (rules GIdentifierList) 1 with Some r => served GIdentifierList r | None => True end.
Proof. cbn [nth_error rules]. intros w v H F. open_seq. open_real; rewrite ?app_nil_l; flatten; build 83. Qed.

Lemma served_WhereClause_0 : match nth_error (rules GWhereClause) 0 with Some r => served GWhereClause r | None => True end.
Proof. cbn [nth_error rules]. intros w v H F. open_seq. open_real; rewrite ?app_nil_l; flatten; build 220. Qed.

Lemma served_GroupByClause_0 : match nth_error (rules GGroupByClause) 0 with Some r => served GGroupByClause r | None => True end.
Proof. cbn [nth_error rules]. intros w v H F. open_seq. open_real; rewrite ?app_nil_l; flatten; build 77. Qed.

Lemma served_GroupByClause_1 : match nth_error (rules GGroupByClause) 1 with Some r => served GGroupByClause r | None => True end.
Proof. cbn [nth_error rules]. intros w v H F. open_seq. open_real; rewrite ?app_nil_l; flatten; build 78. Qed.

Lemma served_OrderByClause_0 : match nth_error (rules GOrderByClause) 0 with Some r => served GOrderByClause r | None => True end.
Proof. cbn [nth_error rules]. intros w v H F. open_seq. open_real; rewrite ?app_nil_l; flatten; build 128. Qed.

Lemma served_OrderingTermList_0 : match nth_error (rules GOrderingTermList) 0 with Some r => served GOrderingTermList r | None => True end.
Proof. cbn [nth_error rules]. intros w v H F. open_seq. open_real; rewrite ?app_nil_l; flatten; build 139. Qed.

Lemma served_OrderingTermList_1 : match nth_error (rules GOrderingTermList) 1 with Some r => served GOrderingTermList r | None => True end.
Proof. cbn [nth_error rules]. intros w v H F. open_seq. open_real; rewrite ?app_nil_l; flatten; build 140. Qed.

Lemma served_OrderingTerm_0 : match nth_error (rules GOrderingTerm) 0 with Some r => served GOrderingTerm r | None => True end.
Proof. cbn [nth_error rules]. intros w v H F. open_seq. open_real; rewrite ?app_nil_l; flatten; first [build 137|build 138]. Qed.

Lemma served_OrderingCollation_0 : match nth_error (rules GOrderingCollation) 0 with Some r => served GOrderingCollation r | None => True end.
Proof. cbn [nth_error rules]. intros w v H F. open_seq. open_real; rewrite ?app_nil_l; flatten; build 131. Qed.

Lemma served_OrderingDirection_0 : match nth_error (rules GOrderingDirection) 0 with Some r => served GOrderingDirection r | None => True end.
Proof. cbn [nth_error rules]. intros w v H F. open_seq. open_real; rewrite ?app_nil_l; flatten; first [build 134|build 135]. Qed.

Lemma served_OrderingDirection_1 : match nth_error (rules GOrderingDirection) 1 with Some r => served GOrderingDirection r | None => True end.
Proof. cbn [nth_error rules]. intros w v H F. open_seq. open_real; rewrite ?app_nil_l; flatten; build 136. Qed.

Lemma served_LimitClause_0 : match nth_error (rules GLimitClause) 0 with Some r => served GLimitClause r | None => True end.
Proof. cbn [nth_error rules]. intros w v H F. open_seq. open_real; rewrite ?app_nil_l; flatten; build 104. Qed.

Lemma served_LimitClause_1 : match nth_error (rules GLimitClause) 1 with Some r => served GLimitClause r | None => True end.
Proof. cbn [nth_error rules]. intros w v H F. open_seq. open_real; rewrite ?app_nil_l; flatten; build 105. Qed.

Lemma served_LimitClause_2 : match nth_error (rules GLimitClause) 2 with Some r => served GLimitClause r | None => True end.
Proof. cbn [nth_error rules]. intros w v H F. open_seq. open_real; rewrite ?app_nil_l; flatten; build 106. Qed.

Lemma served_AttachStatement_0 : match nth_error (rules GAttachStatement) 0 with Some r => served GAttachStatement r | None => True end.
Proof. cbn [nth_error rules]. intros w v H F. open_seq. open_real; rewrite ?app_nil_l; flatten; first [build 20|build 21]. Qed.

Lemma served_DescribeStatement_0 : match nth_error (rules GDescribeStatement) 0 with Some r => served GDescribeStatement r | None => True end.
Proof. cbn [nth_error rules]. intros w v H F. open_seq. open_real; rewrite ?app_nil_l; flatten; first [build 66|build 67]. Qed.

Lemma served_SchemaName_0 : match nth_error (rules GSchemaName) 0 with Some r => served GSchemaName r | None => True end.
Proof. cbn [nth_error rules]. intros w v H F. open_seq. open_real; rewrite ?app_nil_l; flatten; build 156. Qed.

Lemma served_ExpressionList_0 : match nth_error (rules GExpressionList) 0 with Some r => served GExpressionList r | None => True end.
Proof. cbn [nth_error rules]. intros w v H F. open_seq. open_real; rewrite ?app_nil_l; flatten; build 74. Qed.

Lemma served_ExpressionList_1 : match nth_error (rules GExpressionList) 1 with Some r => served GExpressionList r | None => True end.
Proof. cbn [nth_error rules]. intros w v H F. open_seq. open_real; rewrite ?app_nil_l; flatten; build 75. Qed.

Lemma served_PrimaryExpression_0 : match nth_error (rules GPrimaryExpression) 0 with Some r => served GPrimaryExpression r | None => True end.
Proof. cbn [nth_error rules]. intros w v H F. open_seq. open_real; rewrite ?app_nil_l; flatten; build 141. Qed.

Lemma served_PrimaryExpression_1 : match nth_error (rules GPrimaryExpression) 1 with Some r => served GPrimaryExpression r | None => True end.
Proof. cbn [nth_error rules]. intros w v H F. open_seq. open_real; rewrite ?app_nil_l; flatten; build 142. Qed.

Lemma served_PrimaryExpression_2 : match nth_error (rules GPrimaryExpression) 2 with Some r => served GPrimaryExpression r | None => True end.
Proof. cbn [nth_error rules]. intros w v H F. open_seq. open_real; rewrite ?app_nil_l; flatten; build 143. Qed.

Lemma served_PrimaryExpression_3 : match nth_error (rules GPrimaryExpression) 3 with Some r => served GPrimaryExpression r | None => True end.
Proof. cbn [nth_error rules]. intros w v H F. open_seq. open_real; rewrite ?app_nil_l; flatten; build 144. Qed.

Lemma served_UnaryExpression_0 : match nth_error (rules GUnaryExpression) 0 with Some r => served GUnaryExpression r | None => True end.
Proof. cbn [nth_error rules]. intros w v H F. open_seq. open_real; rewrite ?app_nil_l; flatten; build 210. Qed.

Lemma served_UnaryExpression_1 : match nth_error (rules GUnaryExpression) 1 with Some r => served GUnaryExpression r | None => True end.
Proof. cbn [nth_error rules]. intros w v H F. open_seq. open_real; rewrite ?app_nil_l; flatten; build 211. Qed.

Lemma served_UnaryExpression_2 : match nth_error (rules GUnaryExpression) 2 with Some r => served GUnaryExpression r | None => True end.
Proof. cbn [nth_error rules]. intros w v H F. open_seq. open_real; rewrite ?app_nil_l; flatten; build 212. Qed.

Lemma served_MultiplicativeExpression_0 : match nth_error (rules GMultiplicativeExpression) 0 with Some r => served GMultiplicativeExpression r | None => True end.
Proof. cbn [nth_error rules]. intros w v H F. open_seq. open_real; rewrite ?app_nil_l; flatten; build 118. Qed.

Lemma served_MultiplicativeExpression_1 : match nth_error (rules GMultiplicativeExpression) 1 with Some r => served GMultiplicativeExpression r | None => True end.
Proof. cbn [nth_error rules]. intros w v H F. open_seq. open_real; rewrite ?app_nil_l; flatten; build 119. Qed.

Lemma served_MultiplicativeExpression_2 : match nth_error (rules GMultiplicativeExpression) 2 with Some r => served GMultiplicativeExpression r | None => True end.
Proof. cbn [nth_error rules]. intros w v H F. open_seq. open_real; rewrite ?app_nil_l; flatten; build 120. Qed.

Lemma served_AdditiveExpression_0 : match nth_error (rules GAdditiveExpression) 0 with Some r => served GAdditiveExpression r | None => True end.
Proof. cbn [nth_error rules]. intros w v H F. open_seq. open_real; rewrite ?app_nil_l; flatten; build 11. Qed.

Lemma served_AdditiveExpression_1 : match nth_error (rules GAdditiveExpression) 1 with Some r => served GAdditiveExpression r | None => True end.
Proof. cbn [nth_error rules]. intros w v H F. open_seq. open_real; rewrite ?app_nil_l; flatten; build 12. Qed.

Lemma served_AdditiveExpression_2 : match nth_error (rules GAdditiveExpression) 2 with Some r => served GAdditiveExpression r | None => True end.
Proof. cbn [nth_error rules]. intros w v H F. open_seq. open_real; rewrite ?app_nil_l; flatten; build 13. Qed.

Lemma served_AdditiveExpression_3 : match nth_error (rules GAdditiveExpression) 3 with Some r => served GAdditiveExpression r | None => True end.
Proof. cbn [nth_error rules]. intros w v H F. open_seq. open_real; rewrite ?app_nil_l; flatten; build 14. Qed.

Lemma served_ComparativeExpression_0 : match nth_error (rules GComparativeExpression) 0 with Some r => served GComparativeExpression r | None => True end.
Proof. cbn [nth_error rules]. intros w v H F. open_seq. open_real; rewrite ?app_nil_l; flatten; build 33. Qed.

Lemma served_ComparativeExpression_1 : match nth_error (rules GComparativeExpression) 1 with Some r => served GComparativeExpression r | None => True end.
Proof. cbn [nth_error rules]. intros w v H F. open_seq. open_real; rewrite ?app_nil_l; flatten; build 34. Qed.

Lemma served_ComparativeExpression_2 : match nth_error (rules GComparativeExpression) 2 with Some r => served GComparativeExpression r | None => True end.
Proof. cbn [nth_error rules]. intros w v H F. open_seq. open_real; rewrite ?app_nil_l; flatten; build 35. Qed.

Lemma served_ComparativeExpression_3 : match nth_error (rules GComparativeExpression) 3 with Some r => served GComparativeExpression r | None => True end.
Proof. cbn [nth_error rules]. intros w v H F. open_seq. open_real; rewrite ?app_nil_l; flatten; build 36. Qed.

Lemma served_ComparativeExpression_4 : match nth_error (rules GComparativeExpression) 4 with Some r => served GComparativeExpression r | None => True end.
Proof. cbn [nth_error rules]. intros w v H F. open_seq. open_real; rewrite ?app_nil_l; flatten; build 37. Qed.

Lemma served_ComparativeExpression_5 : match nth_error (rules GComparativeExpression) 5 with Some r => served GComparativeExpression r | None => True end.
Proof. cbn [nth_error rules]. intros w v H F. open_seq. open_real; rewrite ?app_nil_l; flatten; build 38. Qed.

Lemma served_ComparativeExpression_6 : match nth_error (rules GComparativeExpression) 6 with Some r => served GComparativeExpression r | None => True end.
Proof. cbn [nth_error rules]. intros w v H F. open_seq. open_real; rewrite ?app_nil_l; flatten; build 39. Qed.

Lemma served_ComparativeExpression_7 : match nth_error (rules GComparativeExpression) 7 with Some r => served GComparativeExpression r | None => True end.
Proof. cbn [nth_error rules]. intros w v H F. open_seq. open_real; rewrite ?app_nil_l; flatten; build 40. Qed.

Lemma served_ComparativeExpression_8 : match nth_error (rules GComparativeExpression) 8 with Some r => served GComparativeExpression r | None => True end.
Proof. cbn [nth_error rules]. intros w v H F. open_seq. open_real; rewrite ?app_nil_l; flatten; build 41. Qed.

Lemma served_ComparativeExpression_9 : match nth_error (rules GComparativeExpression) 9 with Some r => served GComparativeExpression r | None => True end.
Proof. cbn [nth_error rules]. intros w v H F. open_seq. open_real; rewrite ?app_nil_l; flatten; build 42. Qed.

Lemma served_ComparativeExpression_10 : match nth_error (rules GComparativeExpression) 10 with Some r => served GComparativeExpression r | None => True end.
Proof. cbn [nth_error rules]. intros w v H F. open_seq. open_real; rewrite ?app_nil_l; flatten; build 43. Qed.

Lemma served_ComparativeExpression_11 : match nth_error (rules GComparativeExpression) 11 with Some r => served GComparativeExpression r | None => True end.
Proof. cbn [nth_error rules]. intros w v H F. open_seq. open_real; rewrite ?app_nil_l; flatten; build 44. Qed.

Lemma served_ComparativeExpression_12 : match nth_error (rules GComparativeExpression) 12 with Some r => served GComparativeExpression r | None => True end.
Proof. cbn [nth_error rules]. intros w v H F. open_seq. open_real; rewrite ?app_nil_l; flatten; build 45. Qed.

Lemma served_ComparativeExpression_13 : match nth_error (rules GComparativeExpression) 13 with Some r => served GComparativeExpression r | None => True end.
Proof. cbn [nth_error rules]. intros w v H F. open_seq. open_real; rewrite ?app_nil_l; flatten; build 46. Qed.

Lemma served_ComparativeExpression_14 : match nth_error (rules GComparativeExpression) 14 with Some r => served GComparativeExpression r | None => True end.
Proof. cbn [nth_error rules]. intros w v H F. open_seq. open_real; rewrite ?app_nil_l; flatten; build 47. Qed.

Lemma served_ComparativeExpression_15 : match nth_error (rules GComparativeExpression) 15 with Some r => served GComparativeExpression r | None => True end.
Proof. cbn [nth_error rules]. intros w v H F. open_seq. open_real; rewrite ?app_nil_l; flatten; build 48. Qed.

Lemma served_ComparativeExpression_16 : match nth_error (rules GComparativeExpression) 16 with Some r => served GComparativeExpression r | None => True end.
Proof. cbn [nth_error rules]. intros w v H F. open_seq. open_real; rewrite ?app_nil_l; flatten; build 49. Qed.

Lemma served_ComparativeExpression_17 : match nth_error (rules GComparativeExpression) 17 with Some r => served GComparativeExpression r | None => True end.
Proof. cbn [nth_error rules]. intros w v H F. open_seq. open_real; rewrite ?app_nil_l; flatten; build 50. Qed.

Lemma served_ComparativeExpression_18 : match nth_error (rules GComparativeExpression) 18 with Some r => served GComparativeExpression r | None => True end.
Proof. cbn [nth_error rules]. intros w v H F. open_seq. open_real; rewrite ?app_nil_l; flatten; build 51. Qed.

Lemma served_ComparativeExpression_19 : match nth_error (rules GComparativeExpression) 19 with Some r => served GComparativeExpression r | None => True end.
Proof. cbn [nth_error rules]. intros w v H F. open_seq. open_real; rewrite ?app_nil_l; flatten; build 52. Qed.

Lemma served_ComparativeExpression_20 : match nth_error (rules GComparativeExpression) 20 with Some r => served GComparativeExpression r | None => True end.
Proof. cbn [nth_error rules]. intros w v H F. open_seq. open_real; rewrite ?app_nil_l; flatten; build 53. Qed.

Lemma served_ComparativeExpression_21 : match nth_error (rules GComparativeExpression) 21 with Some r => served GComparativeExpression r | None => True end.
Proof. cbn [nth_error rules]. intros w v H F. open_seq. open_real; rewrite ?app_nil_l; flatten; build 54. Qed.

Lemma served_ComparativeExpression_22 : match nth_error (rules GComparativeExpression) 22 with Some r => served GComparativeExpression r | None => True end.
Proof. cbn [nth_error rules]. intros w v H F. open_seq. open_real; rewrite ?app_nil_l; flatten; build 55. Qed.

Lemma served_ComplexExpression_0 : match nth_error (rules GComplexExpression) 0 with Some r => served GComplexExpression r | None => True end.
Proof. cbn [nth_error rules]. intros w v H F. open_seq. open_real; rewrite ?app_nil_l; flatten; build 56. Qed.

Lemma served_ComplexExpression_1 : match nth_error (rules GComplexExpression) 1 with Some r => served GComplexExpression r | None => True end.
Proof. cbn [nth_error rules]. intros w v H F. open_seq. open_real; rewrite ?app_nil_l; flatten; build 57. Qed.

Lemma served_CaseExpression_0 : match nth_error (rules GCaseExpression) 0 with Some r => served GCaseExpression r | None => True end.
Proof. cbn [nth_error rules]. intros w v H F. open_seq. open_real; rewrite ?app_nil_l; flatten; first [build 22|build 23|build 24|build 25]. Qed.

Lemma served_WhenClauses_0 : match nth_error (rules GWhenClauses) 0 with Some r => served GWhenClauses r | None => True end.
Proof. cbn [nth_error rules]. intros w v H F. open_seq. open_real; rewrite ?app_nil_l; flatten; build 218. Qed.

Lemma served_WhenClauses_1 : match nth_error (rules GWhenClauses) 1 with Some r => served GWhenClauses r | None => True end.
Proof. cbn [nth_error rules]. intros w v H F. open_seq. open_real; rewrite ?app_nil_l; flatten; build 219. Qed.

Lemma served_WhenClause_0 : match nth_error (rules GWhenClause) 0 with Some r => served GWhenClause r | None => True end.
Proof. cbn [nth_error rules]. intros w v H F. open_seq. open_real; rewrite ?app_nil_l; flatten; build 217. Qed.

Lemma served_ElseClause_0 : match nth_error (rules GElseClause) 0 with Some r => served GElseClause r | None => True end.
Proof. cbn [nth_error rules]. intros w v H F. open_seq. open_real; rewrite ?app_nil_l; flatten; build 68. Qed.

Lemma served_NotExpression_0 : match nth_error (rules GNotExpression) 0 with Some r => served GNotExpression r | None => True end.
Proof. cbn [nth_error rules]. intros w v H F. open_seq. open_real; rewrite ?app_nil_l; flatten; build 121. Qed.

Lemma served_NotExpression_1 : match nth_error (rules GNotExpression) 1 with Some r => served GNotExpression r | None => True end.
Proof. cbn [nth_error rules]. intros w v H F. open_seq. open_real; rewrite ?app_nil_l; flatten; build 122. Qed.

Lemma served_AndExpression_0 : match nth_error (rules GAndExpression) 0 with Some r => served GAndExpression r | None => True end.
Proof. cbn [nth_error rules]. intros w v H F. open_seq. open_real; rewrite ?app_nil_l; flatten; build 15. Qed.

Lemma served_AndExpression_1 : match nth_error (rules GAndExpression) 1 with Some r => served GAndExpression r | None => True end.
Proof. cbn [nth_error rules]. intros w v H F. open_seq. open_real; rewrite ?app_nil_l; flatten; build 16. Qed.

Lemma served_OrExpression_0 : match nth_error (rules GOrExpression) 0 with Some r => served GOrExpression r | None => True end.
Proof. cbn [nth_error rules]. intros w v H F. open_seq. open_real; rewrite ?app_nil_l; flatten; build 126. Qed.

Lemma served_OrExpression_1 : match nth_error (rules GOrExpression) 1 with Some r => served GOrExpression r | None => True end.
Proof. cbn [nth_error rules]. intros w v H F. open_seq. open_real; rewrite ?app_nil_l; flatten; build 127. Qed.

Lemma served_Expression_0 : match nth_error (rules GExpression) 0 with Some r => served GExpression r | None => True end.
Proof. cbn [nth_error rules]. intros w v H F. open_seq. open_real; rewrite ?app_nil_l; flatten; build 71. Qed.

Lemma served_LiteralValue_0 : match nth_error (rules GLiteralValue) 0 with Some r => served GLiteralValue r | None => True end.
Proof. cbn [nth_error rules]. intros w v H F. open_seq. open_real; rewrite ?app_nil_l; flatten; build 109. Qed.

Lemma served_LiteralValue_1 : match nth_error (rules GLiteralValue) 1 with Some r => served GLiteralValue r | None => True end.
Proof. cbn [nth_error rules]. intros w v H F. open_seq. open_real; rewrite ?app_nil_l; flatten; build 110. Qed.

Lemma served_LiteralValue_2 : match nth_error (rules GLiteralValue) 2 with Some r => served GLiteralValue r | None => True end.
Proof. cbn [nth_error rules]. intros w v H F. open_seq. open_real; rewrite ?app_nil_l; flatten; build 111. Qed.

Lemma served_LiteralValue_3 : match nth_error (rules GLiteralValue) 3 with Some r => served GLiteralValue r | None => True end.
Proof. cbn [nth_error rules]. intros w v H F. open_seq. open_real; rewrite ?app_nil_l; flatten; build 112. Qed.

Lemma served_LiteralValue_4 : match nth_error (rules GLiteralValue) 4 with Some r => served GLiteralValue r | None => True end.
Proof. cbn [nth_error rules]. intros w v H F. open_seq. open_real; rewrite ?app_nil_l; flatten; build 113. Qed.

Lemma served_LiteralValue_5 : match nth_error (rules GLiteralValue) 5 with Some r => served GLiteralValue r | None => True end.
Proof. cbn [nth_error rules]. intros w v H F. open_seq. open_real; rewrite ?app_nil_l; flatten; build 114. Qed.

Lemma served_LiteralValue_6 : match nth_error (rules GLiteralValue) 6 with Some r => served GLiteralValue r | None => True end.
Proof. cbn [nth_error rules]. intros w v H F. open_seq. open_real; rewrite ?app_nil_l; flatten; build 115. Qed.

Lemma served_LiteralValue_7 : match nth_error (rules GLiteralValue) 7 with Some r => served GLiteralValue r | None => True end.
Proof. cbn [nth_error rules]. intros w v H F. open_seq. open_real; rewrite ?app_nil_l; flatten; build 116. Qed.

Lemma served_LiteralValue_8 : match nth_error (rules GLiteralValue) 8 with Some r => served GLiteralValue r | None => True end.
Proof. cbn [nth_error rules]. intros w v H F. open_seq. open_real; rewrite ?app_nil_l; flatten; build 117. Qed.

Lemma served_Identifier_0 : match nth_error (rules GIdentifier) 0 with Some r => served GIdentifier r | None => True end.
Proof. cbn [nth_error rules]. intros w v H F. open_seq. open_real; rewrite ?app_nil_l; flatten; build 81. Qed.

Lemma served_NumericLiteral_0 : match nth_error (rules GNumericLiteral) 0 with Some r => served GNumericLiteral r | None => True end.
Proof. cbn [nth_error rules]. intros w v H F. open_seq. open_real; rewrite ?app_nil_l; flatten; build 123. Qed.

Lemma served_NumericLiteral_1 : match nth_error (rules GNumericLiteral) 1 with Some r => served GNumericLiteral r | None => True end.
Proof. cbn [nth_error rules]. intros w v H F. open_seq. open_real; rewrite ?app_nil_l; flatten; build 124. Qed.

Lemma served_NumericLiteral_2 : match nth_error (rules GNumericLiteral) 2 with Some r => served GNumericLiteral r | None => True end.
Proof. cbn [nth_error rules]. intros w v H F. open_seq. open_real; rewrite ?app_nil_l; flatten; build 125. Qed.

Lemma served_StringLiteral_0 : match nth_error (rules GStringLiteral) 0 with Some r => served GStringLiteral r | None => True end.
Proof.
  cbn [nth_error rules]. intros w v H F. open_seq. open_real. inversion F; subst. cbn [app]. eexists (Node 190 [Leaf (82, _)]). split.
  - eapply D_NT; [reflexivity|]. apply (D_cons productions (T 82) _ [_] [] [] []); constructor.
  - rewrite eval_node. cbn [eval_all eval bind sql_shift snd].
    match goal with |- sql_build 190 [sql_shift (?k, ?x)] = _ => change (sql_build 190 [sql_shift (k, x)]) with (v <- slice_inner x ;; Ret (Variant29 v)) end.
    rewrite slice_inner_ok; [reflexivity|]. match goal with H : Forall fine [_] |- _ => inversion H as [|? ? F1 _]; subst; exact (F1 eq_refl) end.
Qed.

Lemma served_option m : Forall (served (Opt m)) (rules (Opt m)).
Proof.
  cbn [rules]. apply Forall_cons; [|apply Forall_cons; [|constructor]].
  - intros w v [-> ->] _. reflexivity.
  - intros w v (w1 & w2 & x & -> & R & -> & ->) F. rewrite app_nil_r in *. exact (R F).
Qed.

Lemma rules_served n : Forall (served n) (rules n).
Proof.
  destruct n; [constructor|apply served_option|..]; cbn [rules].
  - apply Forall_cons; [exact served_SqlStatement_0|]. apply Forall_cons; [exact served_SqlStatement_1|]. apply Forall_cons; [exact served_SqlStatement_2|]. apply Forall_cons; [exact served_SqlStatement_3|]. constructor.
  - apply Forall_cons; [exact served_QueryPlan_0|]. constructor.
  - apply Forall_cons; [exact served_Statement_0|]. apply Forall_cons; [exact served_Statement_1|]. apply Forall_cons; [exact served_Statement_2|]. apply Forall_cons; [exact served_Statement_3|]. constructor.
  - apply Forall_cons; [exact served_InsertStatement_0|]. constructor.
  - apply Forall_cons; [exact served_ColumnNameList_0|]. constructor.
  - apply Forall_cons; [exact served_DeleteStatement_0|]. constructor.
  - apply Forall_cons; [exact served_UpdateStatement_0|]. constructor.
  - apply Forall_cons; [exact served_Assignments_0|]. apply Forall_cons; [exact served_Assignments_1|]. constructor.
  - apply Forall_cons; [exact served_Assignment_0|]. constructor.
  - apply Forall_cons; [exact served_SelectStatement_0|]. apply Forall_cons; [exact served_SelectStatement_1|]. constructor.
  - apply Forall_cons; [exact served_TableExpressions_0|]. constructor.
  - apply Forall_cons; [exact served_CommonTableExpressionList_0|]. apply Forall_cons; [exact served_CommonTableExpressionList_1|]. constructor.
  - apply Forall_cons; [exact served_CommonTableExpression_0|]. apply Forall_cons; [exact served_CommonTableExpression_1|]. constructor.
  - apply Forall_cons; [exact served_SelectCoreList_0|]. apply Forall_cons; [exact served_SelectCoreList_1|]. constructor.
  - apply Forall_cons; [exact served_CompoundOperator_0|]. apply Forall_cons; [exact served_CompoundOperator_1|]. apply Forall_cons; [exact served_CompoundOperator_2|]. apply Forall_cons; [exact served_CompoundOperator_3|]. constructor.
  - apply Forall_cons; [exact served_SelectCore_0|]. apply Forall_cons; [exact served_SelectCore_1|]. apply Forall_cons; [exact served_SelectCore_2|]. constructor.
  - apply Forall_cons; [exact served_SelectMode_0|]. apply Forall_cons; [exact served_SelectMode_1|]. constructor.
  - apply Forall_cons; [exact served_TupleList_0|]. apply Forall_cons; [exact served_TupleList_1|]. constructor.
  - apply Forall_cons; [exact served_Tuple_0|]. constructor.
  - apply Forall_cons; [exact served_ResultColumns_0|]. apply Forall_cons; [exact served_ResultColumns_1|]. constructor.
  - apply Forall_cons; [exact served_ResultColumnList_0|]. apply Forall_cons; [exact served_ResultColumnList_1|]. constructor.
  - apply Forall_cons; [exact served_ResultColumn_0|]. apply Forall_cons; [exact served_ResultColumn_1|]. apply Forall_cons; [exact served_ResultColumn_2|]. constructor.
  - apply Forall_cons; [exact served_QualifiedIdentifier_0|]. apply Forall_cons; [exact served_QualifiedIdentifier_1|]. apply Forall_cons; [exact served_QualifiedIdentifier_2|]. constructor.
  - apply Forall_cons; [exact served_FromClause_0|]. constructor.
  - apply Forall_cons; [exact served_TableExpressionList_0|]. apply Forall_cons; [exact served_TableExpressionList_1|]. constructor.
  - apply Forall_cons; [exact served_TableExpression_0|]. apply Forall_cons; [exact served_TableExpression_1|]. constructor.
  - apply Forall_cons; [exact served_TableOrSubQuery_0|]. apply Forall_cons; [exact served_TableOrSubQuery_1|]. apply Forall_cons; [exact served_TableOrSubQuery_2|]. constructor.
  - apply Forall_cons; [exact served_TableAlias_0|]. constructor.
  - apply Forall_cons; [exact served_JoinOperator_0|]. apply Forall_cons; [exact served_JoinOperator_1|]. apply Forall_cons; [exact served_JoinOperator_2|]. constructor.
  - apply Forall_cons; [exact served_JoinType_0|]. apply Forall_cons; [exact served_JoinType_1|]. apply Forall_cons; [exact served_JoinType_2|]. apply Forall_cons; [exact served_JoinType_3|]. constructor.
  - apply Forall_cons; [exact served_JoinConstraint_0|]. apply Forall_cons; [exact served_JoinConstraint_1|]. constructor.
  - apply Forall_cons; [exact served_IdentifierList_0|]. apply Forall_cons; [exact served_IdentifierList_1|]. constructor.
  - apply Forall_cons; [exact served_WhereClause_0|]. constructor.
  - apply Forall_cons; [exact served_GroupByClause_0|]. apply Forall_cons; [exact served_GroupByClause_1|]. constructor.
  - apply Forall_cons; [exact served_OrderByClause_0|]. constructor.
  - apply Forall_cons; [exact served_OrderingTermList_0|]. apply Forall_cons; [exact served_OrderingTermList_1|]. constructor.
  - apply Forall_cons; [exact served_OrderingTerm_0|]. constructor.
  - apply Forall_cons; [exact served_OrderingCollation_0|]. constructor.
  - apply Forall_cons; [exact served_OrderingDirection_0|]. apply Forall_cons; [exact served_OrderingDirection_1|]. constructor.
  - apply Forall_cons; [exact served_LimitClause_0|]. apply Forall_cons; [exact served_LimitClause_1|]. apply Forall_cons; [exact served_LimitClause_2|]. constructor.
  - apply Forall_cons; [exact served_AttachStatement_0|]. constructor.
  - apply Forall_cons; [exact served_DescribeStatement_0|]. constructor.
  - apply Forall_cons; [exact served_SchemaName_0|]. constructor.
  - apply Forall_cons; [exact served_ExpressionList_0|]. apply Forall_cons; [exact served_ExpressionList_1|]. constructor.
  - apply Forall_cons; [exact served_PrimaryExpression_0|]. apply Forall_cons; [exact served_PrimaryExpression_1|]. apply Forall_cons; [exact served_PrimaryExpression_2|]. apply Forall_cons; [exact served_PrimaryExpression_3|]. constructor.
  - apply Forall_cons; [exact served_UnaryExpression_0|]. apply Forall_cons; [exact served_UnaryExpression_1|]. apply Forall_cons; [exact served_UnaryExpression_2|]. constructor.
  - apply Forall_cons; [exact served_MultiplicativeExpression_0|]. apply Forall_cons; [exact served_MultiplicativeExpression_1|]. apply Forall_cons; [exact served_MultiplicativeExpression_2|]. constructor.
  - apply Forall_cons; [exact served_AdditiveExpression_0|]. apply Forall_cons; [exact served_AdditiveExpression_1|]. apply Forall_cons; [exact served_AdditiveExpression_2|]. apply Forall_cons; [exact served_AdditiveExpression_3|]. constructor.
  - apply Forall_cons; [exact served_ComparativeExpression_0|]. apply Forall_cons; [exact served_ComparativeExpression_1|]. apply Forall_cons; [exact served_ComparativeExpression_2|]. apply Forall_cons; [exact served_ComparativeExpression_3|]. apply Forall_cons; [exact served_ComparativeExpression_4|]. apply Forall_cons; [exact served_ComparativeExpression_5|]. apply Forall_cons; [exact served_ComparativeExpression_6|]. apply Forall_cons; [exact served_ComparativeExpression_7|]. apply Forall_cons; [exact served_ComparativeExpression_8|]. apply Forall_cons; [exact served_ComparativeExpression_9|]. apply Forall_cons; [exact served_ComparativeExpression_10|]. apply Forall_cons; [exact served_ComparativeExpression_11|]. apply Forall_cons; [exact served_ComparativeExpression_12|]. apply Forall_cons; [exact served_ComparativeExpression_13|]. apply Forall_cons; [exact served_ComparativeExpression_14|]. apply Forall_cons; [exact served_ComparativeExpression_15|]. apply Forall_cons; [exact served_ComparativeExpression_16|]. apply Forall_cons; [exact served_ComparativeExpression_17|]. apply Forall_cons; [exact served_ComparativeExpression_18|]. apply Forall_cons; [exact served_ComparativeExpression_19|]. apply Forall_cons; [exact served_ComparativeExpression_20|]. apply Forall_cons; [exact served_ComparativeExpression_21|]. apply Forall_cons; [exact served_ComparativeExpression_22|]. constructor.
  - apply Forall_cons; [exact served_ComplexExpression_0|]. apply Forall_cons; [exact served_ComplexExpression_1|]. constructor.
  - apply Forall_cons; [exact served_CaseExpression_0|]. constructor.
  - apply Forall_cons; [exact served_WhenClauses_0|]. apply Forall_cons; [exact served_WhenClauses_1|]. constructor.
  - apply Forall_cons; [exact served_WhenClause_0|]. constructor.
  - apply Forall_cons; [exact served_ElseClause_0|]. constructor.
  - apply Forall_cons; [exact served_NotExpression_0|]. apply Forall_cons; [exact served_NotExpression_1|]. constructor.
  - apply Forall_cons; [exact served_AndExpression_0|]. apply Forall_cons; [exact served_AndExpression_1|]. constructor.
  - apply Forall_cons; [exact served_OrExpression_0|]. apply Forall_cons; [exact served_OrExpression_1|]. constructor.
  - apply Forall_cons; [exact served_Expression_0|]. constructor.
  - apply Forall_cons; [exact served_LiteralValue_0|]. apply Forall_cons; [exact served_LiteralValue_1|]. apply Forall_cons; [exact served_LiteralValue_2|]. apply Forall_cons; [exact served_LiteralValue_3|]. apply Forall_cons; [exact served_LiteralValue_4|]. apply Forall_cons; [exact served_LiteralValue_5|]. apply Forall_cons; [exact served_LiteralValue_6|]. apply Forall_cons; [exact served_LiteralValue_7|]. apply Forall_cons; [exact served_LiteralValue_8|]. constructor.
  - apply Forall_cons; [exact served_Identifier_0|]. constructor.
  - apply Forall_cons; [exact served_NumericLiteral_0|]. apply Forall_cons; [exact served_NumericLiteral_1|]. apply Forall_cons; [exact served_NumericLiteral_2|]. constructor.
  - apply Forall_cons; [exact served_StringLiteral_0|]. constructor.
Qed.

Scheme gram_rec := Minimality for gram Sort Prop with gram_all_rec := Minimality for gram_all Sort Prop.
Combined Scheme gram_both from gram_rec, gram_all_rec.

Lemma gram_realized :
  (forall n w v, gram n w v -> Forall fine w -> realized n w v) /\
  (forall A l w f v, gram_all A l w f v -> seq_realized A l w f v).
Proof.
  apply gram_both.
  - intros s text _. reflexivity.
  - intros n l f w v I _ IH F. pose proof (rules_served n) as S. rewrite Forall_forall in S. exact (S _ I w v IH F).
  - intros A v. split; reflexivity.
  - intros A n l w w' x f v _ IH1 _ IH2. exists w, w', x. auto.
Qed.

(** ** The parser accepts exactly the grammar *)

Lemma trees_evaluate X t w : derives productions X t w -> Forall fine w -> exists v, ev t = Ret v.
Proof.
  intros D F. pose proof (proj1 tree_ok X t w D F) as H. destruct X as [a|n]; cbn [sym_ok] in H.
  - destruct H as (s & -> & _). eexists. reflexivity.
  - destruct (nth_error bindings n) as [[m inj]|]; [|destruct H]. destruct H as (x & E & _). eauto.
Qed.

Theorem sql_drive_correct (toks : list token) f :
  Forall (fun t : token => fst t < 83) toks -> Forall fine toks -> 17 * length toks + 2 <= f ->
  exists a, drive sym sql_shift sql_build sql_tables f [0] [] toks = Some (Ret a) /\
    (forall v, a = Accepted v -> exists s, v = Variant41 s) /\
    forall s, a = Accepted (Variant41 s) <-> gram GSqlStatement toks s.
Proof.
  intros V F L.
  destruct (lr_values sql_tables productions 61 sql_cert sql_tables_checked sym sql_shift sql_build fine trees_evaluate toks f V F L)
    as (a & E & C).
  exists a. split; [exact E|]. split.
  - intros v Ev. apply C in Ev as (t & D & Et). destruct (proj1 tree_ok _ _ _ D F) as (x & Ex & _). exists x. congruence.
  - intros s. split.
    + intros Ev. apply C in Ev as (t & D & Et). destruct (proj1 tree_ok _ _ _ D F) as (x & Ex & G). rewrite Ex in Et. injection Et as <-. exact G.
    + intros G. apply C. exact (proj1 gram_realized GSqlStatement toks s G F).
Qed.
