(** * The SQL grammar

    src/sql/parser.lalrpop:137-556 as a typed grammar: for each nonterminal its alternatives, each with the value it
    stands for. Independent of how the parser works. *)

From Coq Require Import Strings.String.
From Verif Require Import Base StrModel SqlNameModel SqlModel LrModel.
Local Open Scope list_scope.

(** The names of the terminals in the order of their numbers (src/sql/parser.rs:1656-1740 [__TERMINAL]). *)
Definition terminals : list string := [
  "!="; "("; ")"; "*"; "+"; ","; "-"; "."; "/"; "<"; "<="; "="; ">"; ">="; "ALL"; "AND"; "AS"; "ASC"; "ATTACH"; "BETWEEN"; "BY";
  "CASE"; "COLLATE"; "CROSS"; "CURRENT_DATE"; "CURRENT_TIME"; "CURRENT_TIMESTAMP"; "DATE"; "DELETE"; "DESC"; "DESCRIBE"; "DISTINCT";
  "ELSE"; "END"; "EXCEPT"; "EXPLAIN"; "FILE"; "FROM"; "FULL"; "GROUP"; "HAVING"; "IN"; "INNER"; "INSERT"; "INTERSECT"; "INTO"; "IS";
  "ISNULL"; "JOIN"; "LEFT"; "LIKE"; "LIMIT"; "NATURAL"; "NOT"; "NOTNULL"; "NULL"; "OFFSET"; "ON"; "OR"; "ORDER"; "OUTER"; "PLAN";
  "QUERY"; "RIGHT"; "SELECT"; "SET"; "TABLE"; "THEN"; "TIME"; "TIMESTAMP"; "UNION"; "UPDATE"; "USING"; "VALUES"; "WHEN"; "WHERE";
  "WITH"; "||"; "HEX_LIT"; "ID"; "NUMERIC_LIT_1"; "NUMERIC_LIT_2"; "STRING_LIT"]%string.

Fixpoint index_of (s : string) (l : list string) : nat :=
  match l with [] => 0 | s' :: l' => if String.eqb s s' then 0 else S (index_of s l') end.
Definition terminal (s : string) : nat := index_of s terminals.

(** [Tok s]: a token named [s]. [Opt n]: [n] or nothing. *)
Inductive nonterm : Type :=
| Tok (s : string) | Opt (n : nonterm)
| GSqlStatement | GQueryPlan | GStatement | GInsertStatement | GColumnNameList | GDeleteStatement | GUpdateStatement
| GAssignments | GAssignment | GSelectStatement | GTableExpressions | GCommonTableExpressionList | GCommonTableExpression
| GSelectCoreList | GCompoundOperator | GSelectCore | GSelectMode | GTupleList | GTuple | GResultColumns | GResultColumnList
| GResultColumn | GQualifiedIdentifier | GFromClause | GTableExpressionList | GTableExpression | GTableOrSubQuery
| GTableAlias | GJoinOperator | GJoinType | GJoinConstraint | GIdentifierList | GWhereClause | GGroupByClause
| GOrderByClause | GOrderingTermList | GOrderingTerm | GOrderingCollation | GOrderingDirection | GLimitClause
| GAttachStatement | GDescribeStatement | GSchemaName | GExpressionList | GPrimaryExpression | GUnaryExpression
| GMultiplicativeExpression | GAdditiveExpression | GComparativeExpression | GComplexExpression | GCaseExpression
| GWhenClauses | GWhenClause | GElseClause | GNotExpression | GAndExpression | GOrExpression | GExpression
| GLiteralValue | GIdentifier | GNumericLiteral | GStringLiteral.

(** The type of the values of a nonterminal; of a token its text. *)
Fixpoint ty (n : nonterm) : Type :=
  match n with
  | Tok _ => str
  | Opt m => option (ty m)
  | GSqlStatement => sql_statement
  | GQueryPlan => (str * str)
  | GStatement => statement
  | GInsertStatement => insert
  | GDeleteStatement => delete
  | GUpdateStatement => update
  | GAssignments => list (list name * expr)
  | GAssignment => list name * expr
  | GSelectStatement => select
  | GTableExpressions | GCommonTableExpressionList => list cte
  | GCommonTableExpression => cte
  | GSelectCoreList | GSelectCore => set_expr
  | GCompoundOperator => set_op
  | GSelectMode => select_mode
  | GTupleList => list (list expr)
  | GTuple | GExpressionList => list expr
  | GResultColumns => result_columns
  | GResultColumnList => list result_column
  | GResultColumn => result_column
  | GQualifiedIdentifier | GIdentifierList | GColumnNameList => list name
  | GFromClause | GTableExpressionList => list table_expr
  | GTableExpression | GTableOrSubQuery => table_expr
  | GTableAlias | GSchemaName | GIdentifier | GOrderingCollation => name
  | GJoinOperator => join_op
  | GJoinType => join_type
  | GJoinConstraint => join_constraint
  | GGroupByClause => list expr * option expr
  | GOrderByClause | GOrderingTermList => list (expr * option name * direction)
  | GOrderingTerm => expr * option name * direction
  | GOrderingDirection => direction
  | GLimitClause => expr * option expr
  | GAttachStatement => list name * str
  | GDescribeStatement => list name
  | GWhereClause | GPrimaryExpression | GUnaryExpression | GMultiplicativeExpression | GAdditiveExpression
  | GComparativeExpression | GComplexExpression | GCaseExpression | GElseClause | GNotExpression | GAndExpression
  | GOrExpression | GExpression => expr
  | GWhenClauses => list (expr * expr)
  | GWhenClause => expr * expr
  | GLiteralValue => literal
  | GNumericLiteral | GStringLiteral => str
  end%type.

Fixpoint arrows (l : list nonterm) (A : Type) : Type := match l with [] => A | n :: l' => ty n -> arrows l' A end.

(** An alternative: its right side and its value in terms of the values of the right side. *)
Definition rule (n : nonterm) : Type := {l : list nonterm & arrows l (ty n)}.
Notation "l ==> f" := (existT (fun l0 => arrows l0 _) l f) (at level 70).
Coercion Tok : string >-> nonterm.

Definition default {A : Type} (o : option A) (a : A) : A := match o with Some x => x | None => a end.
Definition not_ (e : expr) : expr := EUnary UNot e.
Definition is_null (e : expr) : expr := EUnary UIsNull e.

Definition rules (n : nonterm) : list (rule n) :=
  match n as n0 return list (rule n0) with
  | Tok _ => []
  | Opt m => [
      [] ==> None;
      [m] ==> Some]
  (* parser.lalrpop:137-142 *)
  | GSqlStatement => [
      [GStatement] ==> SqlStatement;
      [Tok "EXPLAIN"; Opt GQueryPlan; GStatement] ==> fun _ _ s => SqlExplain s;
      [GAttachStatement] ==> fun a => SqlAttach (fst a) (snd a);
      [GDescribeStatement] ==> SqlDescribe]
  | GQueryPlan => [
      [Tok "QUERY"; Tok "PLAN"] ==> fun q p => (q, p)]
  (* parser.lalrpop:144-149 *)
  | GStatement => [
      [GSelectStatement] ==> StSelect;
      [GInsertStatement] ==> StInsert;
      [GDeleteStatement] ==> StDelete;
      [GUpdateStatement] ==> StUpdate]
  (* parser.lalrpop:151-154 *)
  | GInsertStatement => [
      [Opt GTableExpressions; Tok "INSERT"; Tok "INTO"; GQualifiedIdentifier; Opt GColumnNameList; GSelectCore] ==>
        fun _ _ _ table columns source => {| i_table := table; i_columns := columns; i_source := source |}]
  (* parser.lalrpop:156-158 *)
  | GColumnNameList => [
      [Tok "("; GIdentifierList; Tok ")"] ==> fun _ ids _ => ids]
  (* parser.lalrpop:160-163 *)
  | GDeleteStatement => [
      [Opt GTableExpressions; Tok "DELETE"; Tok "FROM"; GQualifiedIdentifier; Opt GWhereClause] ==>
        fun _ _ _ table e => {| d_table := table; d_where := e |}]
  (* parser.lalrpop:165-169 *)
  | GUpdateStatement => [
      [Opt GTableExpressions; Tok "UPDATE"; GQualifiedIdentifier; Tok "SET"; GAssignments; Opt GWhereClause] ==>
        fun _ _ table _ assignments e => {| u_table := table; u_assignments := assignments; u_where := e |}]
  (* parser.lalrpop:171-174 *)
  | GAssignments => [
      [GAssignment] ==> fun a => [a];
      [GAssignments; Tok ","; GAssignment] ==> fun l _ a => l ++ [a]]
  (* parser.lalrpop:176-178 *)
  | GAssignment => [
      [GIdentifierList; Tok "="; GExpression] ==> fun columns _ e => (columns, e)]
  (* parser.lalrpop:180-195 *)
  | GSelectStatement => [
      [GTableExpressions; GSelectCoreList; Opt GOrderByClause; Opt GLimitClause] ==>
        fun ctes e order lim => Select ctes e (default order []) lim;
      [GSelectCoreList; Opt GOrderByClause; Opt GLimitClause] ==>
        fun e order lim => Select [] e (default order []) lim]
  (* parser.lalrpop:197-199 *)
  | GTableExpressions => [
      [Tok "WITH"; GCommonTableExpressionList] ==> fun _ l => l]
  (* parser.lalrpop:201-204 *)
  | GCommonTableExpressionList => [
      [GCommonTableExpression] ==> fun c => [c];
      [GCommonTableExpressionList; Tok ","; GCommonTableExpression] ==> fun l _ c => l ++ [c]]
  (* parser.lalrpop:206-217 *)
  | GCommonTableExpression => [
      [GIdentifier; Tok "AS"; Tok "("; GSelectStatement; Tok ")"] ==> fun id _ _ query _ => Cte id None query;
      [GIdentifier; Tok "("; GIdentifierList; Tok ")"; Tok "AS"; Tok "("; GSelectStatement; Tok ")"] ==>
        fun id _ columns _ _ _ query _ => Cte id (Some columns) query]
  (* parser.lalrpop:219-223 *)
  | GSelectCoreList => [
      [GSelectCore] ==> fun e => e;
      [GSelectCoreList; GCompoundOperator; GSelectCore] ==> fun l op r => SOp op l r]
  (* parser.lalrpop:225-230 *)
  | GCompoundOperator => [
      [Tok "UNION"] ==> fun _ => SUnion;
      [Tok "UNION"; Tok "ALL"] ==> fun _ _ => SUnionAll;
      [Tok "INTERSECT"] ==> fun _ => SIntersect;
      [Tok "EXCEPT"] ==> fun _ => SExcept]
  (* parser.lalrpop:232-238 *)
  | GSelectCore => [
      [Tok "SELECT"; GSelectMode; GResultColumns; Opt GWhereClause; Opt GGroupByClause] ==>
        fun _ mode columns e group => SQuery mode columns [] e group;
      [Tok "SELECT"; GSelectMode; GResultColumns; GFromClause; Opt GWhereClause; Opt GGroupByClause] ==>
        fun _ mode columns from e group => SQuery mode columns from e group;
      [Tok "VALUES"; GTupleList] ==> fun _ l => SValues l]
  (* parser.lalrpop:240-243 *)
  | GSelectMode => [
      [Opt (Tok "ALL")] ==> fun _ => MAll;
      [Tok "DISTINCT"] ==> fun _ => MDistinct]
  (* parser.lalrpop:245-248 *)
  | GTupleList => [
      [GTuple] ==> fun t => [t];
      [GTupleList; Tok ","; GTuple] ==> fun l _ t => l ++ [t]]
  (* parser.lalrpop:250-252 *)
  | GTuple => [
      [Tok "("; GExpressionList; Tok ")"] ==> fun _ l _ => l]
  (* parser.lalrpop:254-257 *)
  | GResultColumns => [
      [Tok "*"] ==> fun _ => RAll;
      [GResultColumnList] ==> RList]
  (* parser.lalrpop:259-262 *)
  | GResultColumnList => [
      [GResultColumn] ==> fun c => [c];
      [GResultColumnList; Tok ","; GResultColumn] ==> fun l _ c => l ++ [c]]
  (* parser.lalrpop:264-270 *)
  | GResultColumn => [
      [GExpression] ==> fun e => RExpr e None;
      [GExpression; Opt (Tok "AS"); GIdentifier] ==> fun e _ id => RExpr e (Some id);
      [GIdentifier; Tok "."; Tok "*"] ==> fun id _ _ => RAllFrom id]
  (* parser.lalrpop:272-276 *)
  | GQualifiedIdentifier => [
      [GIdentifier] ==> fun a => [a];
      [GIdentifier; Tok "."; GIdentifier] ==> fun a _ b => [a; b];
      [GIdentifier; Tok "."; GIdentifier; Tok "."; GIdentifier] ==> fun a _ b _ c => [a; b; c]]
  (* parser.lalrpop:278-280 *)
  | GFromClause => [
      [Tok "FROM"; GTableExpressionList] ==> fun _ l => l]
  (* parser.lalrpop:282-285 *)
  | GTableExpressionList => [
      [GTableExpression] ==> fun t => [t];
      [GTableExpressionList; Tok ","; GTableExpression] ==> fun l _ t => l ++ [t]]
  (* parser.lalrpop:287-291 *)
  | GTableExpression => [
      [GTableOrSubQuery] ==> fun t => t;
      [GTableExpression; GJoinOperator; GTableOrSubQuery; GJoinConstraint] ==> fun l op r c => TJoin l r op c]
  (* parser.lalrpop:293-299 *)
  | GTableOrSubQuery => [
      [GQualifiedIdentifier; Opt GTableAlias] ==> TNamed;
      [Tok "("; GSelectStatement; Tok ")"; Opt GTableAlias] ==> fun _ s _ alias => TSelect s alias;
      [Tok "("; GTableExpression; Tok ")"] ==> fun _ t _ => t]
  (* parser.lalrpop:301-303 *)
  | GTableAlias => [
      [Opt (Tok "AS"); GIdentifier] ==> fun _ id => id]
  (* parser.lalrpop:305-309 *)
  | GJoinOperator => [
      [Opt GJoinType; Tok "JOIN"] ==> fun t _ => JJoin (default t JInner);
      [Tok "NATURAL"; Opt GJoinType; Tok "JOIN"] ==> fun _ t _ => JNatural (default t JInner);
      [Tok "CROSS"; Tok "JOIN"] ==> fun _ _ => JCross]
  (* parser.lalrpop:311-316 *)
  | GJoinType => [
      [Tok "LEFT"; Opt (Tok "OUTER")] ==> fun _ _ => JLeft;
      [Tok "RIGHT"; Opt (Tok "OUTER")] ==> fun _ _ => JRight;
      [Tok "FULL"; Opt (Tok "OUTER")] ==> fun _ _ => JFull;
      [Tok "INNER"] ==> fun _ => JInner]
  (* parser.lalrpop:318-321 *)
  | GJoinConstraint => [
      [Tok "ON"; GExpression] ==> fun _ e => JExpr e;
      [Tok "USING"; Tok "("; GIdentifierList; Tok ")"] ==> fun _ _ ids _ => JColumns ids]
  (* parser.lalrpop:323-326 *)
  | GIdentifierList => [
      [GIdentifier] ==> fun id => [id];
      [GIdentifierList; Tok ","; GIdentifier] ==> fun l _ id => l ++ [id]]
  (* parser.lalrpop:328-330 *)
  | GWhereClause => [
      [Tok "WHERE"; GExpression] ==> fun _ e => e]
  (* parser.lalrpop:332-336 *)
  | GGroupByClause => [
      [Tok "GROUP"; Tok "BY"; GExpressionList] ==> fun _ _ l => (l, None);
      [Tok "GROUP"; Tok "BY"; GExpressionList; Tok "HAVING"; GExpression] ==> fun _ _ l _ e => (l, Some e)]
  (* parser.lalrpop:338-340 *)
  | GOrderByClause => [
      [Tok "ORDER"; Tok "BY"; GOrderingTermList] ==> fun _ _ l => l]
  (* parser.lalrpop:342-345 *)
  | GOrderingTermList => [
      [GOrderingTerm] ==> fun t => [t];
      [GOrderingTermList; Tok ","; GOrderingTerm] ==> fun l _ t => l ++ [t]]
  (* parser.lalrpop:347-350 *)
  | GOrderingTerm => [
      [GExpression; Opt GOrderingCollation; GOrderingDirection] ==> fun e collation d => (e, collation, d)]
  (* parser.lalrpop:352-354 *)
  | GOrderingCollation => [
      [Tok "COLLATE"; GIdentifier] ==> fun _ id => id]
  (* parser.lalrpop:356-359 *)
  | GOrderingDirection => [
      [Opt (Tok "ASC")] ==> fun _ => Ascending;
      [Tok "DESC"] ==> fun _ => Descending]
  (* parser.lalrpop:361-367 *)
  | GLimitClause => [
      [Tok "LIMIT"; GExpression] ==> fun _ rows => (rows, None);
      [Tok "LIMIT"; GExpression; Tok ","; GExpression] ==> fun _ rows _ offset => (rows, Some offset);
      [Tok "LIMIT"; GExpression; Tok "OFFSET"; GExpression] ==> fun _ rows _ offset => (rows, Some offset)]
  (* parser.lalrpop:369-372 *)
  | GAttachStatement => [
      [Tok "ATTACH"; Tok "FILE"; GStringLiteral; Tok "AS"; Opt GSchemaName; GIdentifier] ==>
        fun _ _ path _ schema id => (match schema with Some s => [s; id] | None => [id] end, path)]
  (* parser.lalrpop:374-377 *)
  | GDescribeStatement => [
      [Tok "DESCRIBE"; Opt GSchemaName; GIdentifier] ==>
        fun _ schema id => match schema with Some s => [s; id] | None => [id] end]
  (* parser.lalrpop:379-381 *)
  | GSchemaName => [
      [GIdentifier; Tok "."] ==> fun id _ => id]
  (* parser.lalrpop:387-390 *)
  | GExpressionList => [
      [GExpression] ==> fun e => [e];
      [GExpressionList; Tok ","; GExpression] ==> fun l _ e => l ++ [e]]
  (* parser.lalrpop:392-404 *)
  | GPrimaryExpression => [
      [Tok "("; GExpressionList; Tok ")"] ==> fun _ l _ => match l with [e] => e | _ => ETuple l end;
      [Tok "("; GSelectStatement; Tok ")"] ==> fun _ s _ => ESelect s;
      [GLiteralValue] ==> ELiteral;
      [GQualifiedIdentifier] ==> EName]
  (* parser.lalrpop:406-410 *)
  | GUnaryExpression => [
      [GPrimaryExpression] ==> fun e => e;
      [Tok "+"; GUnaryExpression] ==> fun _ e => e;
      [Tok "-"; GUnaryExpression] ==> fun _ e => EUnary UNegate e]
  (* parser.lalrpop:412-418 *)
  | GMultiplicativeExpression => [
      [GUnaryExpression] ==> fun e => e;
      [GMultiplicativeExpression; Tok "*"; GUnaryExpression] ==> fun l _ r => EBinary BMultiply l r;
      [GMultiplicativeExpression; Tok "/"; GUnaryExpression] ==> fun l _ r => EBinary BDivide l r]
  (* parser.lalrpop:420-428 *)
  | GAdditiveExpression => [
      [GMultiplicativeExpression] ==> fun e => e;
      [GAdditiveExpression; Tok "+"; GMultiplicativeExpression] ==> fun l _ r => EBinary BAdd l r;
      [GAdditiveExpression; Tok "-"; GMultiplicativeExpression] ==> fun l _ r => EBinary BSubtract l r;
      [GAdditiveExpression; Tok "||"; GMultiplicativeExpression] ==> fun l _ r => EBinary BConcat l r]
  (* parser.lalrpop:430-491 *)
  | GComparativeExpression => [
      [GAdditiveExpression] ==> fun e => e;
      [GComparativeExpression; Tok "="; GAdditiveExpression] ==> fun l _ r => ECompare CEqual l r;
      [GComparativeExpression; Tok "!="; GAdditiveExpression] ==> fun l _ r => ECompare CNotEqual l r;
      [GComparativeExpression; Tok "<"; GAdditiveExpression] ==> fun l _ r => ECompare CLess l r;
      [GComparativeExpression; Tok ">"; GAdditiveExpression] ==> fun l _ r => ECompare CGreater l r;
      [GComparativeExpression; Tok "<="; GAdditiveExpression] ==> fun l _ r => ECompare CLessEqual l r;
      [GComparativeExpression; Tok ">="; GAdditiveExpression] ==> fun l _ r => ECompare CGreaterEqual l r;
      [GComparativeExpression; Tok "IS"; Tok "NULL"] ==> fun l _ _ => is_null l;
      [GComparativeExpression; Tok "IS"; Tok "NOT"; Tok "NULL"] ==> fun l _ _ _ => not_ (is_null l);
      [GComparativeExpression; Tok "LIKE"; GAdditiveExpression] ==> fun l _ r => ECompare CLike l r;
      [GComparativeExpression; Tok "ISNULL"] ==> fun e _ => is_null e;
      [GComparativeExpression; Tok "NOTNULL"] ==> fun e _ => not_ (is_null e);
      [GComparativeExpression; Tok "NOT"; Tok "NULL"] ==> fun e _ _ => not_ (is_null e);
      [GComparativeExpression; Tok "IN"; Tok "("; Tok ")"] ==> fun e _ _ _ => EIn e (SpList []);
      [GComparativeExpression; Tok "NOT"; Tok "IN"; Tok "("; Tok ")"] ==> fun e _ _ _ _ => not_ (EIn e (SpList []));
      [GComparativeExpression; Tok "IN"; Tok "("; GExpressionList; Tok ")"] ==> fun e _ _ l _ => EIn e (SpList l);
      [GComparativeExpression; Tok "NOT"; Tok "IN"; Tok "("; GExpressionList; Tok ")"] ==>
        fun e _ _ _ l _ => not_ (EIn e (SpList l));
      [GComparativeExpression; Tok "IN"; Tok "("; GSelectStatement; Tok ")"] ==> fun e _ _ s _ => EIn e (SpSelect s);
      [GComparativeExpression; Tok "NOT"; Tok "IN"; Tok "("; GSelectStatement; Tok ")"] ==>
        fun e _ _ _ s _ => not_ (EIn e (SpSelect s));
      [GComparativeExpression; Tok "IN"; GQualifiedIdentifier] ==> fun e _ q => EIn e (SpName q);
      [GComparativeExpression; Tok "NOT"; Tok "IN"; GQualifiedIdentifier] ==> fun e _ _ q => not_ (EIn e (SpName q));
      [GComparativeExpression; Tok "BETWEEN"; GAdditiveExpression; Tok "AND"; GAdditiveExpression] ==>
        fun e _ lo _ hi => EBetween e lo hi;
      [GComparativeExpression; Tok "NOT"; Tok "BETWEEN"; GAdditiveExpression; Tok "AND"; GAdditiveExpression] ==>
        fun e _ _ lo _ hi => not_ (EBetween e lo hi)]
  (* parser.lalrpop:493-496 *)
  | GComplexExpression => [
      [GComparativeExpression] ==> fun e => e;
      [GCaseExpression] ==> fun e => e]
  (* parser.lalrpop:498-501 *)
  | GCaseExpression => [
      [Tok "CASE"; Opt GExpression; GWhenClauses; Opt GElseClause; Tok "END"] ==> fun _ e whens els _ => ECase e whens els]
  (* [WhenClause+] *)
  | GWhenClauses => [
      [GWhenClause] ==> fun x => [x];
      [GWhenClauses; GWhenClause] ==> fun l x => l ++ [x]]
  (* parser.lalrpop:503-505 *)
  | GWhenClause => [
      [Tok "WHEN"; GExpression; Tok "THEN"; GExpression] ==> fun _ guard _ body => (guard, body)]
  (* parser.lalrpop:507-509 *)
  | GElseClause => [
      [Tok "ELSE"; GExpression] ==> fun _ e => e]
  (* parser.lalrpop:511-514 *)
  | GNotExpression => [
      [GComplexExpression] ==> fun e => e;
      [Tok "NOT"; GComplexExpression] ==> fun _ e => not_ e]
  (* parser.lalrpop:516-520 *)
  | GAndExpression => [
      [GNotExpression] ==> fun e => e;
      [GAndExpression; Tok "AND"; GNotExpression] ==> fun l _ r => EBinary BAnd l r]
  (* parser.lalrpop:522-526 *)
  | GOrExpression => [
      [GAndExpression] ==> fun e => e;
      [GOrExpression; Tok "OR"; GAndExpression] ==> fun l _ r => EBinary BOr l r]
  (* parser.lalrpop:528-530 *)
  | GExpression => [
      [GOrExpression] ==> fun e => e]
  (* parser.lalrpop:536-546 *)
  | GLiteralValue => [
      [GNumericLiteral] ==> LNumeric;
      [GStringLiteral] ==> LString;
      [Tok "NULL"] ==> fun _ => LNull;
      [Tok "CURRENT_TIME"] ==> fun _ => LCurrentTime;
      [Tok "CURRENT_DATE"] ==> fun _ => LCurrentDate;
      [Tok "CURRENT_TIMESTAMP"] ==> fun _ => LCurrentTimestamp;
      [Tok "DATE"; GStringLiteral] ==> fun _ s => LDate s;
      [Tok "TIME"; GStringLiteral] ==> fun _ s => LTime s;
      [Tok "TIMESTAMP"; GStringLiteral] ==> fun _ s => LTimestamp s]
  (* parser.lalrpop:548 *)
  | GIdentifier => [
      [Tok "ID"] ==> fun s => s]
  (* parser.lalrpop:550-554 *)
  | GNumericLiteral => [
      [Tok "NUMERIC_LIT_1"] ==> fun s => s;
      [Tok "NUMERIC_LIT_2"] ==> fun s => s;
      [Tok "HEX_LIT"] ==> fun s => s]
  (* parser.lalrpop:556: without the quotes *)
  | GStringLiteral => [
      [Tok "STRING_LIT"] ==> fun s => removelast (tl s)]
  end.

(** [gram n w v]: the tokens [w] are a phrase of [n] with value [v]. *)
Inductive gram : forall n : nonterm, list token -> ty n -> Prop :=
| G_tok : forall s text, gram (Tok s) [(terminal s, text)] text
| G_rule : forall n l f w v, In (l ==> f) (rules n) -> gram_all (ty n) l w f v -> gram n w v
with gram_all : forall (A : Type) (l : list nonterm), list token -> arrows l A -> A -> Prop :=
| G_nil : forall A v, gram_all A [] [] v v
| G_cons : forall A n l w w' x f v, gram n w x -> gram_all A l w' (f x) v -> gram_all A (n :: l) (w ++ w') f v.
