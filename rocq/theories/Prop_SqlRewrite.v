(** * Property C86 *)

From Coq Require Import Strings.String Sorting.Permutation.
From Verif Require Import Base SqlNameModel SqlModel SqlSpec SqlEval SqlSafeSpec SqlColumnsSpec SqlRules SqlExamples SqlRewriteSpec SqlRewriteTyped.
Local Open Scope list_scope.
Local Open Scope string_scope.

(** Validation gives the same answer for a statement written in another way. *)
Theorem rewritten_statement : forall up db dflt s s', well_named up db -> has_default up db dflt -> safe_sql s = true ->
  same_sql s s' -> validate up (set_context_new up db dflt) s' = validate up (set_context_new up db dflt) s.
Proof. intros up db dflt s s' W D S H. exact (sql_rewriting up db dflt W D s s' H S). Qed.
Print Assumptions rewritten_statement.

(** A query written in another way has the same columns, with the same names, types and nullability. *)
Theorem rewritten_query : forall up db dflt s s' attrs, well_named up db -> has_default up db dflt -> safe_select s = true ->
  same_select s s' ->
  ((exists r, infer_select up (set_context_new up db dflt) s = ok r /\ r_attrs r = attrs) <->
   (exists r, infer_select up (set_context_new up db dflt) s' = ok r /\ r_attrs r = attrs)).
Proof. intros up db dflt s s' attrs W D S H. exact (query_rewriting up db dflt W D s s' attrs H S). Qed.
Print Assumptions rewritten_query.

(** An expression written in another way has the same type in every scope. *)
Theorem rewritten_expression : forall up db dflt e e' rels y t, well_named up db -> has_default up db dflt -> safe e = true ->
  same_expr e e' -> add_relations up [] rels = Ok y ->
  (infer up (set_context_new up db dflt) y e = ok t <-> infer up (set_context_new up db dflt) y e' = ok t).
Proof. intros up db dflt e e' rels y t W D S H Sc. exact (expression_rewriting up db dflt W D e e' rels y t H S Sc). Qed.
Print Assumptions rewritten_expression.

(** [SELECT t.id FROM t, u WHERE NOT (t.id BETWEEN 1 AND u.id)] and
    [SELECT t.id FROM u CROSS JOIN t WHERE t.id < 1 OR t.id > u.id]. *)
Example rewritten_ex :
  let a := sx_select (sx_query [RExpr (sx_qname "t" "id") None] [sx_from "t"; sx_from "u"]
             (Some (EUnary UNot (EBetween (sx_qname "t" "id") (sx_num "1") (sx_qname "u" "id"))))) in
  let b := sx_select (sx_query [RExpr (sx_qname "t" "id") None] [TJoin (sx_from "u") (sx_from "t") JCross (JColumns [])]
             (Some (EBinary BOr (ECompare CLess (sx_qname "t" "id") (sx_num "1"))
                                (ECompare CGreater (sx_qname "t" "id") (sx_qname "u" "id"))))) in
  well_named sx_up sx_db /\ has_default sx_up sx_db (lit "main") /\ safe_select a = true /\ same_select a b /\
  exists r, infer_select sx_up (set_context_new sx_up sx_db (lit "main")) a = ok r /\ r_attrs r = [sx_col "col" DNumeric false].
Proof.
  intros a b. split; [repeat constructor|]. split; [eexists _, _; split; [left; reflexivity|vm_compute; reflexivity]|].
  split; [reflexivity|]. split; [|eexists; split; vm_compute; reflexivity].
  apply q_inside; [constructor| |constructor|constructor].
  eapply x_trans; [apply x_from, perm_swap|].
  apply x_inside; [apply l_list; repeat constructor| | |constructor].
  - apply f_sym. apply (f_cross [] []).
  - constructor. eapply e_trans; [apply e_unary, e_between|]. eapply e_trans; [apply e_dual; constructor|].
    apply e_binary; [|apply e_not; constructor]. eapply e_trans; [apply e_not; constructor|]. apply e_flip. constructor.
Qed.

(** Accepted, but not when written in another way. *)
Definition only_first (a b : select) : Prop :=
  let x := set_context_new sx_up sx_db (lit "main") in (exists r, infer_select sx_up x a = ok r) /\ infer_select sx_up x b = err.

Definition value_of (e : expr) : select := sx_select (sx_query [RExpr e None] [sx_from "t"] None).

(** Rewritings that do matter: [id = 1] and [id IN (1)]; a CASE without ELSE and with [ELSE NULL]; [CASE WHEN x = 1 ...]
    and [CASE x WHEN 1 ...] for an unknown [x]; [t] and [(SELECT * FROM t) AS t] in FROM; set operations of different width grouped
    in another way. *)
Theorem rewriting_refuted :
  only_first (value_of (ECompare CEqual (sx_name "id") (sx_num "1"))) (value_of (EIn (sx_name "id") (SpList [sx_num "1"]))) /\
  only_first (value_of (ECase None [(sx_name "done", sx_num "1")] None))
             (value_of (ECase None [(sx_name "done", sx_num "1")] (Some (ELiteral LNull)))) /\
  only_first (value_of (ECase None [(ECompare CEqual (sx_name "x") (sx_num "1"), sx_num "1")] None))
             (value_of (ECase (Some (sx_name "x")) [(sx_num "1", sx_num "1")] None)) /\
  only_first (value_of (sx_name "id"))
             (sx_select (sx_query [RExpr (sx_name "id") None]
                [TSelect (sx_select (SQuery MAll RAll [sx_from "t"] None None)) (Some (lit "t"))] None)) /\
  (let one := SValues [[sx_num "1"]] in
   let two := SValues [[sx_num "1"; sx_num "2"]] in
   let other := SValues [[sx_num "1"; sx_str "a"]] in
   only_first (sx_select (SOp SUnion (SOp SUnion one two) other)) (sx_select (SOp SUnion one (SOp SUnion two other)))).
Proof. repeat split; try (vm_compute; reflexivity); eexists; vm_compute; reflexivity. Qed.
Print Assumptions rewriting_refuted.
