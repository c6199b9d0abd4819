(** * Property C63 *)

From Coq Require Import Strings.String.
From Verif Require Import Base SqlNameModel SqlModel SqlSpec SqlEval SqlSafeSpec SqlColumnsSpec SqlRules SqlRulesTop SqlExamples.
Local Open Scope list_scope.
Local Open Scope string_scope.

(** What validation accepts is within the rules. *)
Theorem validation_sound : forall up db dflt s, well_named up db ->
  validate up (set_context_new up db dflt) s = ok tt -> sql_typed up (catalog up db dflt) s.
Proof. intros up db dflt s W. exact (sql_sound up db dflt W s). Qed.
Print Assumptions validation_sound.

(** It accepts all that is within the rules, and refuses the rest. *)
Theorem validation_exact : forall up db dflt s, well_named up db -> has_default up db dflt -> safe_sql s = true ->
  (validate up (set_context_new up db dflt) s = ok tt <-> sql_typed up (catalog up db dflt) s) /\
  (validate up (set_context_new up db dflt) s = err <-> ~ sql_typed up (catalog up db dflt) s).
Proof. intros up db dflt s W D S. exact (conj (sql_exact up db dflt W s D S) (sql_refused up db dflt W s D S)). Qed.
Print Assumptions validation_exact.

Example validation_exact_ex :
  let bad := SqlStatement (StSelect (sx_select (sx_query [RExpr (EBinary BAdd (sx_name "id") (sx_name "label")) None] [sx_from "t"] None))) in
  well_named sx_up sx_db /\ has_default sx_up sx_db (lit "Main") /\
  safe_sql sx_statement = true /\ validate sx_up (set_context_new sx_up sx_db (lit "Main")) sx_statement = ok tt /\
  safe_sql bad = true /\ validate sx_up (set_context_new sx_up sx_db (lit "Main")) bad = err.
Proof.
  split; [repeat constructor|]. split; [eexists _, _; split; [left; reflexivity|vm_compute; reflexivity]|].
  vm_compute. auto.
Qed.

(** An expression has exactly the type of the rules. *)
Theorem expression_typing : forall up db dflt rels y e t, well_named up db -> add_relations up [] rels = Ok y ->
  (infer up (set_context_new up db dflt) y e = ok t -> typed up (catalog up db dflt) rels e t) /\
  (has_default up db dflt -> safe e = true -> typed up (catalog up db dflt) rels e t -> infer up (set_context_new up db dflt) y e = ok t).
Proof.
  intros up db dflt rels y e t W Sc.
  exact (conj (expr_sound up db dflt W rels y e t Sc) (fun D S => proj2 (expr_exact up db dflt W rels y e t Sc D S))).
Qed.
Print Assumptions expression_typing.

(** A query has exactly the columns of the rules. *)
Theorem query_typing : forall up db dflt s attrs, well_named up db ->
  ((exists r, infer_select up (set_context_new up db dflt) s = ok r /\ r_attrs r = attrs) -> selects up (catalog up db dflt) s attrs) /\
  (has_default up db dflt -> safe_select s = true -> selects up (catalog up db dflt) s attrs ->
   exists r, infer_select up (set_context_new up db dflt) s = ok r /\ r_attrs r = attrs).
Proof.
  intros up db dflt s attrs W.
  exact (conj (query_sound up db dflt W s attrs) (fun D S => proj2 (query_exact up db dflt W s attrs D S))).
Qed.
Print Assumptions query_typing.

(** [(SELECT label FROM t)] in any scope, and [VALUES (1, 'a'), (2, NULL)]. *)
Example typing_ex :
  let sub := sx_select (sx_query [RExpr (sx_name "label") (Some (lit "l"))] [sx_from "t"] None) in
  let values := sx_select (SValues [[sx_num "1"; sx_str "a"]; [sx_num "2"; EBinary BConcat (ESelect sub) (sx_str "b")]]) in
  typed sx_up (catalog sx_up sx_db (lit "main")) sx_rels (ESelect sub) (TyScalar DVarchar true) /\
  selects sx_up (catalog sx_up sx_db (lit "main")) values [sx_col "_col0" DNumeric false; sx_col "_col1" DVarchar true].
Proof.
  assert (W : well_named sx_up sx_db) by repeat constructor.
  assert (D : has_default sx_up sx_db (lit "main")) by (eexists _, _; split; [left; reflexivity|vm_compute; reflexivity]).
  intros sub values. split.
  - apply (expression_typing sx_up sx_db (lit "main") sx_rels sx_syms _ _ W); vm_compute; reflexivity.
  - apply (query_typing sx_up sx_db (lit "main") _ _ W). eexists. split; vm_compute; reflexivity.
Qed.

(** The rules give an expression one type and a query one list of columns. *)
Theorem typing_unique : forall up db dflt, well_named up db -> has_default up db dflt ->
  (forall rels e t t', distinct up (map fst rels) -> safe e = true ->
     typed up (catalog up db dflt) rels e t -> typed up (catalog up db dflt) rels e t' -> t = t') /\
  (forall s attrs attrs', safe_select s = true ->
     selects up (catalog up db dflt) s attrs -> selects up (catalog up db dflt) s attrs' -> attrs = attrs').
Proof.
  intros up db dflt W D.
  exact (conj (fun rels e t t' Dr S => typed_fun up db dflt W rels e t t' Dr D S) (fun s a a' S => selects_fun up db dflt W s a a' D S)).
Qed.
Print Assumptions typing_unique.

(** Without [safe_sql] there are statements within the rules that make validation panic: the guards of a CASE. *)
Theorem validation_exact_refuted : exists up db dflt s, well_named up db /\ has_default up db dflt /\
  sql_typed up (catalog up db dflt) s /\ validate up (set_context_new up db dflt) s = Panic.
Proof. exact rules_unsafe. Qed.
Print Assumptions validation_exact_refuted.
