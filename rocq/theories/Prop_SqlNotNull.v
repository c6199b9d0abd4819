(** * Property C83 *)

From Coq Require Import Strings.String.
From Verif Require Import Base SqlNameModel SqlModel SqlSpec SqlSafeSpec SqlColumnsSpec SqlRespell SqlRules SqlExamples SqlNotNullSpec SqlNotNull.
Local Open Scope list_scope.
Local Open Scope string_scope.

(** Columns become nullable: a query whose LIMIT and OFFSET mention no table is accepted as before. Its columns keep
    their names and types; some may be nullable now. *)
Theorem drop_not_null_query : forall up db db' dflt dflt' s r, well_named up db -> well_named up db' -> has_default up db' dflt' ->
  safe_select s = true -> limits_closed (parts_select s) ->
  tables_become looser (catalog up db dflt) (catalog up db' dflt') (tables_select s) ->
  infer_select up (set_context_new up db dflt) s = ok r ->
  exists r', infer_select up (set_context_new up db' dflt') s = ok r' /\ looser (r_attrs r) (r_attrs r').
Proof. intros up db db' dflt dflt' s r W W' D' S O H. exact (query_looser up db db' dflt dflt' W W' D' s r S H O). Qed.
Print Assumptions drop_not_null_query.

(** Columns become not null: a query without IN is accepted as before, its columns at most as nullable. *)
Theorem add_not_null_query : forall up db db' dflt dflt' s r, well_named up db -> well_named up db' -> has_default up db' dflt' ->
  safe_select s = true -> without_in (parts_select s) ->
  tables_become stricter (catalog up db dflt) (catalog up db' dflt') (tables_select s) ->
  infer_select up (set_context_new up db dflt) s = ok r ->
  exists r', infer_select up (set_context_new up db' dflt') s = ok r' /\ stricter (r_attrs r) (r_attrs r').
Proof. intros up db db' dflt dflt' s r W W' D' S O H. exact (query_stricter up db db' dflt dflt' W W' D' s r S H O). Qed.
Print Assumptions add_not_null_query.

(** The same for DELETE. *)
Theorem not_null_delete : forall up db db' dflt dflt' d, well_named up db -> well_named up db' -> has_default up db' dflt' ->
  safe_statement (StDelete d) = true ->
  limits_closed (parts_where (d_where d)) /\
    tables_become looser (catalog up db dflt) (catalog up db' dflt') (d_table d :: where_tables (d_where d)) \/
  without_in (parts_where (d_where d)) /\
    tables_become stricter (catalog up db dflt) (catalog up db' dflt') (d_table d :: where_tables (d_where d)) ->
  validate up (set_context_new up db dflt) (SqlStatement (StDelete d)) = ok tt ->
  validate up (set_context_new up db' dflt') (SqlStatement (StDelete d)) = ok tt.
Proof.
  intros up db db' dflt dflt' d W W' D' S [[O H]|[O H]].
  - exact (delete_looser_ok up db db' dflt dflt' W W' D' d S H O).
  - exact (delete_stricter_ok up db db' dflt dflt' W W' D' d S H O).
Qed.
Print Assumptions not_null_delete.

(** An INSERT is accepted as before when columns of its target become nullable, and columns of the tables it reads
    become not null. *)
Theorem not_null_insert : forall up db db' dflt dflt' i, well_named up db -> well_named up db' -> has_default up db' dflt' ->
  safe_statement (StInsert i) = true -> without_in (parts_set (i_source i)) ->
  tables_become looser (catalog up db dflt) (catalog up db' dflt') [i_table i] ->
  tables_become stricter (catalog up db dflt) (catalog up db' dflt') (tables_set (i_source i)) ->
  validate up (set_context_new up db dflt) (SqlStatement (StInsert i)) = ok tt ->
  validate up (set_context_new up db' dflt') (SqlStatement (StInsert i)) = ok tt.
Proof. intros up db db' dflt dflt' i W W' D' S O H1 H2. exact (insert_ok up db db' dflt dflt' W W' D' i S H1 H2 O). Qed.
Print Assumptions not_null_insert.

(** An UPDATE is accepted as before when its target is unchanged and columns of the tables in its subqueries become
    not null. *)
Theorem not_null_update : forall up db db' dflt dflt' u, well_named up db -> well_named up db' -> has_default up db' dflt' ->
  safe_statement (StUpdate u) = true ->
  without_in (flat_map (fun a => parts_expr (snd a)) (u_assignments u) ++ parts_where (u_where u)) ->
  tables_become eq (catalog up db dflt) (catalog up db' dflt') [u_table u] ->
  tables_become stricter (catalog up db dflt) (catalog up db' dflt')
    (flat_map (fun a => tables_expr (snd a)) (u_assignments u) ++ where_tables (u_where u)) ->
  validate up (set_context_new up db dflt) (SqlStatement (StUpdate u)) = ok tt ->
  validate up (set_context_new up db' dflt') (SqlStatement (StUpdate u)) = ok tt.
Proof. intros up db db' dflt dflt' u W W' D' S O H1 H2. exact (update_ok up db db' dflt dflt' W W' D' u S H1 H2 O). Qed.
Print Assumptions not_null_update.

(** Where NOT NULL constraints are dropped, or added, all tables are so related. *)
Theorem altered_tables : forall up db db' dflt qs,
  (not_null_dropped db db' -> tables_become looser (catalog up db dflt) (catalog up db' dflt) qs) /\
  (not_null_added db db' -> tables_become stricter (catalog up db dflt) (catalog up db' dflt) qs).
Proof. intros up db db' dflt qs. exact (conj (dropped_looser up db db' dflt qs) (added_stricter up db db' dflt qs)). Qed.
Print Assumptions altered_tables.

(** The tables [t] and [u]; the arguments say whether [id] and [label] of [t] are nullable. *)
Definition nn_db (id label : bool) : database :=
  [(lit "main", {| s_name := lit "main"; s_objects :=
     [(lit "t", OTable (sx_columns [sx_col "id" DNumeric id; sx_col "label" DVarchar label]) []);
      (lit "u", OTable (sx_columns [sx_col "id" DNumeric false; sx_col "name" DVarchar false]) [])] |})].
Definition nn_ctx (id label : bool) : set_context := set_context_new sx_up (nn_db id label) (lit "main").

(** [SELECT t.*, id + 1 AS n FROM t WHERE label = 'a' LIMIT 3] *)
Definition nn_query : select :=
  Select [] (SQuery MAll (RList [RAllFrom (lit "t"); RExpr (EBinary BAdd (sx_name "id") (sx_num "1")) (Some (lit "n"))])
               [sx_from "t"] (Some (ECompare CEqual (sx_name "label") (sx_str "a"))) None) [] (Some (sx_num "3", None)).

Definition nn_columns (o : res row_type) : option (list attribute) := match o with Ret (Ok r) => Some (r_attrs r) | _ => None end.

Example drop_not_null_query_ex :
  well_named sx_up (nn_db false true) /\ has_default sx_up (nn_db true true) (lit "main") /\
  not_null_dropped (nn_db false true) (nn_db true true) /\ not_null_added (nn_db false true) (nn_db false false) /\
  safe_select nn_query = true /\ limits_closed (parts_select nn_query) /\ without_in (parts_select nn_query) /\
  nn_columns (infer_select sx_up (nn_ctx false true) nn_query) =
    Some [sx_col "id" DNumeric false; sx_col "label" DVarchar true; sx_col "n" DNumeric false] /\
  nn_columns (infer_select sx_up (nn_ctx true true) nn_query) =
    Some [sx_col "id" DNumeric true; sx_col "label" DVarchar true; sx_col "n" DNumeric true] /\
  nn_columns (infer_select sx_up (nn_ctx false false) nn_query) =
    Some [sx_col "id" DNumeric false; sx_col "label" DVarchar false; sx_col "n" DNumeric false].
Proof.
  split; [repeat constructor|]. split; [eexists _, _; split; [left; reflexivity|reflexivity]|].
  split; [repeat constructor; cbn; auto|]. split; [repeat constructor; cbn; auto|]. split; [reflexivity|].
  split; [repeat constructor|]. split; [repeat constructor|]. vm_compute. auto.
Qed.

(** [INSERT INTO t (label, id) SELECT name, id FROM u]: nullability of the target may grow. *)
Example not_null_insert_ex :
  let i := {| i_table := [lit "t"]; i_columns := Some [lit "label"; lit "id"];
              i_source := sx_query [RExpr (sx_name "name") None; RExpr (sx_name "id") None] [sx_from "u"] None |} in
  safe_statement (StInsert i) = true /\ without_in (parts_set (i_source i)) /\
  tables_become looser (catalog sx_up (nn_db false true) (lit "main")) (catalog sx_up (nn_db true true) (lit "main")) [i_table i] /\
  validate sx_up (nn_ctx false true) (SqlStatement (StInsert i)) = ok tt /\
  validate sx_up (nn_ctx true true) (SqlStatement (StInsert i)) = ok tt.
Proof.
  intros i. split; [reflexivity|]. split; [repeat constructor|]. split; [|split; vm_compute; reflexivity].
  apply altered_tables. repeat constructor; cbn; auto.
Qed.

(** The conditions are needed. [SELECT label FROM t LIMIT (SELECT id FROM t)] is refused once [id] is nullable. *)
Theorem drop_not_null_limit_refuted : exists up db db' dflt s r, well_named up db /\ well_named up db' /\ has_default up db' dflt /\
  safe_select s = true /\ not_null_dropped db db' /\
  infer_select up (set_context_new up db dflt) s = ok r /\ infer_select up (set_context_new up db' dflt) s = err.
Proof.
  set (ids := sx_select (sx_query [RExpr (sx_name "id") None] [sx_from "t"] None)).
  set (s := Select [] (sx_query [RExpr (sx_name "label") None] [sx_from "t"] None) [] (Some (ESelect ids, None))).
  destruct (infer_select sx_up (nn_ctx false true) s) as [[r|]| |] eqn:E; try (vm_compute in E; discriminate).
  exists sx_up, (nn_db false true), (nn_db true true), (lit "main"), s, r.
  split; [repeat constructor|]. split; [repeat constructor|]. split; [eexists _, _; split; [left; reflexivity|reflexivity]|].
  split; [reflexivity|]. split; [repeat constructor; cbn; auto|]. split; [exact E|vm_compute; reflexivity].
Qed.
Print Assumptions drop_not_null_limit_refuted.

(** [SELECT id FROM t WHERE label IN ('a')] is refused once [label] is not null (a defect: see C34). *)
Theorem add_not_null_in_refuted : exists up db db' dflt s r, well_named up db /\ well_named up db' /\ has_default up db' dflt /\
  safe_select s = true /\ not_null_added db db' /\
  infer_select up (set_context_new up db dflt) s = ok r /\ infer_select up (set_context_new up db' dflt) s = err.
Proof.
  set (s := sx_select (sx_query [RExpr (sx_name "id") None] [sx_from "t"] (Some (EIn (sx_name "label") (SpList [sx_str "a"]))))).
  destruct (infer_select sx_up (nn_ctx false true) s) as [[r|]| |] eqn:E; try (vm_compute in E; discriminate).
  exists sx_up, (nn_db false true), (nn_db false false), (lit "main"), s, r.
  split; [repeat constructor|]. split; [repeat constructor|]. split; [eexists _, _; split; [left; reflexivity|reflexivity]|].
  split; [reflexivity|]. split; [repeat constructor; cbn; auto|]. split; [exact E|vm_compute; reflexivity].
Qed.
Print Assumptions add_not_null_in_refuted.

(** [UPDATE u SET id = (SELECT id FROM t)] is refused once [id] of [t] is nullable. *)
Theorem drop_not_null_update_refuted : exists up db db' dflt u, well_named up db /\ well_named up db' /\ has_default up db' dflt /\
  safe_statement (StUpdate u) = true /\ not_null_dropped db db' /\
  validate up (set_context_new up db dflt) (SqlStatement (StUpdate u)) = ok tt /\
  validate up (set_context_new up db' dflt) (SqlStatement (StUpdate u)) = err.
Proof.
  set (ids := sx_select (sx_query [RExpr (sx_name "id") None] [sx_from "t"] None)).
  exists sx_up, (nn_db false true), (nn_db true true), (lit "main"),
    {| u_table := [lit "u"]; u_assignments := [([lit "id"], ESelect ids)]; u_where := None |}.
  split; [repeat constructor|]. split; [repeat constructor|]. split; [eexists _, _; split; [left; reflexivity|reflexivity]|].
  split; [reflexivity|]. split; [repeat constructor; cbn; auto|]. split; vm_compute; reflexivity.
Qed.
Print Assumptions drop_not_null_update_refuted.
