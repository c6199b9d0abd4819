(** * Property C90 *)

From Coq Require Import Strings.String.
From Verif Require Import Base SqlNameModel SqlModel SqlRespell SqlExamples SqlGrowSpec SqlGrow.
Local Open Scope list_scope.
Local Open Scope string_scope.

(** Columns are added to tables: a query without wildcards, without a table as the set of an IN, and without columns of
    the new names is answered as before, whether accepted or not. *)
Theorem added_columns_query : forall up names db db' dflt s, columns_added up names db db' -> spares up names (uses_select s) ->
  infer_select up (set_context_new up db dflt) s = infer_select up (set_context_new up db' dflt) s.
Proof. exact query_grow. Qed.
Print Assumptions added_columns_query.

(** The same for every statement that is no INSERT. *)
Theorem added_columns_statement : forall up names db db' dflt s, columns_added up names db db' -> insert_of s = None ->
  spares up names (uses_of s) ->
  validate up (set_context_new up db dflt) s = validate up (set_context_new up db' dflt) s.
Proof. exact validate_grow. Qed.
Print Assumptions added_columns_statement.

(** An INSERT with a list of columns is answered as before when the added columns are nullable and new to their table. *)
Theorem added_columns_insert : forall up names db db' dflt s i l, null_columns_added up names db db' ->
  insert_of s = Some i -> i_columns i = Some l -> spares up names (uses_of s) ->
  validate up (set_context_new up db dflt) s = validate up (set_context_new up db' dflt) s.
Proof. exact validate_insert_grow. Qed.
Print Assumptions added_columns_insert.

(** Then every statement that was accepted still is, also an INSERT without a list of columns. *)
Theorem added_columns_accepted : forall up names db db' dflt s, null_columns_added up names db db' -> spares up names (uses_of s) ->
  validate up (set_context_new up db dflt) s = ok tt -> validate up (set_context_new up db' dflt) s = ok tt.
Proof. exact validate_ok_grow. Qed.
Print Assumptions added_columns_accepted.

(** The table [t] with more columns, and [u]. *)
Definition gr_db (more : list attribute) : database :=
  [(lit "main", {| s_name := lit "main"; s_objects :=
     [(lit "t", OTable (sx_columns (sx_col "id" DNumeric false :: more ++ [sx_col "label" DVarchar true])) []);
      (lit "u", OTable (sx_columns [sx_col "key" DNumeric false]) [])] |})].
Definition gr_ctx (more : list attribute) : set_context := set_context_new sx_up (gr_db more) (lit "main").
Definition gr_names : list name := [lit "Key"; lit "note"].
Definition gr_more : list attribute := [sx_col "note" DVarchar true; sx_col "KEY" DNumeric true].

Ltac gr_step :=
  lazymatch goal with
  | |- _ /\ _ => split
  | |- _ \/ _ => first [left; reflexivity|right; repeat constructor]
  | |- Forall2 _ _ _ => constructor
  | |- grown _ _ _ => vm_compute; first [apply grown_nil|apply grown_keep|apply grown_new]
  | |- _ = _ => reflexivity
  end.
Ltac gr_added := unfold columns_added, null_columns_added; repeat gr_step.

Definition gr_columns (o : res row_type) : option (list attribute) := match o with Ret (Ok r) => Some (r_attrs r) | _ => None end.

(** [SELECT id, t.label AS l FROM t, u WHERE t.id IN (SELECT id FROM t) ORDER BY ...]: two columns join [t], one of
    them named like the column of [u]. *)
Definition gr_query : select :=
  sx_select (sx_query [RExpr (sx_name "id") None; RExpr (EName [lit "t"; lit "label"]) (Some (lit "l"))] [sx_from "t"; sx_from "u"]
    (Some (ECompare CLess (EName [lit "T"; lit "id"])
             (ESelect (sx_select (sx_query [RExpr (sx_name "id") None] [sx_from "t"] None)))))).

Example added_columns_query_ex :
  columns_added sx_up gr_names (gr_db []) (gr_db gr_more) /\ null_columns_added sx_up [lit "note"] (gr_db []) (gr_db [sx_col "note" DVarchar true]) /\
  spares sx_up gr_names (uses_select gr_query) /\
  gr_columns (infer_select sx_up (gr_ctx []) gr_query) = Some [sx_col "col" DNumeric false; sx_col "l" DVarchar true] /\
  gr_columns (infer_select sx_up (gr_ctx gr_more) gr_query) = Some [sx_col "col" DNumeric false; sx_col "l" DVarchar true].
Proof.
  split; [|split; [|split; [|split; vm_compute; reflexivity]]].
  - gr_added.
  - gr_added.
  - apply spares_check. vm_compute. reflexivity.
Qed.

(** [INSERT INTO t (label, id) VALUES ('a', 1)] and [UPDATE t SET label = 'b'], with a nullable column more. *)
Definition gr_insert : sql_statement :=
  SqlStatement (StInsert {| i_table := [lit "t"]; i_columns := Some [lit "label"; lit "id"];
                            i_source := SValues [[sx_str "a"; sx_num "1"]] |}).
Definition gr_update : sql_statement :=
  SqlStatement (StUpdate {| u_table := [lit "t"]; u_assignments := [([lit "label"], sx_str "b")]; u_where := None |}).

Example added_columns_insert_ex :
  spares sx_up [lit "note"] (uses_of gr_insert) /\ spares sx_up [lit "note"] (uses_of gr_update) /\
  validate sx_up (gr_ctx []) gr_insert = ok tt /\ validate sx_up (gr_ctx [sx_col "note" DVarchar true]) gr_insert = ok tt /\
  validate sx_up (gr_ctx []) gr_update = ok tt /\ validate sx_up (gr_ctx [sx_col "note" DVarchar true]) gr_update = ok tt.
Proof.
  split; [|split; [|repeat split; vm_compute; reflexivity]];
    (apply spares_check; vm_compute; reflexivity).
Qed.

(** The conditions are needed. [SELECT * FROM t] has other columns, *)
Theorem added_columns_wildcard_refuted : exists up names db db' dflt s r r', null_columns_added up names db db' /\
  uses_select s = [UseAll] /\ infer_select up (set_context_new up db dflt) s = ok r /\
  infer_select up (set_context_new up db' dflt) s = ok r' /\ r_attrs r <> r_attrs r'.
Proof.
  exists sx_up, [lit "note"], (gr_db []), (gr_db [sx_col "note" DVarchar true]), (lit "main"),
    (sx_select (SQuery MAll RAll [sx_from "t"] None None)).
  eexists. eexists. split; [gr_added|]. split; [reflexivity|]. split; [vm_compute; reflexivity|]. split; [vm_compute; reflexivity|].
  discriminate.
Qed.
Print Assumptions added_columns_wildcard_refuted.

(** [SELECT key FROM t, u] becomes ambiguous, *)
Theorem added_columns_ambiguous_refuted : exists up names db db' dflt s r n, null_columns_added up names db db' /\
  uses_select s = [UseColumn [n]] /\ infer_select up (set_context_new up db dflt) s = ok r /\
  infer_select up (set_context_new up db' dflt) s = err.
Proof.
  exists sx_up, [lit "key"], (gr_db []), (gr_db [sx_col "key" DVarchar true]), (lit "main"),
    (sx_select (sx_query [RExpr (sx_name "key") None] [sx_from "t"; sx_from "u"] None)).
  eexists. eexists. split; [|split; [reflexivity|split; vm_compute; reflexivity]].
  gr_added.
Qed.
Print Assumptions added_columns_ambiguous_refuted.

(** [1 IN u] is refused once [u] has two columns, *)
Theorem added_columns_set_refuted : exists up names db db' dflt e q r, null_columns_added up names db db' /\
  spares up names (uses_expr e) /\
  infer up (set_context_new up db dflt) [] (EIn e (SpName q)) = ok r /\
  infer up (set_context_new up db' dflt) [] (EIn e (SpName q)) = err.
Proof.
  exists sx_up, [lit "more"],
    [(lit "main", {| s_name := lit "main"; s_objects := [(lit "u", OTable (sx_columns [sx_col "key" DNumeric true]) [])] |})],
    [(lit "main", {| s_name := lit "main"; s_objects := [(lit "u", OTable (sx_columns [sx_col "key" DNumeric true; sx_col "more" DNumeric true]) [])] |})],
    (lit "main"), (sx_num "1"), [lit "u"].
  eexists. split; [|split; [apply spares_check; reflexivity|split; vm_compute; reflexivity]].
  gr_added.
Qed.
Print Assumptions added_columns_set_refuted.

(** and an INSERT into a table with a NOT NULL column more is refused. *)
Theorem added_columns_not_null_refuted : exists up names db db' dflt s i l, columns_added up names db db' /\
  insert_of s = Some i /\ i_columns i = Some l /\ spares up names (uses_of s) /\
  validate up (set_context_new up db dflt) s = ok tt /\ validate up (set_context_new up db' dflt) s = err.
Proof.
  exists sx_up, [lit "note"], (gr_db []), (gr_db [sx_col "note" DVarchar false]), (lit "main"), gr_insert.
  eexists. eexists. split; [gr_added|]. split; [reflexivity|]. split; [reflexivity|].
  split; [apply added_columns_insert_ex|]. split; vm_compute; reflexivity.
Qed.
Print Assumptions added_columns_not_null_refuted.
