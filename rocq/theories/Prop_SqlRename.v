(** * Property C91 *)

From Coq Require Import Strings.String.
From Verif Require Import Base SqlNameModel SqlModel SqlRespell SqlExamples SqlRenameSpec SqlRename.
Local Open Scope list_scope.
Local Open Scope string_scope.

(** Names are replaced in a database and in a statement, different ones by different ones: the answer is the same. *)
Theorem renamed_statement : forall up f db dflt s, renaming up f -> simple s = true ->
  validate up (set_context_new up db dflt) s = validate up (set_context_new up (re_database f db) (f dflt)) (respell f s).
Proof. intros up f db dflt s Hf. exact (validate_rename up f Hf db dflt s). Qed.
Print Assumptions renamed_statement.

(** And the columns of a query have the same types in the same order. *)
Theorem renamed_query : forall up f db dflt s, renaming up f -> simple_select s = true ->
  match infer_select up (set_context_new up db dflt) s,
        infer_select up (set_context_new up (re_database f db) (f dflt)) (re_select f s) with
  | Ret (Ok t), Ret (Ok t') => column_types (r_attrs t') = column_types (r_attrs t)
  | Ret (Err _), Ret (Err _) | Panic, Panic | Undef, Undef => True
  | _, _ => False
  end.
Proof. intros up f db dflt s Hf. exact (query_rename up f Hf db dflt s). Qed.
Print Assumptions renamed_query.

(** Exchanging any two names is a renaming, so no name is special to such a statement. *)
Theorem exchanged_names : forall up a b db dflt s, simple s = true ->
  validate up (set_context_new up db dflt) s =
  validate up (set_context_new up (re_database (exchange up a b) db) (exchange up a b dflt)) (respell (exchange up a b) s).
Proof. intros up a b db dflt s. exact (validate_rename up _ (exchange_renaming up a b) db dflt s). Qed.
Print Assumptions exchanged_names.

(** In the same catalog, names it does not have (aliases) can be exchanged in the statement alone. *)
Theorem exchanged_aliases : forall up a b db dflt s, simple s = true ->
  Forall (fun n => name_eqb up n a = false /\ name_eqb up n b = false) (dflt :: catalog_names db) ->
  validate up (set_context_new up db dflt) s = validate up (set_context_new up db dflt) (respell (exchange up a b) s).
Proof. exact alias_rename. Qed.
Print Assumptions exchanged_aliases.

Definition rn_swap : name -> name := exchange sx_up (lit "ID") (lit "label").

(** [SELECT id, x.label FROM t AS x WHERE x.id < (SELECT id FROM t)]: [id] and [label] change places. *)
Definition rn_query : select :=
  sx_select (sx_query [RExpr (sx_name "id") None; RExpr (EName [lit "x"; lit "label"]) (Some (lit "l"))] [TNamed [lit "main"; lit "t"] (Some (lit "x"))]
    (Some (ECompare CLess (EName [lit "X"; lit "id"])
             (ESelect (sx_select (sx_query [RExpr (sx_name "id") None] [sx_from "t"] None)))))).

Definition rn_types (o : res row_type) : option (list (data_type * bool)) :=
  match o with Ret (Ok r) => Some (column_types (r_attrs r)) | _ => None end.

Example renamed_query_ex :
  renaming sx_up rn_swap /\ simple_select rn_query = true /\
  rn_types (infer_select sx_up (set_context_new sx_up sx_db (lit "main")) rn_query) = Some [(DNumeric, false); (DVarchar, true)] /\
  rn_types (infer_select sx_up (set_context_new sx_up (re_database rn_swap sx_db) (rn_swap (lit "main"))) (re_select rn_swap rn_query)) =
    Some [(DNumeric, false); (DVarchar, true)] /\
  rn_types (infer_select sx_up (set_context_new sx_up sx_db (lit "main")) (re_select rn_swap rn_query)) = Some [(DVarchar, true); (DNumeric, false)].
Proof. split; [apply exchange_renaming|]. repeat split; vm_compute; reflexivity. Qed.

Example renamed_statement_ex :
  simple (SqlStatement (StInsert sx_insert)) = true /\ simple (SqlExplain (StUpdate sx_update)) = true /\
  validate sx_up sx_ctx (SqlStatement (StInsert sx_insert)) = ok tt /\
  validate sx_up sx_ctx (respell rn_swap (SqlStatement (StInsert sx_insert))) = err /\
  validate sx_up (set_context_new sx_up (re_database rn_swap sx_db) (lit "Main")) (respell rn_swap (SqlStatement (StInsert sx_insert))) = ok tt /\
  validate sx_up (set_context_new sx_up (re_database rn_swap sx_db) (lit "Main")) (respell rn_swap (SqlExplain (StUpdate sx_update))) = ok tt.
Proof. repeat split; vm_compute; reflexivity. Qed.

Example exchanged_aliases_ex :
  Forall (fun n => name_eqb sx_up n (lit "x") = false /\ name_eqb sx_up n (lit "y") = false) (lit "main" :: catalog_names sx_db) /\
  validate sx_up sx_ctx (SqlStatement (StSelect rn_query)) = ok tt /\
  re_select (exchange sx_up (lit "x") (lit "y")) rn_query <> rn_query.
Proof. split; [vm_compute; repeat constructor|]. split; [vm_compute; reflexivity|]. vm_compute. discriminate. Qed.

(** The conditions are needed. [SELECT t.* FROM t UNION VALUES (1, 'a')] depends on the alphabet: the columns of [t.*]
    come in the order of their names, not in the order of the table. *)
Definition rn_db (a b : string) : database :=
  [(lit "main", {| s_name := lit "main"; s_objects := [(lit "t", OTable (sx_columns [sx_col a DNumeric false; sx_col b DVarchar false]) [])] |})].

Theorem renamed_wildcard_refuted : exists up f db dflt n e,
  renaming up f /\ simple_set e = true /\
  validate up (set_context_new up db dflt)
    (SqlStatement (StSelect (sx_select (SOp SUnion (SQuery MAll (RList [RAllFrom n]) [TNamed [n] None] None None) e)))) = ok tt /\
  validate up (set_context_new up (re_database f db) (f dflt))
    (respell f (SqlStatement (StSelect (sx_select (SOp SUnion (SQuery MAll (RList [RAllFrom n]) [TNamed [n] None] None None) e))))) = err.
Proof.
  exists sx_up, (exchange sx_up (lit "a") (lit "b")), (rn_db "a" "b"), (lit "main"), (lit "t"), (SValues [[sx_num "1"; sx_str "x"]]).
  split; [apply exchange_renaming|]. repeat split; vm_compute; reflexivity.
Qed.
Print Assumptions renamed_wildcard_refuted.

(** [WITH c (col) AS (SELECT a FROM t) ...]: a column without AS is named [col]. *)
Theorem renamed_with_refuted : exists up f db dflt n c q e,
  renaming up f /\ simple_select q = true /\ simple_set e = true /\
  validate up (set_context_new up db dflt) (SqlStatement (StSelect (Select [Cte n (Some [c]) q] e [] None))) = ok tt /\
  validate up (set_context_new up (re_database f db) (f dflt))
    (respell f (SqlStatement (StSelect (Select [Cte n (Some [c]) q] e [] None)))) = err.
Proof.
  exists sx_up, (exchange sx_up (lit "col") (lit "other")), (rn_db "a" "b"), (lit "main"), (lit "c"), (lit "col"),
    (sx_select (sx_query [RExpr (sx_name "a") None] [sx_from "t"] None)), (SValues [[sx_num "1"]]).
  split; [apply exchange_renaming|]. repeat split; vm_compute; reflexivity.
Qed.
Print Assumptions renamed_with_refuted.

(** [INSERT INTO t SELECT 1, 'x' AS b] fits a table only if a column of it is named [col]. *)
Theorem renamed_insert_refuted : exists up f db dflt i,
  renaming up f /\ simple_set (i_source i) = true /\
  validate up (set_context_new up db dflt) (SqlStatement (StInsert i)) = ok tt /\
  validate up (set_context_new up (re_database f db) (f dflt)) (respell f (SqlStatement (StInsert i))) = err.
Proof.
  exists sx_up, (exchange sx_up (lit "col") (lit "other")), (rn_db "col" "b"), (lit "main"),
    {| i_table := [lit "t"]; i_columns := None;
       i_source := sx_query [RExpr (sx_num "1") None; RExpr (sx_str "x") (Some (lit "b"))] [] None |}.
  split; [apply exchange_renaming|]. repeat split; vm_compute; reflexivity.
Qed.
Print Assumptions renamed_insert_refuted.
