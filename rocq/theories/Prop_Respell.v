(** * Properties C66 and C67: what validation does not depend on *)

From Coq Require Import Strings.String.
From Verif Require Import Base StrModel SqlNameModel SqlModel SqlRespell SqlRespellProofs SqlExamples.
Local Open Scope list_scope.
Local Open Scope Z_scope.

(** In all statements [up] is an arbitrary table of upper case letters. *)

(** C66: statements that differ only in the case of letters in names are accepted, refused or answered by a panic alike;
    the case of letters in the database and in the name of the default schema does not matter either. *)
Theorem validation_ignores_case : forall up db db' d d' s s', same_database up db db' -> name_eqb up d d' = true ->
  same_statement up s s' -> validate up (set_context_new up db d) s = validate up (set_context_new up db' d') s'.
Proof. exact validate_case. Qed.
Print Assumptions validation_ignores_case.

(** [WITH q AS (SELECT id FROM t) SELECT t.id AS n, t.* FROM main.t WHERE label LIKE 'x' ORDER BY 1] *)
Definition cx_query (q id t n main : string) : select :=
  Select [Cte (lit q) None (Select [] (SQuery MAll (RList [RExpr (EName [lit id]) None]) [TNamed [lit t] None] None None) [] None)]
    (SQuery MAll (RList [RExpr (EName [lit t; lit id]) (Some (lit n)); RAllFrom (lit t)]) [TNamed [lit main; lit t] None]
       (Some (ECompare CLike (EName [lit "label"]) (sx_str "x"))) None)
    [(sx_num "1", None, Ascending)] None.

Example validation_ignores_case_ex :
  let s := SqlStatement (StSelect (cx_query "q" "id" "t" "n" "main")) in
  let s' := SqlStatement (StSelect (cx_query "Q" "Id" "T" "N" "MAIN")) in
  same_statement sx_up s s' /\ s <> s' /\ validate sx_up (set_context_new sx_up sx_db (lit "Main")) s = ok tt /\
  same_database sx_up sx_db (re_database (upper sx_up) sx_db) /\ sx_db <> re_database (upper sx_up) sx_db /\
  name_eqb sx_up (lit "Main") (lit "mAIN") = true.
Proof.
  split; [vm_compute; reflexivity|]. split; [discriminate|]. split; [vm_compute; reflexivity|].
  split; [vm_compute; reflexivity|]. split; [vm_compute; discriminate|vm_compute; reflexivity].
Qed.

(** C66: the columns of a query are the same up to the case of their names. [cs] are common table expressions already in
    scope ([SetContext::initialize]). *)
Theorem columns_ignore_case : forall up db db' d d' cs cs' x q q', same_database up db db' -> name_eqb up d d' = true ->
  map (re_cte (upper up)) cs = map (re_cte (upper up)) cs' -> same_query up q q' -> initialize up db d cs = ok x ->
  exists x', initialize up db' d' cs' = ok x' /\
    match infer_select up x q, infer_select up x' q' with
    | Ret (Ok t), Ret (Ok t') => same_columns up (r_attrs t) (r_attrs t')
    | Ret (Err _), Ret (Err _) | Panic, Panic | Undef, Undef => True
    | _, _ => False
    end.
Proof. exact query_case. Qed.
Print Assumptions columns_ignore_case.

Definition cx_names (r : res row_type) : list name := match r with Ret (Ok t) => map a_name (r_attrs t) | _ => [] end.

Example columns_ignore_case_ex :
  same_query sx_up (cx_query "q" "id" "t" "id" "main") (cx_query "Q" "Id" "T" "Id" "MAIN") /\
  cx_names (infer_select sx_up sx_ctx (cx_query "q" "id" "t" "id" "main")) = [lit "id"; lit "done"; lit "id1"; lit "label"] /\
  cx_names (infer_select sx_up sx_ctx (cx_query "Q" "Id" "T" "Id" "MAIN")) = [lit "Id"; lit "done"; lit "id1"; lit "label"].
Proof. vm_compute. repeat split. Qed.

(** C67: validation looks at nothing in the database but the tables mentioned in the statement. *)
Theorem validation_frame : forall up x x' s,
  (forall q, In q (tables_of s) -> resolve_table up x q = resolve_table up x' q) -> validate up x s = validate up x' s.
Proof. exact validate_frame. Qed.
Print Assumptions validation_frame.

(** A database with a further schema and other views. *)
Definition cx_db : database :=
  [(lit "aux", {| s_name := lit "aux"; s_objects := [] |});
   (lit "main", {| s_name := lit "main"; s_objects := [(lit "t", OTable (sx_columns sx_t) []); (lit "z", OView [] [])] |})].

Example validation_frame_ex :
  let s := SqlStatement (StSelect (cx_query "q" "id" "t" "n" "main")) in
  tables_of s = [[lit "t"]; [lit "main"; lit "t"]] /\
  (forall q, In q (tables_of s) -> resolve_table sx_up sx_ctx q = resolve_table sx_up (set_context_new sx_up cx_db (lit "Main")) q) /\
  resolve_table sx_up sx_ctx [lit "u"] <> resolve_table sx_up (set_context_new sx_up cx_db (lit "Main")) [lit "u"].
Proof.
  cbn zeta. split; [vm_compute; reflexivity|]. split; [|vm_compute; discriminate].
  intros q Hq. vm_compute in Hq. destruct Hq as [<-|[<-|[]]]; vm_compute; reflexivity.
Qed.

(** C67: in particular a new schema that is neither the default one nor mentioned changes nothing. *)
Theorem new_schema_changes_nothing : forall up db db' d n s, create_schema up db n = Ret (db', Ok tt) -> name_eqb up d n = false ->
  (forall a t, In [a; t] (tables_of s) -> name_eqb up a n = false) ->
  validate up (set_context_new up db' d) s = validate up (set_context_new up db d) s.
Proof. exact validate_new_schema. Qed.
Print Assumptions new_schema_changes_nothing.

Example new_schema_changes_nothing_ex : exists db',
  create_schema sx_up sx_db (lit "aux") = Ret (db', Ok tt) /\ name_eqb sx_up (lit "Main") (lit "aux") = false /\
  validate sx_up (set_context_new sx_up sx_db (lit "Main")) (SqlStatement (StSelect (cx_query "q" "id" "t" "n" "main"))) = ok tt.
Proof. eexists. split; [vm_compute; reflexivity|]. split; vm_compute; reflexivity. Qed.
