(** * Property C79 *)

From Coq Require Import Strings.String.
From Verif Require Import Base SqlNameModel SqlModel SqlSpec SqlSafeSpec SqlStmtSpec SqlColumnsSpec SqlRules SqlExamples
  SqlMessageModel SqlBlame SqlMessageDrop SqlMessageTop.
Local Open Scope list_scope.
Local Open Scope string_scope.

(** The validation with messages is the validation of [SqlModel]. *)
Theorem validate_message_drop : forall up x s, drop (validate_say up x s) = validate up x s.
Proof. exact validate_drop. Qed.
Print Assumptions validate_message_drop.

(** What the message says is so, and nothing before it in the statement was wrong. *)
Theorem message_true : forall up db dflt s c, well_named up db ->
  validate_say up (set_context_new up db dflt) s = merr c -> sql_wrong up (catalog up db dflt) (uncatalogued up db dflt) s c.
Proof. intros up db dflt s c W. exact (blame_sound up db dflt W s c). Qed.
Print Assumptions message_true.

(** A statement against the rules has one such message, and it is the one reported. *)
Theorem message_exact : forall up db dflt s, well_named up db -> has_default up db dflt -> safe_sql s = true ->
  (forall c, validate_say up (set_context_new up db dflt) s = merr c <-> sql_wrong up (catalog up db dflt) (uncatalogued up db dflt) s c) /\
  (~ sql_typed up (catalog up db dflt) s <-> exists c, sql_wrong up (catalog up db dflt) (uncatalogued up db dflt) s c) /\
  (forall c c', sql_wrong up (catalog up db dflt) (uncatalogued up db dflt) s c ->
                sql_wrong up (catalog up db dflt) (uncatalogued up db dflt) s c' -> c = c').
Proof.
  intros up db dflt s W D S.
  exact (conj (fun c => blame_exact up db dflt W s c D S)
        (conj (blame_some up db dflt W s D S) (fun c c' => blame_one up db dflt W s c c' D S))).
Qed.
Print Assumptions message_exact.

(** [SELECT id + label FROM t WHERE nix], [SELECT id || 'a' FROM t], [UPDATE t SET id = NULL ...], [DELETE FROM nix]. *)
Example message_exact_ex :
  let say s := validate_say sx_up (set_context_new sx_up sx_db (lit "Main")) s in
  let two := SqlStatement (StSelect (sx_select (sx_query [RExpr (EBinary BAdd (sx_name "id") (sx_name "label")) None] [sx_from "t"] (Some (sx_name "nix"))))) in
  let text := SqlStatement (StSelect (sx_select (sx_query [RExpr (EBinary BConcat (sx_name "id") (sx_str "a")) None] [sx_from "t"] None))) in
  let twice := SqlStatement (StUpdate {| u_table := [lit "t"]; u_assignments := [([lit "id"; lit "ID"], sx_num "1")]; u_where := None |}) in
  let short := SqlStatement (StInsert {| i_table := [lit "t"]; i_columns := Some [lit "label"]; i_source := SValues [[sx_str "a"]] |}) in
  let nix := SqlStatement (StDelete {| d_table := [lit "nix"]; d_where := Some (sx_name "foo") |}) in
  well_named sx_up sx_db /\ has_default sx_up sx_db (lit "Main") /\
  safe_sql two = true /\ say two = merr (CUndefined (lit "nix")) /\
  safe_sql text = true /\ say text = merr CConcatText /\
  safe_sql twice = true /\ say twice = merr (CAssignedTwice (lit "ID")) /\
  safe_sql short = true /\ say short = merr (CMissing (lit "id")) /\
  safe_sql nix = true /\ say nix = merr (CNoTable (lit "nix")).
Proof.
  split; [repeat constructor|]. split; [eexists _, _; split; [left; reflexivity|vm_compute; reflexivity]|].
  vm_compute. auto 20.
Qed.

(** From the text one can tell what was wrong, unless a name has an apostrophe in it. *)
Theorem message_tells : forall debug c c', (forall q q', debug q = debug q' -> q = q') -> unquoted c -> unquoted c' ->
  message debug c = message debug c' -> c = c'.
Proof. exact message_one. Qed.
Print Assumptions message_tells.

Example message_tells_ex :
  unquoted (CNoAttribute (lit "a") (lit "b")) /\
  message (fun _ => []) (CNoAttribute (lit "a") (lit "b")) = lit "Name 'a' does not refer to an attribute of relation 'b'".
Proof.
  split; [|reflexivity]. repeat constructor; cbn; intuition discriminate.
Qed.

(** A column named twice in an INSERT is reported as not defined, although it is. *)
Theorem insert_message_refuted : exists up db dflt s n q attrs a, well_named up db /\
  validate_say up (set_context_new up db dflt) s = merr (CColumnUndefined n q) /\
  catalog up db dflt q attrs /\ column_of up attrs n a.
Proof. exact misleading. Qed.
Print Assumptions insert_message_refuted.

(** The list of common table expressions is read from the left; the first that has no type, or else the first with the
    name of an earlier one, is reported. *)
Theorem with_message_exact : forall up db dflt l c, initialize_say up db dflt l = merr c <->
  exists l1 d l2 x, l = (l1 ++ d :: l2)%list /\ initialize up db dflt l1 = ok x /\
    (infer_cte_say up x d = merr c \/
     (exists t, infer_cte up x d = ok t) /\ Exists (fun b => name_eqb up (cte_id d) (cte_id b) = true) l1 /\
     c = CDuplicateCommon (cte_id d)).
Proof. exact initialize_blames. Qed.
Print Assumptions with_message_exact.

Example with_message_exact_ex :
  let bad := Cte (lit "e") None (sx_select (SQuery MAll RAll [sx_from "nix"] None None)) in
  initialize_say sx_up sx_db (lit "main") (sx_ctes ++ sx_ctes)%list = merr (CDuplicateCommon (lit "c")) /\
  initialize_say sx_up sx_db (lit "main") (sx_ctes ++ bad :: sx_ctes)%list = merr (CNoTable (lit "nix")).
Proof. vm_compute. auto. Qed.
