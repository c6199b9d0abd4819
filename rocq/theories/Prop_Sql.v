(** * Properties C26 to C36 and C47 to C50: SQL names, types, validation and schemas *)

From Coq Require Import Strings.String.
From Coq Require Import Sorting.Permutation Sorting.Sorted.
From Verif Require Import Base SqlNameModel SqlModel SqlTypeSpec SqlSpec SqlSafeSpec SqlStmtSpec SqlColumnsSpec SqlFromSpec
  SqlScope SqlPanic SqlStmt SqlColumns SqlFrom SqlExamples SqlTop.
Local Open Scope list_scope.
Local Open Scope Z_scope.

(** In all statements [up] is an arbitrary table of upper-case forms. *)

(** ** C26 *)

Theorem names_equivalence : forall up,
  (forall a, name_eqb up a a = true) /\ (forall a b, name_eqb up a b = true -> name_eqb up b a = true) /\
  (forall a b c, name_eqb up a b = true -> name_eqb up b c = true -> name_eqb up a c = true) /\
  (forall a b, Forall2 (fun c d => up c = up d) a b -> name_eqb up a b = true) /\
  (forall a b, name_eqb up a b = true <-> flat_map up a = flat_map up b).
Proof. exact names_equivalence_lemma. Qed.
Print Assumptions names_equivalence.

Example names_equivalence_ex :
  name_eqb sx_up (lit "Label") (lit "lABEL") = true /\ name_eqb sx_up (lit "Label") (lit "labels") = false /\
  name_eqb sx_up [223] (lit "ss") = true.
Proof. vm_compute. auto. Qed.

Theorem names_order : forall up,
  (forall a b, name_cmp up a b = Eq <-> name_eqb up a b = true) /\
  (forall a b, name_cmp up b a = CompOpp (name_cmp up a b)) /\
  (forall a b c, name_cmp up a b = Lt -> name_cmp up b c = Lt -> name_cmp up a c = Lt) /\
  (forall a b c, name_eqb up a b = true -> name_cmp up a c = name_cmp up b c).
Proof. exact names_order_lemma. Qed.
Print Assumptions names_order.

Example names_order_ex :
  name_cmp sx_up (lit "B") (lit "a") = Gt /\ name_cmp sx_up (lit "a") (lit "AB") = Lt /\ name_cmp sx_up (lit "x") (lit "X") = Eq.
Proof. vm_compute. auto. Qed.

(** Any history [l] of insertions, and a removal. *)
Theorem names_as_keys : forall (V : Type) up (l : list (name * V)),
  distinct up (map fst (ncollect up l)) /\
  (forall k, Forall (fun e => name_eqb up k (fst e) = false) l -> nget up (ncollect up l) k = None) /\
  (forall l1 k v l2 k', l = l1 ++ (k, v) :: l2 -> Forall (fun e => name_eqb up k' (fst e) = false) l2 -> name_eqb up k' k = true ->
     nget up (ncollect up l) k' = Some v) /\
  (forall k k', nget up (nremove up (ncollect up l) k) k' = if name_eqb up k' k then None else nget up (ncollect up l) k').
Proof. exact names_as_keys_lemma. Qed.
Print Assumptions names_as_keys.

Example names_as_keys_ex :
  ncollect sx_up [(lit "b", 1); (lit "A", 2); (lit "B", 3)] = [(lit "A", 2); (lit "b", 3)] /\
  nget sx_up (ncollect sx_up [(lit "b", 1); (lit "A", 2); (lit "B", 3)]) (lit "B") = Some 3.
Proof. vm_compute. auto. Qed.

(** ** C27 *)

Theorem unify_laws : forall a b c,
  unify a b = unify b a /\ unify a a = Ok a /\
  match unify a b with Ok x => unify x c | Err e => Err e end = match unify b c with Ok x => unify a x | Err e => Err e end.
Proof. exact unify_laws_lemma. Qed.
Print Assumptions unify_laws.

Theorem unify_meaning : forall a b,
  (forall c, unify a b = Ok c <-> least_above a b c) /\ ((exists c, unify a b = Ok c) <-> joinable a b) /\
  ((exists n, is_compatible a b = Ok n) <-> joinable a b).
Proof. exact unify_meaning_lemma. Qed.
Print Assumptions unify_meaning.

Theorem nullability : 
  (forall t n u m c, unify (TyScalar t n) (TyScalar u m) = Ok c <-> t = u /\ c = TyScalar t (n || m)) /\
  (forall t n u m r, is_compatible (TyScalar t n) (TyScalar u m) = Ok r <-> t = u /\ r = n || m) /\
  (forall l1 l2 r, is_compatible (TyTuple l1) (TyTuple l2) = Ok r -> r = false).
Proof. exact nullability_lemma. Qed.
Print Assumptions nullability.

Example unify_ex :
  let a := TyTuple [TyScalar DNumeric false; TyTuple [TyScalar DVarchar true]] in
  let b := TyTuple [TyScalar DNumeric true; TyTuple [TyScalar DVarchar false]] in
  let c := TyTuple [TyScalar DNumeric true; TyTuple [TyScalar DVarchar true]] in
  unify a b = Ok c /\ is_compatible a b = Ok false /\ unify a (TyTuple [TyScalar DNumeric false]) = Err tt.
Proof. vm_compute. auto. Qed.

(** ** C28: evaluation of accepted expressions. [w] holds the operations of the data types, [en] the current rows. *)

Theorem evaluation_type : forall up w x rels y en e t,
  add_relations up [] rels = Ok y -> conforms rels en -> Forall (fun r => distinct up (map a_name (snd r))) rels ->
  plain true e = true -> infer up x y e = ok t ->
  eval up w en e = Arithmetic \/ exists v, eval up w en e = Val v /\ of_stype v t.
Proof. exact evaluation_type_lemma. Qed.
Print Assumptions evaluation_type.

Theorem evaluation_not_null : forall up w x rels y en e t v,
  add_relations up [] rels = Ok y -> conforms rels en -> Forall (fun r => distinct up (map a_name (snd r))) rels ->
  plain false e = true -> infer up x y e = ok (TyScalar t false) -> eval up w en e = Val v -> v <> VNull.
Proof. exact evaluation_not_null_lemma. Qed.
Print Assumptions evaluation_not_null.

Example evaluation_ex :
  add_relations sx_up [] sx_rels = Ok sx_syms /\ conforms sx_rels sx_env /\
  Forall (fun r => distinct sx_up (map a_name (snd r))) sx_rels /\
  plain false sx_expr = true /\ infer sx_up sx_ctx sx_syms sx_expr = ok (TyScalar DLogical true) /\
  eval sx_up sx_world sx_env sx_expr = Val VNull /\
  let e := ECompare CLess (sx_qname "t" "id") (sx_qname "X" "ID") in
  plain false e = true /\ infer sx_up sx_ctx sx_syms e = ok (TyScalar DLogical false) /\
  eval sx_up sx_world sx_env e = Val (VBool true).
Proof.
  split; [vm_compute; reflexivity|]. split; [exact sx_conforms|]. split; [repeat constructor|].
  split; [reflexivity|]. split; [vm_compute; reflexivity|]. split; [vm_compute; reflexivity|]. vm_compute. auto.
Qed.

(** With row values the nullability of a comparison is wrong. *)
Theorem evaluation_not_null_rows_refuted : exists up w x en e,
  plain true e = true /\ infer up x [] e = ok (TyScalar DLogical false) /\ eval up w en e = Val VNull.
Proof. exact row_comparison_null_lemma. Qed.
Print Assumptions evaluation_not_null_rows_refuted.

(** IS NULL and CASE break the type claim, IN breaks the nullability claim. *)
Theorem evaluation_is_null_refuted : exists up w x en e t,
  infer up x [] e = ok t /\ eval up w en e = TypeError /\ e = EBinary BAdd (EUnary UIsNull (sx_num "1")) (sx_num "1").
Proof. exact is_null_type_error_lemma. Qed.
Print Assumptions evaluation_is_null_refuted.

Theorem evaluation_case_refuted : exists up w x en e t,
  infer up x [] e = ok t /\ eval up w en e = TypeError /\ e = ECase None [(sx_num "1", sx_num "2")] None.
Proof. exact case_guard_type_error_lemma. Qed.
Print Assumptions evaluation_case_refuted.

Theorem evaluation_in_refuted : exists up w x rels y en e,
  add_relations up [] rels = Ok y /\ conforms rels en /\
  infer up x y e = ok (TyScalar DLogical false) /\ eval up w en e = Val VNull /\
  e = EIn (sx_name "label") (SpList [sx_str "a"]).
Proof. exact in_null_lemma. Qed.
Print Assumptions evaluation_in_refuted.

(** ** C29 *)

Theorem insert_accepted : forall up x i,
  validate_insert up x i = ok tt <->
  exists t v, resolve_table up x (i_table i) = ok t /\ infer_set up x (i_source i) = ok v /\
    storable up (r_attrs t) (match i_columns i with Some l => l | None => map a_name (r_attrs v) end) (r_attrs v).
Proof. exact insert_iff. Qed.
Print Assumptions insert_accepted.

Example insert_accepted_ex :
  validate_insert sx_up sx_ctx sx_insert = ok tt /\
  validate_insert sx_up sx_ctx {| i_table := i_table sx_insert; i_columns := Some [lit "label"; lit "LABEL"]; i_source := i_source sx_insert |} = err /\
  validate_insert sx_up sx_ctx {| i_table := i_table sx_insert; i_columns := Some [lit "label"; lit "done"]; i_source := i_source sx_insert |} = err.
Proof. vm_compute. auto. Qed.

(** The function [is_assignable_to], which nothing calls, makes the same test for a column. *)
Theorem assignable_meaning : forall a c, is_assignable_to a c = true <-> takes c (a_type a) (a_null a).
Proof. exact assignable_lemma. Qed.
Print Assumptions assignable_meaning.

Example assignable_meaning_ex :
  is_assignable_to (sx_col "a" DDate false) (sx_col "b" DDate true) = true /\
  is_assignable_to (sx_col "a" DDate true) (sx_col "b" DDate false) = false.
Proof. vm_compute. auto. Qed.

(** ** C30 *)

Theorem update_accepted : forall up x u,
  validate_update up x u = ok tt <->
  exists t q id y, resolve_table up x (u_table u) = ok t /\ u_table u = q ++ [id] /\
    add_relations up [] [(id, r_attrs t)] = Ok y /\
    assignable up (fun e d n => infer up x y e = ok (TyScalar d n)) (r_attrs t) (u_assignments u) /\
    condition up x y (u_where u).
Proof. exact update_iff. Qed.
Print Assumptions update_accepted.

Theorem delete_accepted : forall up x d,
  validate_delete up x d = ok tt <->
  exists t q id y, resolve_table up x (d_table d) = ok t /\ d_table d = q ++ [id] /\
    add_relations up [] [(id, r_attrs t)] = Ok y /\ condition up x y (d_where d).
Proof. exact delete_iff. Qed.
Print Assumptions delete_accepted.

Example update_delete_ex :
  validate_update sx_up sx_ctx sx_update = ok tt /\ validate_delete sx_up sx_ctx sx_delete = ok tt /\
  validate_update sx_up sx_ctx {| u_table := u_table sx_update; u_assignments := u_assignments sx_update ++ u_assignments sx_update;
                                  u_where := None |} = err /\
  validate_update sx_up sx_ctx {| u_table := u_table sx_update; u_assignments := [([lit "id"], sx_str "x")]; u_where := None |} = err /\
  validate_delete sx_up sx_ctx {| d_table := [lit "t"]; d_where := Some (sx_name "id") |} = err.
Proof. vm_compute. auto. Qed.

(** ** C31 *)

Theorem validation_returns : forall up x s, registered up x -> safe_sql s = true -> exists r, validate up x s = Ret r.
Proof. exact validate_returns. Qed.
Print Assumptions validation_returns.

Example validation_returns_ex :
  registered sx_up sx_ctx /\ safe_sql sx_statement = true /\ validate sx_up sx_ctx sx_statement = ok tt.
Proof. split; [discriminate|]. split; [vm_compute; reflexivity|vm_compute; reflexivity]. Qed.

Theorem validation_panics : forall up x y,
  (forall e t, infer up x y e = ok t -> infer up x y (EIn e (SpList [])) = Panic) /\
  infer_set up x (SValues []) = Panic /\
  (forall els, infer up x y (ECase None [] els) = Panic) /\
  (forall e t els, infer up x y e = ok t -> infer up x y (ECase (Some e) [] els) = Panic) /\
  (forall g r es t els, infer up x y g = Ret r -> infer up x y (ETuple es) = ok t ->
     infer up x y (ECase None [(g, ETuple es)] els) = Panic) /\
  (forall n, nget up (x_namespaces x) (x_default x) = None -> nget up (x_tables x) n = None -> resolve_table up x [n] = Panic).
Proof. exact validation_panics_lemma. Qed.
Print Assumptions validation_panics.

Example validation_panics_ex :
  infer sx_up sx_ctx sx_syms (ECase None [(sx_name "done", ETuple [sx_num "1"; sx_str "a"])] None) = Panic /\
  validate sx_up (set_context_new sx_up sx_db (lit "other")) (SqlDescribe [lit "t"]) = Panic /\
  validate sx_up sx_ctx (SqlStatement (StSelect (sx_select (SValues [])))) = Panic.
Proof. vm_compute. auto. Qed.

(** The guards of a CASE are visited in order: one that panics is reached if all before it are right, and nothing after a
    wrong one matters. *)
Theorem case_guard_panics : forall up x y whens1 g r whens2 els, infer up x y g = Panic ->
  (Forall (fun w => exists n, infer up x y (fst w) = ok (TyScalar DLogical n)) whens1 ->
   infer up x y (ECase None (whens1 ++ (g, r) :: whens2) els) = Panic) /\
  (forall e te, infer up x y e = ok te ->
   Forall (fun w => exists t, infer up x y (fst w) = ok t /\ is_compatible t te = Ok true) whens1 ->
   infer up x y (ECase (Some e) (whens1 ++ (g, r) :: whens2) els) = Panic).
Proof. exact guard_panics_lemma. Qed.
Print Assumptions case_guard_panics.

Theorem case_guard_hides : forall up x y whens1 s b rest rest' els, map snd rest = map snd rest' ->
  (infer up x y s = err \/ (exists t, infer up x y s = ok t /\ forall n, t <> TyScalar DLogical n) ->
   infer up x y (ECase None (whens1 ++ (s, b) :: rest) els) = infer up x y (ECase None (whens1 ++ (s, b) :: rest') els)) /\
  (forall e te, infer up x y e = ok te ->
   infer up x y s = err \/ (exists t, infer up x y s = ok t /\ is_compatible t te <> Ok true) ->
   infer up x y (ECase (Some e) (whens1 ++ (s, b) :: rest) els) = infer up x y (ECase (Some e) (whens1 ++ (s, b) :: rest') els)).
Proof. exact guard_hides_lemma. Qed.
Print Assumptions case_guard_hides.

(** A guard of a nullable type is compatible in the sense of the code, one of a type without NULL is not. *)
Example case_guard_ex :
  let bad := EIn (sx_num "1") (SpList []) in
  let null := ECase None [(sx_name "done", sx_num "1")] None in
  infer sx_up sx_ctx sx_syms bad = Panic /\
  infer sx_up sx_ctx sx_syms null = ok (TyScalar DNumeric true) /\
  infer sx_up sx_ctx sx_syms (ECase (Some (sx_num "1")) [(null, sx_num "1"); (bad, sx_num "2")] None) = Panic /\
  infer sx_up sx_ctx sx_syms (ECase (Some (sx_num "1")) [(sx_num "1", sx_num "1"); (bad, sx_num "2")] None)
    = ok (TyScalar DNumeric true) /\
  infer sx_up sx_ctx sx_syms (ECase None [(sx_name "done", sx_num "1"); (bad, sx_num "2")] None) = Panic /\
  infer sx_up sx_ctx sx_syms (ECase None [(sx_num "1", sx_num "1"); (bad, sx_num "2")] None) = ok (TyScalar DNumeric true).
Proof. vm_compute. repeat split; reflexivity. Qed.

(** ** C32 *)

Theorem select_list_columns : forall up x rels y attrs l rt,
  add_relations up [] rels = Ok y -> Forall (fun e => distinct up (map a_name (snd e))) rels ->
  infer_columns up x y attrs (RList l) = ok rt ->
  exists reqs, Forall2 (wanted up x y rels) l reqs /\
    labels up [] (map a_name (concat reqs)) (map a_name (r_attrs rt)) /\
    map (fun a => (a_type a, a_null a)) (r_attrs rt) = map (fun a => (a_type a, a_null a)) (concat reqs).
Proof. exact select_list_lemma. Qed.
Print Assumptions select_list_columns.

Theorem select_list_accepted : forall up x rels y attrs l,
  add_relations up [] rels = Ok y -> Forall (fun e => distinct up (map a_name (snd e))) rels ->
  ((exists rt, infer_columns up x y attrs (RList l) = ok rt) <-> exists reqs, Forall2 (wanted up x y rels) l reqs).
Proof. exact select_list_accepted_lemma. Qed.
Print Assumptions select_list_accepted.

Theorem select_all_columns : forall up x y attrs,
  exists rt, infer_columns up x y attrs RAll = ok rt /\
    labels up [] (map a_name attrs) (map a_name (r_attrs rt)) /\
    map (fun a => (a_type a, a_null a)) (r_attrs rt) = map (fun a => (a_type a, a_null a)) attrs.
Proof. exact select_all. Qed.
Print Assumptions select_all_columns.

Theorem labels_kept : forall up ns gs, labels up [] ns gs -> distinct up ns -> gs = ns.
Proof. exact pairwise_kept_lemma. Qed.
Print Assumptions labels_kept.

Theorem labels_shape : forall up ns gs, labels up [] ns gs ->
  Forall2 (fun n g => g = n \/ exists k s, decimal (S k) s /\ g = n ++ s) ns gs.
Proof. exact label_shape_lemma. Qed.
Print Assumptions labels_shape.

Example select_list_ex : exists rt,
  infer_columns sx_up sx_ctx sx_syms [] (RList [RAllFrom (lit "T"); RExpr (sx_num "7") (Some (lit "ID")); RExpr (sx_str "a") None;
    RExpr (sx_name "at") (Some (lit "id"))]) = ok rt /\
  map a_name (r_attrs rt) = [lit "done"; lit "id"; lit "label"; lit "ID1"; lit "col"; lit "id2"].
Proof. eexists. split; [vm_compute; reflexivity|vm_compute; reflexivity]. Qed.

Theorem labels_distinct_refuted : exists up x rt a b c,
  infer_columns up x [] [] (RList sx_labels) = ok rt /\ r_attrs rt = [a; b; c] /\ name_eqb up (a_name a) (a_name c) = true.
Proof. exact colliding_labels_lemma. Qed.
Print Assumptions labels_distinct_refuted.

(** ** C33 *)

Theorem set_operation_columns : forall up x op l r rt,
  infer_set up x (SOp op l r) = ok rt <->
  exists rl rr res, infer_set up x l = ok rl /\ infer_set up x r = ok rr /\
    merged (r_attrs rl) (r_attrs rr) res /\ rt = plain_row res.
Proof. exact set_operation. Qed.
Print Assumptions set_operation_columns.

Theorem values_columns : forall up x rows rt, infer_set up x (SValues rows) = ok rt ->
  (exists r rest, rows = r :: rest /\ List.length (r_attrs rt) = fold_left Nat.min (map (@List.length expr) rest) (List.length r)) /\
  forall i b, nth_error (r_attrs rt) i = Some b ->
    (exists k, a_name b = lit "_col" ++ k /\ (k = lit "0" /\ i = 0%nat \/ decimal i k)) /\
    Forall (fun row => exists e n, nth_error row i = Some e /\ infer up x [] e = ok (TyScalar (a_type b) n) /\ (n = true -> a_null b = true)) rows /\
    (a_null b = true -> Exists (fun row => exists e, nth_error row i = Some e /\ infer up x [] e = ok (TyScalar (a_type b) true)) rows).
Proof. exact values_lemma. Qed.
Print Assumptions values_columns.

Theorem values_excess_ignored : forall up x rows1 row extra rows2,
  (exists r0, In r0 rows1 /\ (List.length r0 <= List.length row)%nat) ->
  infer_set up x (SValues (rows1 ++ (row ++ extra) :: rows2)) = infer_set up x (SValues (rows1 ++ row :: rows2)).
Proof. exact values_excess_lemma. Qed.
Print Assumptions values_excess_ignored.

Example columns_ignored_ex :
  infer_set sx_up sx_ctx (SOp SUnion (SValues [[sx_num "1"; sx_str "a"]]) (SValues [[sx_num "2"]])) =
    ok (plain_row [sx_col "_col0" DNumeric false]) /\
  infer_set sx_up sx_ctx (SValues [[sx_num "1"; sx_str "a"]; [sx_num "2"; ELiteral (LString []); EName []]; [sx_num "3"]]) =
    ok (plain_row [sx_col "_col0" DNumeric false]) /\
  infer_set sx_up sx_ctx (SOp SUnion (SValues [[sx_num "1"]]) (SValues [[sx_str "2"]])) = err.
Proof. vm_compute. auto. Qed.

(** ** C34 *)

Theorem in_typing : forall up x y e s ty,
  infer up x y (EIn e s) = ok ty <->
  exists t n r a, infer up x y e = ok (TyScalar t n) /\ infer_spec up x y s = ok r /\ r_attrs r = [a] /\
    a_type a = t /\ (n = true \/ a_null a = true) /\ ty = TyScalar DLogical false.
Proof. exact in_iff. Qed.
Print Assumptions in_typing.

Theorem is_null_typing : forall up x y e ty,
  infer up x y (EUnary UIsNull e) = ok ty <-> exists d n, infer up x y e = ok (TyScalar d n) /\ ty = TyScalar d n.
Proof. exact is_null_iff. Qed.
Print Assumptions is_null_typing.

Theorem where_is_null : forall up x q e,
  validate_delete up x {| d_table := q; d_where := Some (EUnary UIsNull e) |} = ok tt ->
  exists t y null, resolve_table up x q = ok t /\ add_relations up [] [(last q [], r_attrs t)] = Ok y /\
    infer up x y e = ok (TyScalar DLogical null).
Proof. exact delete_is_null_lemma. Qed.
Print Assumptions where_is_null.

Example in_is_null_ex :
  infer sx_up sx_ctx sx_syms (EIn (sx_qname "t" "id") (SpList [sx_num "1"; sx_num "2"])) = err /\
  infer sx_up sx_ctx sx_syms (EIn (sx_name "label") (SpList [sx_str "a"])) = ok (TyScalar DLogical false) /\
  validate_delete sx_up sx_ctx {| d_table := [lit "t"]; d_where := Some (EUnary UIsNull (sx_name "label")) |} = err /\
  validate_delete sx_up sx_ctx {| d_table := [lit "t"]; d_where := Some (EUnary UIsNull (sx_name "done")) |} = ok tt.
Proof. vm_compute. auto. Qed.

(** ** C35 *)

Theorem with_invisible_in_from : forall up x ctes mode cols from wh group order lim rt,
  infer_select up x (Select ctes (SQuery mode cols from wh group) order lim) = ok rt ->
  Forall (fun q => exists t, resolve_table up x q = ok t) (flat_map from_names from).
Proof. exact with_invisible. Qed.
Print Assumptions with_invisible_in_from.

Theorem with_never_matters : forall up x ctes ctes' e order order' lim lim' rt rt',
  infer_select up x (Select ctes e order lim) = ok rt -> infer_select up x (Select ctes' e order' lim') = ok rt' -> rt = rt'.
Proof. exact with_same_lemma. Qed.
Print Assumptions with_never_matters.

Example with_ex :
  let c (q : string) := Cte (lit q) None (sx_select (SValues [[sx_num "1"]])) in
  infer_select sx_up sx_ctx (Select [c "c"%string] (sx_query [RExpr (sx_num "1") None] [sx_from "c"] None) [] None) = err /\
  (exists rt, infer_select sx_up sx_ctx (Select [c "t"%string] (SQuery MAll RAll [sx_from "t"] None None) [] None) = ok rt /\
              r_attrs rt = sx_t).
Proof. split; [vm_compute; reflexivity|]. eexists. split; [vm_compute; reflexivity|vm_compute; reflexivity]. Qed.

(** ** C36 *)

Theorem schema_history : forall up l, exists db rs,
  creates up database_new l = Ret (db, rs) /\ List.length rs = List.length l /\
  (forall l1 n l2, l = l1 ++ n :: l2 ->
     (nth_error rs (List.length l1) = Some (Ok tt) <-> Forall (fun m => name_eqb up n m = false) l1)) /\
  distinct up (map fst db) /\
  (forall k sc, In (k, sc) db <->
     (exists l1 l2, l = l1 ++ k :: l2 /\ Forall (fun m => name_eqb up k m = false) l1) /\ s_name sc = k /\ s_objects sc = []) /\
  (forall s o, describe up db s o = Err tt).
Proof. exact schema_history_lemma. Qed.
Print Assumptions schema_history.

Theorem schema_creation_step : forall up l db rs n,
  creates up database_new l = Ret (db, rs) ->
  exists db' r, create_schema up db n = Ret (db', r) /\
    (forall m, name_eqb up n m = false -> nget up db' m = nget up db m) /\ (r = Err tt -> db' = db).
Proof. exact create_schema_step_lemma. Qed.
Print Assumptions schema_creation_step.

Example schema_history_ex :
  creates sx_up database_new [lit "main"; lit "Aux"; lit "MAIN"; lit "b"] =
  Ret ([(lit "Aux", schema_new (lit "Aux")); (lit "b", schema_new (lit "b")); (lit "main", schema_new (lit "main"))],
       [Ok tt; Ok tt; Err tt; Ok tt]).
Proof. vm_compute. reflexivity. Qed.

(** ** C47: column references *)

Theorem scope_accepted : forall up rels, (exists y, add_relations up [] rels = Ok y) <-> distinct up (map fst rels).
Proof. exact add_relations_ok. Qed.
Print Assumptions scope_accepted.

Theorem unqualified_column : forall up rels y a t, add_relations up [] rels = Ok y ->
  (name_type up y [a] = Ok t <->
   Forall (fun r => name_eqb up a (fst r) = false) rels /\
   exists b, named up a (flat_map snd rels) = [b] /\ t = attr_type b).
Proof. exact unqualified. Qed.
Print Assumptions unqualified_column.

Theorem qualified_column : forall up rels y r a t, add_relations up [] rels = Ok y ->
  (name_type up y [r; a] = Ok t <->
   exists n attrs b, In (n, attrs) rels /\ name_eqb up r n = true /\
                     last_named up attrs b /\ name_eqb up a (a_name b) = true /\ t = attr_type b).
Proof. exact qualified. Qed.
Print Assumptions qualified_column.

Example column_reference_ex :
  add_relations sx_up [] sx_rels = Ok sx_syms /\
  name_type sx_up sx_syms [lit "At"] = Ok (TyScalar DTimestamp true) /\ name_type sx_up sx_syms [lit "id"] = Err tt /\
  name_type sx_up sx_syms [lit "X"; lit "ID"] = Ok (TyScalar DNumeric false) /\
  name_type sx_up (match add_relations sx_up [] [(lit "id", sx_t)] with Ok y => y | Err _ => [] end) [lit "id"] = Err tt.
Proof. vm_compute. auto. Qed.

(** ** C48: FROM clauses *)

Theorem query_accepted : forall up x mode cols from wh group rt,
  infer_set up x (SQuery mode cols from wh group) = ok rt <->
  exists rels attrs y, scopes_of up x from rels attrs /\ add_relations up [] rels = Ok y /\
    condition up x y wh /\ grouping up x y group /\ infer_columns up x y attrs cols = ok rt.
Proof. exact query_iff. Qed.
Print Assumptions query_accepted.

Example query_accepted_ex :
  let sub := TSelect (sx_select (SQuery MAll RAll [sx_from "u"] None None)) (Some (lit "s")) in
  let on := JExpr (sx_name "nonsense") in
  (exists rt, infer_set sx_up sx_ctx (SQuery MAll RAll [TJoin (sx_from "t") sub JCross on] None None) = ok rt /\
              r_attrs rt = sx_t ++ [sx_col "id1" DNumeric false; sx_col "at" DTimestamp true]) /\
  infer_set sx_up sx_ctx (sx_query [RExpr (sx_qname "s" "at") None] [sub] None) = err /\
  infer_set sx_up sx_ctx (SQuery MAll RAll [sx_from "t"; sx_from "T"] None None) = err.
Proof. split; [eexists; split; vm_compute; reflexivity|]. vm_compute. auto. Qed.

(** ** C49: contexts with common table expressions *)

Theorem with_context : forall up db dflt l x, initialize up db dflt l = ok x ->
  distinct up (map cte_id l) /\
  (forall l1 c l2, l = l1 ++ c :: l2 ->
     exists x1 t, initialize up db dflt l1 = ok x1 /\ infer_cte up x1 c = ok t /\ resolve_table up x [cte_id c] = ok t) /\
  (forall n, Forall (fun c => name_eqb up n (cte_id c) = false) l ->
     resolve_table up x [n] = resolve_table up (set_context_new up db dflt) [n] /\
     forall t, resolve_table up x [n; t] = resolve_table up (set_context_new up db dflt) [n; t]) /\
  (forall s t, Exists (fun c => name_eqb up s (cte_id c) = true) l -> resolve_table up x [s; t] = err).
Proof. exact with_context_lemma. Qed.
Print Assumptions with_context.

Example with_context_ex : exists x t,
  initialize sx_up sx_db (lit "main") sx_ctes = ok x /\ resolve_table sx_up x [lit "D"] = ok t /\
  r_attrs t = [sx_col "LABEL" DVarchar true] /\
  initialize sx_up sx_db (lit "main") (sx_ctes ++ sx_ctes) = err.
Proof. eexists _, _. split; [vm_compute; reflexivity|]. split; [vm_compute; reflexivity|]. split; [vm_compute; reflexivity|vm_compute; reflexivity]. Qed.

(** Nothing else can go wrong. *)
Theorem with_context_iff : forall up db dflt l, (exists x, initialize up db dflt l = ok x) <->
  distinct up (map cte_id l) /\
  (forall l1 c l2, l = l1 ++ c :: l2 -> exists x1 t, initialize up db dflt l1 = ok x1 /\ infer_cte up x1 c = ok t).
Proof. exact initialize_iff. Qed.
Print Assumptions with_context_iff.

Example with_context_iff_ex :
  (exists x, initialize sx_up sx_db (lit "main") sx_ctes = ok x) /\ distinct sx_up (map cte_id sx_ctes) /\
  (2 <= List.length sx_ctes)%nat.
Proof. split; [eexists; vm_compute; reflexivity|]. split; [|vm_compute; auto]. repeat constructor. Qed.

(** ** C50: column lists of common table expressions *)

Theorem with_column_list : forall up x id names q rt,
  infer_cte up x (Cte id (Some names) q) = ok rt <->
  exists r attrs, infer_select up x q = ok r /\
    Forall2 (fun n b => exists a, first_named up (r_attrs r) n a /\ b = {| a_name := n; a_type := a_type a; a_null := a_null a |}) names attrs /\
    rt = {| r_attrs := attrs; r_primary := r_primary r; r_order := r_order r |}.
Proof. exact cte_columns. Qed.
Print Assumptions with_column_list.

Example with_column_list_ex :
  let q := sx_select (SQuery MAll RAll [sx_from "t"] None None) in
  infer_cte sx_up sx_ctx (Cte (lit "c") (Some [lit "a"; lit "b"; lit "c"]) q) = err /\
  infer_cte sx_up sx_ctx (Cte (lit "c") (Some [lit "LABEL"; lit "id"; lit "label"]) q) =
    ok (plain_row [sx_col "LABEL" DVarchar true; sx_col "id" DNumeric false; sx_col "label" DVarchar true]).
Proof. vm_compute. auto. Qed.
