(** * Property C75 *)

From Coq Require Import Strings.String.
From Verif Require Import Base SqlNameModel SqlModel SqlSpec SqlRules SqlRun SqlRunTop SqlExec SqlExecProofs SqlExamples.
Local Open Scope string_scope.
Local Open Scope list_scope.

(** An accepted INSERT, UPDATE or DELETE, if it succeeds, leaves rows of the columns' types in its table and no NULL in
    a column that is not nullable. *)
Theorem statement_result : forall up db dflt w stored count same_row arrange s,
  well_named up db -> columns_differ up (catalog up db dflt) -> data_of (catalog up db dflt) stored ->
  covered_statement up s = true -> validate_statement up (set_context_new up db dflt) s = ok tt ->
  exists q attrs, target s = Some q /\ catalog up db dflt q attrs /\
    (change up w count same_row arrange stored s = Failed \/ change up w count same_row arrange stored s = Unchecked \/
     exists rows, change up w count same_row arrange stored s = Done rows /\ Forall (fun r => Forall2 cell r attrs) rows).
Proof. intros up db dflt w stored count same_row arrange s W D S. exact (statement_lemma up db dflt w stored count same_row arrange W D S s). Qed.
Print Assumptions statement_result.

(** So after any sequence of accepted statements all tables conform to their columns, and no statement on the way has a
    type error. *)
Theorem history_conforms : forall up db dflt w stored count same_row arrange l,
  well_named up db -> columns_differ up (catalog up db dflt) -> data_of (catalog up db dflt) stored ->
  Forall (fun s => covered_statement up s = true /\ validate_statement up (set_context_new up db dflt) s = ok tt) l ->
  data_of (catalog up db dflt) (history up dflt w count same_row arrange stored l) /\
  forall l1 s l2, l = l1 ++ s :: l2 ->
    let r := change up w count same_row arrange (history up dflt w count same_row arrange stored l1) s in r <> IllTyped /\ r <> Excluded.
Proof. intros up db dflt w stored count same_row arrange l W D S H. exact (history_lemma up db dflt w count same_row arrange W D stored l H S). Qed.
Print Assumptions history_conforms.

(** [INSERT INTO T (LABEL, id) SELECT label, id + 1 FROM t], [UPDATE main.t SET label = 'x', Done = id < 3 WHERE done],
    [DELETE FROM t WHERE NOT t.done]. *)
Example history_ex :
  let l := [StInsert sx_insert; StUpdate sx_update; StDelete sx_delete] in
  well_named sx_up sx_db /\ columns_differ sx_up (catalog sx_up sx_db (lit "main")) /\
  data_of (catalog sx_up sx_db (lit "main")) (sq_stored sq_t sq_u) /\
  Forall (fun s => covered_statement sx_up s = true /\ validate_statement sx_up (set_context_new sx_up sx_db (lit "main")) s = ok tt) l /\
  history sx_up (lit "main") sx_world sq_count sq_equal sq_arrange (sq_stored sq_t sq_u) l [lit "MAIN"; lit "t"] =
    Some (map a_name sx_t,
      [[sq_num "1"; sq_text "x"; VBool true]; [sq_num "3"; sq_text "c"; VNull];
       [sq_num "11"; sq_text "a"; VNull]; [sq_num "21"; VNull; VNull]; [sq_num "31"; sq_text "c"; VNull]]).
Proof.
  intros l. split; [exact sq_well_named|]. split; [exact sq_differ|]. split; [exact (sq_data _ _ sq_t_ok sq_u_ok)|].
  split; [repeat constructor|vm_compute; reflexivity].
Qed.

(** An INSERT without a column list is checked by the names of the source's columns, so values reach columns of other
    types: [INSERT INTO t SELECT label AS label, id AS id, done AS done FROM t]. *)
Theorem insert_by_position_refuted : exists rows r v a,
  let s := StInsert {| i_table := [lit "t"]; i_columns := None;
             i_source := sx_query (map (fun n => RExpr (sx_name n) (Some (lit n))) ["label"; "id"; "done"]) [sx_from "t"] None |} in
  validate_statement sx_up (set_context_new sx_up sx_db (lit "main")) s = ok tt /\
  change sx_up sx_world sq_count sq_equal sq_arrange (sq_stored sq_t sq_u) s = Done rows /\ In r rows /\
  In (v, a) (combine r sx_t) /\ ~ of_type v (a_type a).
Proof.
  eexists _, _, _, _. split; [vm_compute; reflexivity|]. split; [vm_compute; reflexivity|].
  split; [right; right; right; left; reflexivity|]. split; [left; reflexivity|]. cbn. intros [[=] _].
Qed.
Print Assumptions insert_by_position_refuted.

(** A scalar subquery brings NULL into a column that is not nullable: [UPDATE t SET id = (SELECT id FROM t WHERE id = 9)]. *)
Theorem update_not_null_refuted : exists rows r a,
  let s := StUpdate {| u_table := [lit "t"]; u_where := None;
             u_assignments := [([lit "id"], ESelect (sx_select (sx_query [RExpr (sx_name "id") None] [sx_from "t"]
                                  (Some (ECompare CEqual (sx_name "id") (sx_num "9"))))))] |} in
  validate_statement sx_up (set_context_new sx_up sx_db (lit "main")) s = ok tt /\
  change sx_up sx_world sq_count sq_equal sq_arrange (sq_stored sq_t sq_u) s = Done rows /\ In r rows /\
  In (VNull, a) (combine r sx_t) /\ a_null a = false.
Proof.
  eexists _, _, _. split; [vm_compute; reflexivity|]. split; [vm_compute; reflexivity|].
  split; [left; reflexivity|]. split; [left; reflexivity|reflexivity].
Qed.
Print Assumptions update_not_null_refuted.
