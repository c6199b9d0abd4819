(** * Property C74 *)

From Coq Require Import Strings.String.
From Verif Require Import Base SqlNameModel SqlModel SqlSpec SqlRules SqlRun SqlRunTop SqlExamples.
Local Open Scope list_scope.
Local Open Scope string_scope.

(** Whatever the data: an accepted query gives a table of the reported columns, fails for a reason that depends on the
    data, or hits an error in a part that is not checked. *)
Theorem query_result : forall up db dflt w stored count same_row arrange s r,
  well_named up db -> columns_differ up (catalog up db dflt) -> data_of (catalog up db dflt) stored ->
  covered_select up [] false true s = true -> infer_select up (set_context_new up db dflt) s = ok r ->
  run_select up w count same_row arrange stored s = Failed \/ run_select up w count same_row arrange stored s = Unchecked \/
  exists t, run_select up w count same_row arrange stored s = Done t /\ t_width t = List.length (r_attrs r) /\
    Forall (fun row => Forall2 (fun v a => of_type v (a_type a)) row (r_attrs r)) (t_rows t).
Proof. intros up db dflt w stored count same_row arrange s r W D S. exact (query_result_lemma up db dflt w stored count same_row arrange W D S s r). Qed.
Print Assumptions query_result.

(** Without CASE, joins, set operations and rows of different length nothing is left unchecked. *)
Theorem query_result_checked : forall up db dflt w stored count same_row arrange s r,
  well_named up db -> columns_differ up (catalog up db dflt) -> data_of (catalog up db dflt) stored ->
  covered_select up [] false false s = true -> infer_select up (set_context_new up db dflt) s = ok r ->
  run_select up w count same_row arrange stored s = Failed \/
  exists t, run_select up w count same_row arrange stored s = Done t /\ t_width t = List.length (r_attrs r) /\
    Forall (fun row => Forall2 (fun v a => of_type v (a_type a)) row (r_attrs r)) (t_rows t).
Proof. intros up db dflt w stored count same_row arrange s r W D S. exact (query_checked_lemma up db dflt w stored count same_row arrange W D S s r). Qed.
Print Assumptions query_result_checked.

(** Without outer joins, scalar subqueries, IN and row values the columns reported not null contain no NULL. *)
Theorem query_not_null : forall up db dflt w stored count same_row arrange s r t,
  well_named up db -> columns_differ up (catalog up db dflt) -> data_of (catalog up db dflt) stored ->
  covered_select up [] true true s = true -> infer_select up (set_context_new up db dflt) s = ok r ->
  run_select up w count same_row arrange stored s = Done t -> Forall (fun row => Forall2 cell row (r_attrs r)) (t_rows t).
Proof. intros up db dflt w stored count same_row arrange s r t W D S. exact (query_not_null_lemma up db dflt w stored count same_row arrange W D S s r t). Qed.
Print Assumptions query_not_null.

(** A query with UNION ALL, DISTINCT, CASE, LEFT JOIN, a subquery, GROUP BY and LIMIT; one without unchecked parts; one
    whose columns are not null. *)
Example query_result_ex :
  let checked := sx_select (sx_query [RExpr (sx_name "label") None] [sx_from "t"]
                   (Some (EIn (sx_name "label") (SpSelect (sx_select (SValues [[sx_str "a"]; [sx_str "b"]])))))) in
  let strict := sx_select (SQuery MAll RAll [TSelect (sx_select (sx_query [RExpr (EBinary BAdd (sx_name "id") (sx_num "1")) None]
                   [sx_from "t"] (Some (sx_name "done")))) None; sx_from "u"] None None) in
  well_named sx_up sx_db /\ columns_differ sx_up (catalog sx_up sx_db (lit "main")) /\
  data_of (catalog sx_up sx_db (lit "main")) (sq_stored sq_t sq_u) /\
  (covered_select sx_up [] false true sq_query = true /\
   (exists r, sq_infer sq_query = ok r /\ map a_type (r_attrs r) = [DVarchar; DNumeric]) /\
   sq_run sq_query = Done {| t_names := [Some (lit "l"); None]; t_width := 2; t_rows := [[sq_text "a"; sq_num "31"]; [sq_text "-"; sq_num "31"]; [sq_text "-"; VNull]] |}) /\
  (covered_select sx_up [] false false checked = true /\
   (exists r, sq_infer checked = ok r /\ map a_type (r_attrs r) = [DVarchar]) /\
   sq_run checked = Done {| t_names := [Some (lit "label")]; t_width := 1; t_rows := [[sq_text "a"]] |}) /\
  (covered_select sx_up [] true true strict = true /\
   (exists r, sq_infer strict = ok r /\ map a_null (r_attrs r) = [false; false; true]) /\
   sq_run strict = Done {| t_names := None :: map (fun a => Some (a_name a)) sx_u; t_width := 3; t_rows := map (cons (sq_num "11")) sq_u |}).
Proof.
  intros checked strict. split; [exact sq_well_named|]. split; [exact sq_differ|]. split; [exact (sq_data _ _ sq_t_ok sq_u_ok)|].
  split; [|split]; (split; [reflexivity|]; split; [eexists; split; vm_compute; reflexivity|vm_compute; reflexivity]).
Qed.

(** [WITH x (id) AS (SELECT id AS id FROM t) SELECT t.label, u.id FROM t NATURAL LEFT JOIN u ON t.id > 2 ORDER BY id LIMIT 2] and
    [SELECT t.id FROM t JOIN u USING (id)], with columns that are not null. *)
Example query_result_more :
  let cte := Cte (lit "x") (Some [lit "id"]) (sq_plain [RExpr (sx_name "id") (Some (lit "id"))] (sx_from "t")) in
  let natural := Select [cte]
    (sx_query [RExpr (sx_qname "t" "label") None; RExpr (sx_qname "u" "id") None]
       [TJoin (sx_from "t") (sx_from "u") (JNatural JLeft) (JExpr (ECompare CGreater (sx_qname "t" "id") (sx_num "2")))] None)
    [((sx_name "id", None), Ascending)] (Some (sx_num "2", None)) in
  let joined := sx_select (sx_query [RExpr (sx_qname "t" "id") None]
    [TJoin (sx_from "t") (sx_from "u") (JJoin JInner) (JColumns [lit "ID"])] None) in
  (covered_select sx_up [] false true natural = true /\
   (exists r, sq_infer natural = ok r /\ map a_type (r_attrs r) = [DVarchar; DNumeric]) /\
   sq_run natural = Done {| t_names := [Some (lit "label"); Some (lit "id")]; t_width := 2;
                            t_rows := [[sq_text "c"; sq_num "3"]; [VNull; VNull]] |}) /\
  (covered_select sx_up [] true true joined = true /\
   (exists r, sq_infer joined = ok r /\ map a_null (r_attrs r) = [false]) /\
   sq_run joined = Done {| t_names := [Some (lit "id")]; t_width := 1; t_rows := [[sq_num "2"]; [sq_num "3"]] |}).
Proof.
  intros cte natural joined.
  split; (split; [reflexivity|]; split; [eexists; split; vm_compute; reflexivity|vm_compute; reflexivity]).
Qed.

(** [*] counts the columns that a NATURAL join or USING makes one twice. *)
Theorem query_width_refuted : wrong_width sq_natural /\ wrong_width sq_using.
Proof.
  split; eexists _, _; (split; [vm_compute; reflexivity|]; split; [vm_compute; reflexivity|]; vm_compute; discriminate).
Qed.
Print Assumptions query_width_refuted.

(** A table given by WITH hides a stored table of its name when the query runs, but not when it is checked. *)
Theorem query_with_refuted : wrong_type sq_with.
Proof.
  eexists _, _, _, _, _. split; [vm_compute; reflexivity|]. split; [vm_compute; reflexivity|].
  split; [left; reflexivity|]. split; [left; reflexivity|]. cbn. intros [[=] _].
Qed.
Print Assumptions query_with_refuted.

(** The excluded constructs give results of other types: [r.*] is reported in another order than the columns have, IS
    NULL has the type of its operand. *)
Theorem query_result_refuted : wrong_type sq_star /\ wrong_type sq_is_null.
Proof.
  split.
  - eexists _, _, _, _, _. split; [vm_compute; reflexivity|]. split; [vm_compute; reflexivity|].
    split; [left; reflexivity|]. split; [left; reflexivity|]. cbn. intros [[=] _].
  - eexists _, _, _, _, _. split; [vm_compute; reflexivity|]. split; [vm_compute; reflexivity|].
    split; [left; reflexivity|]. split; [left; reflexivity|]. cbn. discriminate.
Qed.
Print Assumptions query_result_refuted.

(** The columns of an outer join, a scalar subquery without rows and IN are NULL although reported not null. *)
Theorem query_not_null_refuted : wrong_null sq_outer /\ wrong_null sq_scalar /\ wrong_null sq_in.
Proof.
  split; [|split].
  - eexists _, _, _, _. split; [vm_compute; reflexivity|]. split; [vm_compute; reflexivity|].
    split; [left; reflexivity|]. split; [left; reflexivity|]. reflexivity.
  - eexists _, _, _, _. split; [vm_compute; reflexivity|]. split; [vm_compute; reflexivity|].
    split; [left; reflexivity|]. split; [left; reflexivity|]. reflexivity.
  - eexists _, _, _, _. split; [vm_compute; reflexivity|]. split; [vm_compute; reflexivity|].
    split; [right; left; reflexivity|]. split; [left; reflexivity|]. reflexivity.
Qed.
Print Assumptions query_not_null_refuted.

(** Parts that are not checked do contain errors: a join condition that is a number, operands of different width. *)
Theorem query_checked_refuted : wrong_part sq_on /\ wrong_part sq_union.
Proof. split; eexists; split; vm_compute; reflexivity. Qed.
Print Assumptions query_checked_refuted.
