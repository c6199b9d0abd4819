(** * Running the accepted queries: the statements for the inference functions, and data of the examples *)

From Coq Require Import Strings.String.
From Verif Require Import Base StrModel SqlNameModel SqlModel SqlNameProofs SqlSpec SqlRules SqlRulesTop SqlRun SqlRunProofs SqlExamples.
Local Open Scope list_scope.
Local Open Scope string_scope.

Section Top.
Context (up : Z -> list Z) (db : database) (dflt : name) (w : world) (stored : store)
  (count : list Z -> nat) (same_row : row -> row -> bool) (arrange : list (expr * option name * direction) -> list row -> list nat).
Context (W : well_named up db) (D : columns_differ up (catalog up db dflt)) (S : data_of (catalog up db dflt) stored).

Lemma query_fine strict loose s r : covered_select up [] strict loose s = true -> infer_select up (set_context_new up db dflt) s = ok r ->
  fine loose (ok_table strict (r_attrs r)) (run_select up w count same_row arrange stored s).
Proof.
  intros C E. pose proof (run_sound up w count same_row arrange (catalog up db dflt) D) as (_ & _ & G & _).
  apply (G s [] stored); [|exact C|].
  { intros q attrs [T _]. exact (S q attrs T). } apply query_sound; [exact W|]. eauto.
Qed.

Lemma types_of attrs t : ok_table false attrs t ->
  t_width t = List.length attrs /\ Forall (fun row => Forall2 (fun v a => of_type v (a_type a)) row attrs) (t_rows t).
Proof.
  intros [H1 H2]. split; [exact H1|]. revert H2. apply Forall_impl. intros r Hr. clear -Hr.
  induction Hr as [|a v l r [V _] Hr IH]; [apply Forall2_nil|apply Forall2_cons; assumption].
Qed.

Lemma query_result_lemma s r : covered_select up [] false true s = true -> infer_select up (set_context_new up db dflt) s = ok r ->
  run_select up w count same_row arrange stored s = Failed \/ run_select up w count same_row arrange stored s = Unchecked \/
  exists t, run_select up w count same_row arrange stored s = Done t /\ t_width t = List.length (r_attrs r) /\
    Forall (fun row => Forall2 (fun v a => of_type v (a_type a)) row (r_attrs r)) (t_rows t).
Proof.
  intros C E. destruct (query_fine _ _ _ _ C E) as [(t & Et & Ht)|[Ef|[Eu _]]]; [|auto..].
  right. right. exists t. split; [exact Et|]. apply types_of. exact Ht.
Qed.

Lemma query_checked_lemma s r : covered_select up [] false false s = true -> infer_select up (set_context_new up db dflt) s = ok r ->
  run_select up w count same_row arrange stored s = Failed \/
  exists t, run_select up w count same_row arrange stored s = Done t /\ t_width t = List.length (r_attrs r) /\
    Forall (fun row => Forall2 (fun v a => of_type v (a_type a)) row (r_attrs r)) (t_rows t).
Proof.
  intros C E. destruct (query_fine _ _ _ _ C E) as [(t & Et & Ht)|[Ef|[_ [=]]]]; [|auto].
  right. exists t. split; [exact Et|]. apply types_of. exact Ht.
Qed.

Lemma query_not_null_lemma s r t : covered_select up [] true true s = true -> infer_select up (set_context_new up db dflt) s = ok r ->
  run_select up w count same_row arrange stored s = Done t -> Forall (fun row => Forall2 cell row (r_attrs r)) (t_rows t).
Proof.
  intros C E Et. destruct (query_fine _ _ _ _ C E) as [(t' & Et' & Ht)|[Ef|[Eu _]]]; [|congruence..].
  rewrite Et in Et'. injection Et' as <-. destruct Ht as [_ H]. revert H. apply Forall_impl. intros r0 Hr.
  induction Hr as [|a v l r0 [V N] Hr IH]; constructor; [split; auto|exact IH].
Qed.
End Top.

(** ** Example data: the tables of [sx_db] *)

Definition sq_stored (rows_t rows_u : list row) (q : list name) : option (list name * list row) :=
  if name_eqb sx_up (last q []) (lit "t") then Some (map a_name sx_t, rows_t)
  else if name_eqb sx_up (last q []) (lit "u") then Some (map a_name sx_u, rows_u)
  else None.

Definition sq_num (s : string) : value := VData DNumeric (lit s).
Definition sq_text (s : string) : value := VData DVarchar (lit s).

Definition sq_t : list row :=
  [[sq_num "1"; sq_text "a"; VBool true]; [sq_num "2"; VNull; VBool false]; [sq_num "3"; sq_text "c"; VNull]].
Definition sq_u : list row := [[sq_num "2"; VNull]; [sq_num "3"; VData DTimestamp []]].

Fixpoint sq_equal (a b : row) : bool :=
  match a, b with
  | [], [] => true
  | x :: a', y :: b' => match equal3 sx_world x y with Some (Some true) => sq_equal a' b' | _ => false end
  | _, _ => false
  end.

Definition sq_count (p : list Z) : nat := match p with [c] => Z.to_nat (c - 48) | _ => 0 end.

Lemma sq_schema n attrs : in_schema sx_up sx_db (lit "main") n attrs ->
  (name_eqb sx_up n (lit "t") = true /\ attrs = sx_t) \/ (name_eqb sx_up n (lit "u") = true /\ attrs = sx_u).
Proof.
  intros (s' & sc & n' & o & H1 & _ & H2 & H3 & ->). destruct H1 as [[= <- <-]|[]]. cbn in H2.
  destruct H2 as [[= <- <-]|[[= <- <-]|[]]]; [left|right]; auto.
Qed.

Lemma sq_catalog q attrs : catalog sx_up sx_db (lit "main") q attrs ->
  (name_eqb sx_up (last q []) (lit "t") = true /\ attrs = sx_t) \/ (name_eqb sx_up (last q []) (lit "u") = true /\ attrs = sx_u).
Proof.
  destruct q as [|a [|b [|c q]]]; try contradiction; cbn [catalog last].
  - apply sq_schema.
  - intros (s' & sc & n' & o & H1 & _ & H2 & H3 & ->). destruct H1 as [[= <- <-]|[]]. cbn in H2.
    destruct H2 as [[= <- <-]|[[= <- <-]|[]]]; [left|right]; auto.
Qed.

Lemma sq_differ : columns_differ sx_up (catalog sx_up sx_db (lit "main")).
Proof. intros q attrs H. apply sq_catalog in H as [[_ ->]|[_ ->]]; repeat constructor. Qed.

Lemma sq_data rows_t rows_u : Forall (fun r => Forall2 cell r sx_t) rows_t -> Forall (fun r => Forall2 cell r sx_u) rows_u ->
  data_of (catalog sx_up sx_db (lit "main")) (sq_stored rows_t rows_u).
Proof.
  intros Ht Hu q attrs H. unfold sq_stored. apply sq_catalog in H as [[E ->]|[E ->]].
  - rewrite E. exists rows_t. auto.
  - rewrite (name_eqb_congr_l sx_up _ _ (lit "t") E), E.
    change (name_eqb sx_up (lit "u") (lit "t")) with false. cbv iota. exists rows_u. auto.
Qed.

Ltac cells := repeat constructor; cbn; try discriminate.

Lemma sq_t_ok : Forall (fun r => Forall2 cell r sx_t) sq_t.
Proof. cells. Qed.

Lemma sq_u_ok : Forall (fun r => Forall2 cell r sx_u) sq_u.
Proof. cells. Qed.

Lemma sq_well_named : well_named sx_up sx_db.
Proof. repeat constructor. Qed.

(** For ORDER BY: the other way round. *)
Definition sq_arrange (_ : list (expr * option name * direction)) (l : list row) : list nat := rev (seq 0 (List.length l)).

Definition sq_run : select -> reply table := run_select sx_up sx_world sq_count sq_equal sq_arrange (sq_stored sq_t sq_u).
Definition sq_infer : select -> res row_type := infer_select sx_up (set_context_new sx_up sx_db (lit "main")).

(** [SELECT DISTINCT CASE WHEN done THEN label ELSE '-' END AS l, x.id + 1 FROM t LEFT JOIN main.u AS x ON T.id < x.id
    WHERE done OR (SELECT label FROM t WHERE id = 3) > 'b' GROUP BY t.id, x.id
    UNION ALL VALUES ('v', 9) LIMIT 3 OFFSET 1] *)
Definition sq_query : select :=
  Select [] (SOp SUnionAll
    (SQuery MDistinct
       (RList [RExpr (ECase None [(sx_name "done", sx_name "label")] (Some (sx_str "-"))) (Some (lit "l"));
               RExpr (EBinary BAdd (sx_qname "x" "id") (sx_num "1")) None])
       [TJoin (sx_from "t") (TNamed [lit "main"; lit "u"] (Some (lit "x"))) (JJoin JLeft)
          (JExpr (ECompare CLess (sx_qname "T" "id") (sx_qname "x" "id")))]
       (Some (EBinary BOr (sx_name "done") (ECompare CGreater (ESelect (sx_select (sx_query [RExpr (sx_name "label") None] [sx_from "t"]
                (Some (ECompare CEqual (sx_name "id") (sx_num "3")))))) (sx_str "b"))))
       (Some ([sx_qname "t" "id"; sx_qname "x" "id"], None)))
    (SValues [[sx_str "v"; sx_num "9"]]))
  [] (Some (sx_num "3", Some (sx_num "1"))).

Definition sq_plain (cols : list result_column) (from : table_expr) : select := sx_select (sx_query cols [from] None).

(** [SELECT t.* FROM t] *)
Definition sq_star : select := sq_plain [RAllFrom (lit "t")] (sx_from "t").
(** [SELECT label IS NULL FROM t] *)
Definition sq_is_null : select := sq_plain [RExpr (EUnary UIsNull (sx_name "label")) None] (sx_from "t").
(** [SELECT x.id FROM t LEFT JOIN u AS x ON t.id = x.id] *)
Definition sq_outer : select :=
  sq_plain [RExpr (sx_qname "x" "id") None]
    (TJoin (sx_from "t") (TNamed [lit "u"] (Some (lit "x"))) (JJoin JLeft) (JExpr (ECompare CEqual (sx_qname "t" "id") (sx_qname "x" "id")))).
(** [SELECT (SELECT id FROM t WHERE id = 9) FROM t] *)
Definition sq_scalar : select :=
  sq_plain [RExpr (ESelect (sx_select (sx_query [RExpr (sx_name "id") None] [sx_from "t"] (Some (ECompare CEqual (sx_name "id") (sx_num "9")))))) None]
    (sx_from "t").
(** [SELECT label IN ('z') FROM t] *)
Definition sq_in : select := sq_plain [RExpr (EIn (sx_name "label") (SpList [sx_str "z"])) None] (sx_from "t").
(** [SELECT t.id FROM t JOIN u AS x ON t.id] *)
Definition sq_on : select :=
  sq_plain [RExpr (sx_qname "t" "id") None]
    (TJoin (sx_from "t") (TNamed [lit "u"] (Some (lit "x"))) (JJoin JInner) (JExpr (sx_qname "t" "id"))).
(** [SELECT id FROM t UNION ALL SELECT id, label FROM t] *)
Definition sq_union : select :=
  sx_select (SOp SUnionAll (sx_query [RExpr (sx_name "id") None] [sx_from "t"] None)
                           (sx_query [RExpr (sx_name "id") None; RExpr (sx_name "label") None] [sx_from "t"] None)).

(** [SELECT * FROM t NATURAL JOIN u ON TRUE] *)
Definition sq_natural : select :=
  sx_select (SQuery MAll RAll [TJoin (sx_from "t") (sx_from "u") (JNatural JInner) (JExpr (ECompare CEqual (sx_num "1") (sx_num "1")))] None None).
(** [SELECT * FROM t JOIN u USING (ID)] *)
Definition sq_using : select :=
  sx_select (SQuery MAll RAll [TJoin (sx_from "t") (sx_from "u") (JJoin JInner) (JColumns [lit "ID"])] None None).
(** [WITH T (id) AS (SELECT label AS id FROM t) SELECT id FROM t] *)
Definition sq_with : select :=
  Select [Cte (lit "T") (Some [lit "id"]) (sq_plain [RExpr (sx_name "label") (Some (lit "id"))] (sx_from "t"))]
    (sx_query [RExpr (sx_name "id") None] [sx_from "t"] None) [] None.

(** A query that is accepted although the result has another number of columns. *)
Definition wrong_width (s : select) : Prop := exists r t, sq_infer s = ok r /\ sq_run s = Done t /\ t_width t <> List.length (r_attrs r).

(** A query that is accepted although a result has a value of another type than reported. *)
Definition wrong_type (s : select) : Prop := exists r t row v a,
  sq_infer s = ok r /\ sq_run s = Done t /\ In row (t_rows t) /\ In (v, a) (combine row (r_attrs r)) /\ ~ of_type v (a_type a).

(** A query that is accepted although a column that is not nullable contains NULL. *)
Definition wrong_null (s : select) : Prop := exists r t row a,
  sq_infer s = ok r /\ sq_run s = Done t /\ In row (t_rows t) /\ In (VNull, a) (combine row (r_attrs r)) /\ a_null a = false.

(** A query that is accepted although running it hits a part that is in error. *)
Definition wrong_part (s : select) : Prop := exists r, sq_infer s = ok r /\ sq_run s = Unchecked.
