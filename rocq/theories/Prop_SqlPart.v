(** * Property C100 *)

From Coq Require Import Strings.String.
From Verif Require Import Base StrModel JsonModel SqlNameModel SqlModel LrModel LexSpec LexModel SqlGrammar SqlWords SqlParseModel SqlTrees SqlLexProofs
  SqlParsed SqlSpaceProofs Prop_SqlSpace SqlPartSpec SqlPartProofs.
Local Open Scope list_scope.
Local Open Scope string_scope.

(** Any part of a statement can be exchanged for any phrase of the same kind: the text with the other words is read, and
    its statement depends on the value of the part only. *)
Theorem parts_exchanged : forall w st X u x a b, part GSqlStatement w st X u x a b ->
  w = (a ++ u ++ b)%list /\ gram X u x /\
  exists c : ty X -> sql_statement, st = c x /\
    forall s' u' x', gram X u' x' -> sql_lexes s' (a ++ u' ++ b) [] -> parse_sql s' = Ret (Ok (c x')).
Proof. exact part_exchanged. Qed.
Print Assumptions parts_exchanged.

(** Parentheses around any expression of a statement, of any kind, change nothing. *)
Theorem parentheses_added : forall w st X u x a b s' p q, part GSqlStatement w st X u x a b -> In X expression_kinds ->
  sql_lexes s' (a ++ ((terminal "(", p) :: u ++ [(terminal ")", q)]) ++ b) [] -> parse_sql s' = Ret (Ok st).
Proof. exact parens_added. Qed.
Print Assumptions parentheses_added.

(** Parentheses around what is of the kind the place asks for can be taken away. *)
Theorem parentheses_removed : forall w st X u x a b s' p q,
  part GSqlStatement w st X ((terminal "(", p) :: u ++ [(terminal ")", q)]) x a b ->
  gram X u x -> sql_lexes s' (a ++ u ++ b) [] -> parse_sql s' = Ret (Ok st).
Proof. exact parens_removed. Qed.
Print Assumptions parentheses_removed.

(** A text that ends with an optional part has a beginning that is read as the statement without it. *)
Theorem optional_end_cut : forall s w st Y u y a, sql_lexes s w [] -> part GSqlStatement w st (Opt Y) u y a [] ->
  exists (c : option (ty Y) -> sql_statement) s1 s2, st = c y /\ s = (s1 ++ s2)%list /\ parse_sql s1 = Ret (Ok (c None)).
Proof. exact end_cut. Qed.
Print Assumptions optional_end_cut.

(** So every text that deletes or updates some rows has a beginning that does it to all of them. *)
Theorem cut_changes_all : forall s e st st', changes e st st' -> parse_sql s = Ret (Ok (SqlStatement st)) ->
  exists s1 s2, s = (s1 ++ s2)%list /\ parse_sql s1 = Ret (Ok (SqlStatement st')).
Proof. exact where_cut. Qed.
Print Assumptions cut_changes_all.

(** ** Examples *)

Definition pa_id (x : string) : token := (terminal "ID", JsonModel.lit x).
Definition pa_kw (k x : string) : token := (terminal k, JsonModel.lit x).
Definition pa_name (x : string) : expr := EName [JsonModel.lit x].

Lemma pa_table x : gram GQualifiedIdentifier [pa_id x] [JsonModel.lit x].
Proof.
  apply (chain GQualifiedIdentifier GIdentifier (fun a => [a])); [cbn; auto|].
  apply (chain GIdentifier (Tok "ID") (fun s => s)); [cbn; auto|]. apply G_tok.
Qed.

Lemma pa_not x : gram GNotExpression [pa_id x] (pa_name x).
Proof.
  apply up_not, up_complex, up_compare, up_add, up_mult, up_unary.
  apply (chain GPrimaryExpression GQualifiedIdentifier EName); [cbn; auto 6|]. apply pa_table.
Qed.

Lemma pa_and : gram GAndExpression [pa_id "a"; pa_kw "AND" "and"; pa_id "b"] (EBinary BAnd (pa_name "a") (pa_name "b")).
Proof.
  eapply (G_nth GAndExpression 1); [reflexivity|]. cbn [projT1 projT2].
  apply (G_cons (ty GAndExpression) GAndExpression _ [_] [_; _] (pa_name "a")); [apply up_and, pa_not|].
  apply (G_cons (ty GAndExpression) (Tok "AND") _ [_] [_] (JsonModel.lit "and")); [apply G_tok|].
  apply (G_cons (ty GAndExpression) GNotExpression _ [_] [] (pa_name "b")); [apply pa_not|]. constructor.
Qed.

Lemma pa_or x y : gram GOrExpression [pa_id x; pa_kw "OR" "or"; pa_id y] (EBinary BOr (pa_name x) (pa_name y)).
Proof.
  eapply (G_nth GOrExpression 1); [reflexivity|]. cbn [projT1 projT2].
  apply (G_cons (ty GOrExpression) GOrExpression _ [_] [_; _] (pa_name x)); [apply up_or, up_and, pa_not|].
  apply (G_cons (ty GOrExpression) (Tok "OR") _ [_] [_] (JsonModel.lit "or")); [apply G_tok|].
  apply (G_cons (ty GOrExpression) GAndExpression _ [_] [] (pa_name y)); [apply up_and, pa_not|]. constructor.
Qed.

Definition pa_before : list token := [pa_kw "DELETE" "delete"; pa_kw "FROM" "from"; pa_id "t"].
Definition pa_ab : list token := [pa_id "a"; pa_kw "AND" "and"; pa_id "b"].
Definition pa_c : list token := [pa_kw "OR" "or"; pa_id "c"].
Definition pa_where (e : option expr) : sql_statement :=
  SqlStatement (StDelete {| d_table := [JsonModel.lit "t"]; d_where := e |}).
Definition pa_cond : expr := EBinary BOr (EBinary BAnd (pa_name "a") (pa_name "b")) (pa_name "c").

Lemma P_step n k r w v X u x a b : nth_error (rules n) k = Some r -> part_all (ty n) (projT1 r) w (projT2 r) v X u x a b ->
  part n w v X u x a b.
Proof. intros E H. apply (P_in n (projT1 r) (projT2 r)); [|exact H]. destruct r. exact (nth_error_In _ _ E). Qed.

Lemma P_only A n w y f X u x a b : part n w y X u x a b -> part_all A [n] w f (f y) X u x a b.
Proof.
  intros P. rewrite <- (app_nil_r w), <- (app_nil_r b). eapply P_first; [exact P|constructor].
Qed.

(** The condition of a deletion. *)
Lemma pa_delete w o X u x a b : part (Opt GWhereClause) w o X u x a b ->
  part GSqlStatement (pa_before ++ w) (pa_where o) X u x (pa_before ++ a) b.
Proof.
  intros P. eapply (P_step GSqlStatement 0); [reflexivity|]. cbn [projT1 projT2].
  apply (P_only sql_statement GStatement _ _ SqlStatement).
  eapply (P_step GStatement 2); [reflexivity|]. cbn [projT1 projT2].
  apply (P_only statement GDeleteStatement _ _ StDelete).
  eapply (P_step GDeleteStatement 0); [reflexivity|]. cbn [projT1 projT2].
  apply (P_later (ty GDeleteStatement) (Opt GTableExpressions) _ [] (pa_before ++ w) None _ _ X u x (pa_before ++ a) b);
    [apply gram_none|].
  apply (P_later (ty GDeleteStatement) (Tok "DELETE") _ [_] ([_; _] ++ w) (JsonModel.lit "delete") _ _ X u x ([_; _] ++ a) b); [apply G_tok|].
  apply (P_later (ty GDeleteStatement) (Tok "FROM") _ [_] ([_] ++ w) (JsonModel.lit "from") _ _ X u x ([_] ++ a) b); [apply G_tok|].
  apply (P_later (ty GDeleteStatement) GQualifiedIdentifier _ [_] w [JsonModel.lit "t"] _ _ X u x a b); [apply pa_table|].
  apply (P_only (ty GDeleteStatement) (Opt GWhereClause) w o (fun e => {| d_table := [JsonModel.lit "t"]; d_where := e |})). exact P.
Qed.

Lemma pa_cond_gram : gram GOrExpression (pa_ab ++ pa_c) pa_cond.
Proof.
  eapply (G_nth GOrExpression 1); [reflexivity|]. cbn [projT1 projT2].
  apply (G_cons (ty GOrExpression) GOrExpression _ pa_ab pa_c (EBinary BAnd (pa_name "a") (pa_name "b"))); [apply up_or, pa_and|].
  apply (G_cons (ty GOrExpression) (Tok "OR") _ [_] [_] (JsonModel.lit "or")); [apply G_tok|].
  apply (G_cons (ty GOrExpression) GAndExpression _ [_] [] (pa_name "c")); [apply up_and, pa_not|]. constructor.
Qed.

Lemma pa_part : part GSqlStatement (pa_before ++ [pa_kw "WHERE" "where"] ++ pa_ab ++ pa_c) (pa_where (Some pa_cond))
  GOrExpression pa_ab (EBinary BAnd (pa_name "a") (pa_name "b")) (pa_before ++ [pa_kw "WHERE" "where"] ++ []) pa_c.
Proof.
  apply pa_delete. eapply (P_step (Opt GWhereClause) 1); [reflexivity|]. cbn [projT1 projT2].
  apply (P_only (option expr) GWhereClause _ _ Some).
  eapply (P_step GWhereClause 0); [reflexivity|]. cbn [projT1 projT2].
  apply (P_later (ty GWhereClause) (Tok "WHERE") _ [_] (pa_ab ++ pa_c) (JsonModel.lit "where") _ _ GOrExpression pa_ab _ [] pa_c); [apply G_tok|].
  apply (P_only (ty GWhereClause) GExpression (pa_ab ++ pa_c) pa_cond (fun e => e)).
  eapply (P_step GExpression 0); [reflexivity|]. cbn [projT1 projT2].
  apply (P_only (ty GExpression) GOrExpression (pa_ab ++ pa_c) pa_cond (fun e => e)).
  eapply (P_step GOrExpression 1); [reflexivity|]. cbn [projT1 projT2].
  apply (P_first (ty GOrExpression) GOrExpression _ pa_ab pa_c (EBinary BAnd (pa_name "a") (pa_name "b")) _ _ GOrExpression pa_ab _ [] []);
    [apply P_here, up_or, pa_and|].
  apply (G_cons (ty GOrExpression) (Tok "OR") _ [_] [_] (JsonModel.lit "or")); [apply G_tok|].
  apply (G_cons (ty GOrExpression) GAndExpression _ [_] [] (pa_name "c")); [apply up_and, pa_not|]. constructor.
Qed.

(** Parentheses around any words that make an expression, where they are no part of the statement, may change it. *)
Theorem parentheses_refuted : exists s s' a u b e p q st,
  sql_lexes s (a ++ u ++ b) [] /\ gram GExpression u e /\ parse_sql s = Ret (Ok st) /\
  sql_lexes s' (a ++ ((terminal "(", p) :: u ++ [(terminal ")", q)]) ++ b) [] /\
  exists st', parse_sql s' = Ret (Ok st') /\ st' <> st.
Proof.
  exists (JsonModel.lit "delete from t where a and b or c"), (JsonModel.lit "delete from t where a and (b or c)"),
    (sp_words "delete from t where a and"), (sp_words "b or c"), [], (EBinary BOr (pa_name "b") (pa_name "c")),
    (JsonModel.lit "("), (JsonModel.lit ")"), (pa_where (Some pa_cond)).
  split; [apply (sp_lexes "delete from t where a and b or c"); vm_compute; reflexivity|].
  split; [apply up_expr, (pa_or "b" "c")|]. split; [vm_compute; reflexivity|].
  split; [apply (sp_lexes "delete from t where a and (b or c)"); vm_compute; reflexivity|].
  eexists. split; [vm_compute; reflexivity|]. discriminate.
Qed.
Print Assumptions parentheses_refuted.

(** [a and b] in [delete from t where a and b or c]; the words [where a and b or c] at its end. *)
Example sql_parts_ex :
  sql_lexes (JsonModel.lit "delete from t where a and b or c") (pa_before ++ [pa_kw "WHERE" "where"] ++ pa_ab ++ pa_c) [] /\
  part GSqlStatement (pa_before ++ [pa_kw "WHERE" "where"] ++ pa_ab ++ pa_c) (pa_where (Some pa_cond))
    GOrExpression pa_ab (EBinary BAnd (pa_name "a") (pa_name "b")) (pa_before ++ [pa_kw "WHERE" "where"] ++ []) pa_c /\
  In GOrExpression expression_kinds /\
  parse_sql (JsonModel.lit "delete from t where (a and b)or c") = Ret (Ok (pa_where (Some pa_cond))) /\
  part GSqlStatement (pa_before ++ [pa_kw "WHERE" "where"] ++ pa_ab ++ pa_c) (pa_where (Some pa_cond))
    (Opt GWhereClause) ([pa_kw "WHERE" "where"] ++ pa_ab ++ pa_c) (Some pa_cond) (pa_before ++ []) [] /\
  changes pa_cond (StDelete {| d_table := [JsonModel.lit "t"]; d_where := Some pa_cond |})
    (StDelete {| d_table := [JsonModel.lit "t"]; d_where := None |}) /\
  parse_sql (JsonModel.lit "delete from t ") = Ret (Ok (pa_where None)).
Proof.
  split; [apply (sp_lexes "delete from t where a and b or c"); vm_compute; reflexivity|].
  split; [exact pa_part|]. split; [cbn; auto 12|]. split; [vm_compute; reflexivity|].
  split; [|split; [constructor|vm_compute; reflexivity]].
  apply pa_delete, P_here. apply (chain (Opt GWhereClause) GWhereClause Some); [cbn; auto|].
  eapply (G_nth GWhereClause 0); [reflexivity|]. cbn [projT1 projT2].
  apply (G_cons (ty GWhereClause) (Tok "WHERE") _ [_] (pa_ab ++ pa_c) (JsonModel.lit "where")); [apply G_tok|].
  rewrite <- (app_nil_r (pa_ab ++ pa_c)). apply (G_cons (ty GWhereClause) GExpression _ _ [] pa_cond); [apply up_expr, pa_cond_gram|]. constructor.
Qed.
