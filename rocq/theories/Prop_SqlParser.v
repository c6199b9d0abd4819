(** * Properties C53-C58 *)

From Coq Require Import Strings.String.
From Verif Require Import Base StrModel JsonModel SqlNameModel SqlModel SqlSafeSpec SqlExamples LrModel LexSpec LexModel SqlTables SqlActions SqlGrammar SqlWords
  SqlParseModel SqlCheckSpec SqlErrorSpec SqlShow SqlLexProofs SqlParsed SqlShowProofs SqlForget SqlViable.
Local Open Scope list_scope.
Local Open Scope string_scope.

(** ** C53 *)

(** The parser always returns. *)
Theorem sql_parser_total : forall s, exists r, parse_sql s = Ret r.
Proof. exact parse_total. Qed.
Print Assumptions sql_parser_total.

(** It accepts the texts of the grammar, with the value the grammar gives them. *)
Theorem sql_parser_grammar : forall s st,
  parse_sql s = Ret (Ok st) <-> exists toks, sql_lexes s toks [] /\ gram GSqlStatement toks st.
Proof. exact parse_grammar. Qed.
Print Assumptions sql_parser_grammar.

(** The grammar gives the words of a text one value at most. *)
Theorem sql_grammar_unambiguous : forall s toks r st st',
  sql_lexes s toks r -> gram GSqlStatement toks st -> gram GSqlStatement toks st' -> st = st'.
Proof. exact grammar_unique. Qed.
Print Assumptions sql_grammar_unambiguous.

(** The machine stops after [17 * n + 2] steps at most, for [n] words. *)
Theorem sql_parser_steps : forall s toks r f, sql_lexes s toks r -> (17 * List.length toks + 2 <= f)%nat ->
  exists a, drive sym sql_shift sql_build sql_tables f [0%nat] [] toks = Some (Ret a).
Proof. exact parse_steps. Qed.
Print Assumptions sql_parser_steps.

Example sql_parser_ex :
  parse_sql (JsonModel.lit "select a+b*c x, t.* from t where not a=b or c and d") =
    Ret (Ok (SqlStatement (StSelect (sx_select (sx_query
      [RExpr (EBinary BAdd (sx_name "a") (EBinary BMultiply (sx_name "b") (sx_name "c"))) (Some (SqlModel.lit "x")); RAllFrom (SqlModel.lit "t")]
      [sx_from "t"]
      (Some (EBinary BOr (EUnary UNot (ECompare CEqual (sx_name "a") (sx_name "b"))) (EBinary BAnd (sx_name "c") (sx_name "d"))))))))) /\
  parse_sql (JsonModel.lit "select not not a from t") = Ret (Err (UnrecognizedTokenErr (terminal "NOT", JsonModel.lit "not"))) /\
  parse_sql [] = Ret (Err UnrecognizedEofErr).
Proof. vm_compute. auto. Qed.

(** ** C54 *)

(** The lexer reads a text to its end if and only if it consists of words; it takes the longest word each time, and a
    keyword rather than an identifier. *)
Theorem sql_lexer_words : forall s,
  (forall ts, lex sql_patterns (List.length s) 0 s = (ts, None) -> sql_lexes s (sql_tokens ts) []) /\
  (forall toks, sql_lexes s toks [] -> exists ts, lex sql_patterns (List.length s) 0 s = (ts, None) /\ sql_tokens ts = toks).
Proof. exact sql_lex_correct. Qed.
Print Assumptions sql_lexer_words.

(** Otherwise it stops where no word starts. *)
Theorem sql_lexer_place : forall s ts p, lex sql_patterns (List.length s) 0 s = (ts, Some p) ->
  exists r, sql_lexes s (sql_tokens ts) r /\ stuck sql_word is_whitespace r /\ (p = List.length s - List.length r)%nat.
Proof. exact sql_lex_place. Qed.
Print Assumptions sql_lexer_place.

(** There is one way to read a text. *)
Theorem sql_lexer_unique : forall s toks r toks' r',
  sql_lexes s toks r -> r = [] \/ stuck sql_word is_whitespace r ->
  sql_lexes s toks' r' -> r' = [] \/ stuck sql_word is_whitespace r' -> toks = toks' /\ r = r'.
Proof. exact sql_lex_unique. Qed.
Print Assumptions sql_lexer_unique.

(** A small [e] starts no exponent, two quotes are no escape, [<>] is two words, keywords fold the long s. *)
Example sql_lexer_ex :
  sql_lexes (JsonModel.lit "1.5e3 1.5E3 12abc 'a''b' <>") (combine
    (map terminal ["NUMERIC_LIT_1"; "ID"; "NUMERIC_LIT_1"; "NUMERIC_LIT_1"; "ID"; "STRING_LIT"; "STRING_LIT"; "<"; ">"])
    (map JsonModel.lit ["1.5"; "e3"; "1.5E3"; "12"; "abc"; "'a'"; "'b'"; "<"; ">"])) [] /\
  sql_lexes [383; 101; 76; 101; 99; 116; 32]%Z [(terminal "SELECT", [383; 101; 76; 101; 99; 116]%Z)] [] /\
  lex sql_patterns 6 0 (JsonModel.lit "a ; bc") = ([(3%nat, JsonModel.lit "a")], Some 2%nat).
Proof.
  split; [|split; [|vm_compute; reflexivity]].
  - destruct (sql_lexer_words (JsonModel.lit "1.5e3 1.5E3 12abc 'a''b' <>")) as [H _]. eapply (eq_ind _ (fun l => sql_lexes _ l [])); [eapply H|]; vm_compute; reflexivity.
  - destruct (sql_lexer_words [383; 101; 76; 101; 99; 116; 32]%Z) as [H _]. eapply (eq_ind _ (fun l => sql_lexes _ l [])); [eapply H|]; vm_compute; reflexivity.
Qed.

(** ** C55 *)

(** The validation of a parsed statement returns if the default schema is registered and the writer was [careful]. *)
Theorem parsed_validation_returns : forall up x s st,
  registered up x -> parse_sql s = Ret (Ok st) -> all_sql careful st -> exists r, validate up x st = Ret r.
Proof. exact parsed_returns. Qed.
Print Assumptions parsed_validation_returns.

Example parsed_validation_ex : exists st,
  registered sx_up sx_ctx /\ parse_sql (JsonModel.lit "select case when done then id else 2 end from T where not done") = Ret (Ok st) /\
  all_sql careful st /\ validate sx_up sx_ctx st = ok tt.
Proof. eexists. split; [discriminate|]. split; [vm_compute; reflexivity|]. split; [cbn; tauto|vm_compute; reflexivity]. Qed.

(** Each condition is needed. *)
Theorem parsed_validation_refuted :
  (exists up x s st, registered up x /\ parse_sql s = Ret (Ok st) /\ validate up x st = Panic) /\
  (exists up x s st, all_sql careful st /\ parse_sql s = Ret (Ok st) /\ validate up x st = Panic).
Proof.
  split.
  - exists sx_up, sx_ctx, (JsonModel.lit "select id in () from t"). eexists. split; [discriminate|]. split; vm_compute; reflexivity.
  - exists sx_up, (set_context_new sx_up sx_db (SqlModel.lit "other")), (JsonModel.lit "describe t"). eexists.
    split; [|split; [vm_compute; reflexivity|vm_compute; reflexivity]]. exact I.
Qed.
Print Assumptions parsed_validation_refuted.

Example parsed_validation_panics_ex : exists st,
  parse_sql (JsonModel.lit "select case when done then (1,'a') end from t") = Ret (Ok st) /\ validate sx_up sx_ctx st = Panic.
Proof. eexists. split; vm_compute; reflexivity. Qed.

(** ** C56 *)

(** The statements that have a text. *)
Theorem sql_parser_image : forall st, (exists s, parse_sql s = Ret (Ok st)) <-> all_sql grammatical st.
Proof. exact parsed_exactly. Qed.
Print Assumptions sql_parser_image.

(** A text of each, with parentheses only around operands of lower precedence. *)
Theorem sql_show_parse : forall st, all_sql grammatical st -> parse_sql (text_of (show_sql st)) = Ret (Ok st).
Proof. exact shown_parsed. Qed.
Print Assumptions sql_show_parse.

Example sql_show_ex :
  let a := sx_name "a" in let b := sx_name "b" in
  let e := EBinary BSubtract (EBinary BSubtract a (EBinary BMultiply a b)) (EBinary BSubtract a (EUnary UNegate (EBinary BAdd a b))) in
  let st := SqlStatement (StDelete {| d_table := [SqlModel.lit "t"]; d_where := Some (EUnary UNot (EUnary UNot (ECompare CLess e b))) |}) in
  text_of (show_sql st) = JsonModel.lit "DELETE FROM t WHERE NOT ( NOT a - a * b - ( a - - ( a + b ) ) < b ) " /\
  parse_sql (text_of (show_sql st)) = Ret (Ok st).
Proof. vm_compute. auto. Qed.

(** ** C57 *)

(** Only identifiers, numbers and strings keep their letters. *)
Theorem sql_keyword_letters : forall s s' toks toks', sql_lexes s toks [] -> sql_lexes s' toks' [] -> Forall2 alike toks toks' ->
  forall st, parse_sql s = Ret (Ok st) <-> parse_sql s' = Ret (Ok st).
Proof. exact keyword_letters. Qed.
Print Assumptions sql_keyword_letters.

(** [WITH] before [INSERT], [DELETE] and [UPDATE] is lost. *)
Theorem sql_with_dropped : forall ctes st, ctes <> [] -> each (all_cte grammatical) ctes -> all_statement grammatical st ->
  (forall s, st <> StSelect s) ->
  parse_sql (text_of ([kw "WITH"] ++ sep show_cte (kw ",") ctes ++ show_statement st)%list) = Ret (Ok (SqlStatement st)).
Proof. exact with_dropped. Qed.
Print Assumptions sql_with_dropped.

(** [EXPLAIN QUERY PLAN] is [EXPLAIN]. *)
Theorem sql_plan_dropped : forall st, all_statement grammatical st ->
  parse_sql (text_of ([kw "EXPLAIN"; kw "QUERY"; kw "PLAN"] ++ show_statement st)%list) = Ret (Ok (SqlExplain st)).
Proof. exact plan_dropped. Qed.
Print Assumptions sql_plan_dropped.

(** [LIMIT a, b] is [LIMIT a OFFSET b]. *)
Theorem sql_limit_comma : forall common e order a b,
  all_select grammatical (Select common e order None) -> all_expr grammatical a -> all_expr grammatical b ->
  parse_sql (text_of (show_select (Select common e order None) ++ [kw "LIMIT"] ++ show a ++ [kw ","] ++ show b)%list) =
  Ret (Ok (SqlStatement (StSelect (Select common e order (Some (a, Some b)))))).
Proof. exact limit_comma. Qed.
Print Assumptions sql_limit_comma.

Example sql_forget_ex :
  parse_sql (JsonModel.lit "with c as (select x from u) delete from t where a in (select x from c)") =
    parse_sql (JsonModel.lit "DELETE from t where a In(select x from c)") /\
  parse_sql (JsonModel.lit "explain query plan delete from t") = Ret (Ok (SqlExplain (StDelete {| d_table := [SqlModel.lit "t"]; d_where := None |}))) /\
  parse_sql (JsonModel.lit "select a from t limit 1, 2") = parse_sql (JsonModel.lit "select a from t limit 1 offset 2") /\
  (exists st, parse_sql (JsonModel.lit "select a from t limit 1, 2") = Ret (Ok st)).
Proof. vm_compute. repeat split; eauto. Qed.

(** ** C58 *)

(** Each error is reported exactly when it should be: the first word that no statement has at its place, or the end of a
    text that some statement continues, or the place where no word starts. [ExtraTokenErr] never is. *)
Theorem sql_parser_errors : forall s e, parse_sql s = Ret (Err e) <-> fails s e.
Proof. exact parse_sql_errors. Qed.
Print Assumptions sql_parser_errors.

Example sql_errors_ex :
  parse_sql (JsonModel.lit "select from t") = Ret (Err (UnrecognizedTokenErr (terminal "FROM", JsonModel.lit "from"))) /\
  parse_sql (JsonModel.lit "select a from t cross join u") = Ret (Err UnrecognizedEofErr) /\
  parse_sql (JsonModel.lit "select a from t;") = Ret (Err (InvalidTokenAt 15)) /\
  parse_sql (JsonModel.lit "select from t;") = Ret (Err (UnrecognizedTokenErr (terminal "FROM", JsonModel.lit "from"))) /\
  parse_sql (JsonModel.lit "insert into t select a from u union select a from v") = Ret (Err (UnrecognizedTokenErr (terminal "UNION", JsonModel.lit "union"))).
Proof. vm_compute. repeat split. Qed.
