(** * Property C78: the case of letters in SQL texts *)

From Coq Require Import Strings.String.
From Verif Require Import Base StrModel JsonModel SqlNameModel SqlModel LexSpec LexModel LrModel SqlGrammar SqlWords SqlParseModel SqlLexProofs
  SqlRespell SqlTextSpec SqlText SqlExamples.
Local Open Scope list_scope.

(** Texts whose words are the same up to the case of names and the spelling of keywords ([toks] and [toks'] are their words)
    give the same statement up to the case of names, and the statement is accepted, refused or answered by a panic alike; or
    both are refused for words with the same number, or both for what is missing at the end. The case of letters in the
    database and in the name of the default schema does not matter either. *)
Theorem text_ignores_case : forall up s s' toks toks' db db' d d',
  sql_lexes s toks [] -> sql_lexes s' toks' [] -> Forall2 (same_word up) toks toks' ->
  same_database up db db' -> name_eqb up d d' = true ->
  match parse_sql s, parse_sql s' with
  | Ret (Ok st), Ret (Ok st') =>
      same_statement up st st' /\ validate up (set_context_new up db d) st = validate up (set_context_new up db' d') st'
  | Ret (Err e), Ret (Err e') => same_complaint toks toks' e e'
  | _, _ => False
  end.
Proof. exact text_case. Qed.
Print Assumptions text_ignores_case.

Definition tx_words (s : string) : list LrModel.token := sql_tokens (fst (lex sql_patterns (List.length (JsonModel.lit s)) 0 (JsonModel.lit s))).

Example text_ignores_case_ex : exists st st',
  sql_lexes (JsonModel.lit "select id as n from main.t where label like 'x'") (tx_words "select id as n from main.t where label like 'x'") [] /\
  sql_lexes (JsonModel.lit "SELECT ID  AS N FROM Main.T WHERE Label Like 'x' ") (tx_words "SELECT ID  AS N FROM Main.T WHERE Label Like 'x' ") [] /\
  Forall2 (same_word sx_up) (tx_words "select id as n from main.t where label like 'x'") (tx_words "SELECT ID  AS N FROM Main.T WHERE Label Like 'x' ") /\
  parse_sql (JsonModel.lit "select id as n from main.t where label like 'x'") = Ret (Ok st) /\
  parse_sql (JsonModel.lit "SELECT ID  AS N FROM Main.T WHERE Label Like 'x' ") = Ret (Ok st') /\ st <> st' /\
  validate sx_up (set_context_new sx_up sx_db (JsonModel.lit "main")) st = ok tt /\
  validate sx_up (set_context_new sx_up sx_db (JsonModel.lit "MAIN")) st' = ok tt.
Proof.
  do 2 eexists. split; [|split; [|split; [|split; [vm_compute; reflexivity|split; [vm_compute; reflexivity|split; [discriminate|split; vm_compute; reflexivity]]]]]].
  - apply sql_lex_correct. vm_compute. reflexivity.
  - apply sql_lex_correct. vm_compute. reflexivity.
  - vm_compute. repeat (constructor; [repeat split; intros H; try discriminate H; repeat (destruct H as [H|H]; [discriminate H|]); destruct H|]). constructor.
Qed.

(** The same number of the offending word: [FROM] is the second. *)
Example text_complaint_ex :
  parse_sql (JsonModel.lit "select from t") = Ret (Err (UnrecognizedTokenErr (terminal "FROM", JsonModel.lit "from"))) /\
  parse_sql (JsonModel.lit "SELECT FROM T") = Ret (Err (UnrecognizedTokenErr (terminal "FROM", JsonModel.lit "FROM"))) /\
  same_complaint (tx_words "select from t") (tx_words "SELECT FROM T")
    (UnrecognizedTokenErr (terminal "FROM", JsonModel.lit "from")) (UnrecognizedTokenErr (terminal "FROM", JsonModel.lit "FROM")) /\
  ~ same_complaint (tx_words "select from t") (tx_words "SELECT FROM T")
    (UnrecognizedTokenErr (terminal "FROM", JsonModel.lit "from")) (UnrecognizedTokenErr (terminal "ID", JsonModel.lit "T")).
Proof.
  split; [vm_compute; reflexivity|]. split; [vm_compute; reflexivity|]. split.
  - exists [(terminal "SELECT", JsonModel.lit "select")], [(terminal "ID", JsonModel.lit "t")],
      [(terminal "SELECT", JsonModel.lit "SELECT")], [(terminal "ID", JsonModel.lit "T")]. vm_compute. repeat split.
  - intros (l & m & l' & m' & E & E' & N). vm_compute in E, E'.
    destruct l as [|? [|? [|? [|? ?]]]]; try discriminate E. destruct l' as [|? [|? [|? ?]]]; try discriminate N. discriminate E'.
Qed.

(** The case of a letter next to a number matters: [1E5] is one word, [1e5] is a number and a name; as a column it is a
    number with the alias [e5]. *)
Theorem text_case_refuted :
  (exists s s' st e, upper sx_up s = upper sx_up s' /\ parse_sql s = Ret (Ok st) /\ parse_sql s' = Ret (Err e)) /\
  (exists s s' st st', upper sx_up s = upper sx_up s' /\ parse_sql s = Ret (Ok st) /\ parse_sql s' = Ret (Ok st') /\ ~ same_statement sx_up st st').
Proof.
  split.
  - exists (JsonModel.lit "insert into t values (1E5)"), (JsonModel.lit "insert into t values (1e5)"). do 2 eexists.
    split; [vm_compute; reflexivity|split; vm_compute; reflexivity].
  - exists (JsonModel.lit "select 1E5"), (JsonModel.lit "select 1e5"). do 2 eexists.
    split; [vm_compute; reflexivity|]. split; [vm_compute; reflexivity|]. split; [vm_compute; reflexivity|]. vm_compute. discriminate.
Qed.
Print Assumptions text_case_refuted.
