(** * Statements from text *)

From Coq Require Import Strings.String.
From Verif Require Import Base StrModel JsonModel SqlNameModel SqlModel SqlSafeSpec SqlPanic LrModel LexSpec SqlTables SqlActions SqlGrammar SqlWords SqlParseModel
  SqlParseProofs SqlLexProofs SqlParseTop SqlCheckSpec SqlCheckProofs.

Lemma parse_total s : exists r, parse_sql s = Ret r.
Proof. destruct (parse_sql_correct s) as (r & E & _). eauto. Qed.

Lemma parse_grammar s st : parse_sql s = Ret (Ok st) <-> exists toks, sql_lexes s toks [] /\ gram GSqlStatement toks st.
Proof.
  destruct (parse_sql_correct s) as (r & E & C). rewrite E. rewrite <- C. split; [intros H; injection H as ->; reflexivity|intros ->; reflexivity].
Qed.

Lemma grammar_unique s toks r st st' : sql_lexes s toks r -> gram GSqlStatement toks st -> gram GSqlStatement toks st' -> st = st'.
Proof.
  intros L G G'. destruct (sql_drive_total _ _ _ L) as (a & _ & _ & A). apply A in G. apply A in G'. congruence.
Qed.

Lemma parse_steps s toks r f : sql_lexes s toks r -> (17 * List.length toks + 2 <= f)%nat ->
  exists a, drive sym sql_shift sql_build sql_tables f [0%nat] [] toks = Some (Ret a).
Proof.
  intros L F. destruct (lexed_fine _ _ _ L) as [V Fi]. destruct (sql_drive_correct toks f V Fi F) as (a & E & _). eauto.
Qed.

Theorem parsed_returns up x s st : registered up x -> parse_sql s = Ret (Ok st) -> all_sql careful st -> exists r, validate up x st = Ret r.
Proof. intros R P K. exact (validate_returns up x st R (careful_sql_safe st (parsed_grammatical s st P) K)). Qed.
