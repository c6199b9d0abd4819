(** * The SQL parser as a whole *)

From Coq Require Import Strings.String.
From Verif Require Import Base StrModel JsonModel SqlNameModel SqlModel LexModel LexSpec LexProofs LrModel LrSpec LrProofs SqlTables SqlActions SqlGrammar
  SqlTrees SqlParseProofs SqlWords SqlParseModel SqlLexProofs.
Local Open Scope Z_scope.
Local Open Scope list_scope.

(** The tokens of the lexer are terminals, and string literals have their quotes. *)
Lemma lexed_fine s toks r : sql_lexes s toks r -> Forall (fun t : LrModel.token => (fst t < 83)%nat) toks /\ Forall fine toks.
Proof.
  induction 1 as [s|c s toks r _ _ IH|t w s toks r _ Hw _ _ _ IH]; [split; constructor|exact IH|].
  destruct IH as [I1 I2]. destruct Hw as (name & N & Sh). split; constructor; try assumption; cbn [fst].
  - change 83%nat with (size terminals). apply nth_error_Some. congruence.
  - intros E. cbn [fst snd] in *. subst t. vm_compute in N. injection N as <-. destruct Sh as (cs & -> & _).
    cbn [size]. rewrite app_length. cbn. lia.
Qed.

Lemma sql_drive_total s toks r : sql_lexes s toks r ->
  exists a, drive sym sql_shift sql_build sql_tables (sql_fuel toks) [0%nat] [] toks = Some (Ret a) /\
    (forall v, a = Accepted v -> exists st, v = Variant41 st) /\
    forall st, a = Accepted (Variant41 st) <-> gram GSqlStatement toks st.
Proof.
  intros H. destruct (lexed_fine _ _ _ H) as [V F]. exact (sql_drive_correct toks (sql_fuel toks) V F (le_n _)).
Qed.

Theorem parse_sql_correct s :
  exists r, parse_sql s = Ret r /\
    forall st, r = Ok st <-> exists toks, sql_lexes s toks [] /\ gram GSqlStatement toks st.
Proof.
  unfold parse_sql. destruct (sql_lex_correct s) as [L1 L2]. destruct (lex sql_patterns (size s) 0 s) as [ts [p|]] eqn:E.
  - destruct (sql_lex_place s ts p E) as (r & R & St & _). destruct (sql_drive_total _ _ _ R) as (a & D & _).
    destruct (drive_before_drive _ _ _ _ _ _ _ _ _ D) as (o & -> & O).
    assert (No : forall st, ~ exists toks, sql_lexes s toks [] /\ gram GSqlStatement toks st).
    { intros st (toks & R' & _). destruct (L2 toks R') as (ts' & E' & _). congruence. }
    destruct o as [[v|t| |t]|]; [destruct O|..]; cbn [answer_result]; eexists; (split; [reflexivity|]); intros st;
      (split; [discriminate|intros H; destruct (No st H)]).
  - specialize (L1 ts eq_refl). destruct (sql_drive_total _ _ _ L1) as (a & -> & A1 & A2).
    assert (Q : forall st, (exists toks, sql_lexes s toks [] /\ gram GSqlStatement toks st) <-> gram GSqlStatement (sql_tokens ts) st).
    { intros st. split; [|eauto]. intros (toks & R & G). destruct (L2 toks R) as (ts' & E' & <-). congruence. }
    destruct a as [v|t| |t]; cbn [answer_result].
    + destruct (A1 v eq_refl) as (st & ->). exists (Ok st). split; [reflexivity|]. intros st'. rewrite Q, <- A2. split; congruence.
    + eexists. split; [reflexivity|]. intros st. rewrite Q, <- A2. split; discriminate.
    + eexists. split; [reflexivity|]. intros st. rewrite Q, <- A2. split; discriminate.
    + eexists. split; [reflexivity|]. intros st. rewrite Q, <- A2. split; discriminate.
Qed.
