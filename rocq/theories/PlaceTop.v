(** * Where the SQL parser and the type parser report errors *)

From Verif Require Import Base StrModel Utf8Model JsonModel LexModel LexSpec LexProofs LrModel LrProofs LrViable SqlTables SqlActions SqlModel SqlGrammar
  SqlWords SqlParseModel SqlLexProofs SqlParseTop SqlErrorSpec SqlCheckProofs SqlShow SqlShowProofs SqlViable SqlExpected PlaceModel PlaceSpec PlaceProofs PlaceRun.
Local Open Scope nat_scope.
Local Open Scope list_scope.

(** ** SQL *)

Lemma sql_indices i : i < 83 -> sql_index i = Some (sql_terminal i).
Proof.
  intros L. assert (F : forallb (fun i => match sql_index i with Some t => t =? sql_terminal i | None => false end) (seq 0 83) = true) by (vm_compute; reflexivity).
  rewrite forallb_forall in F. specialize (F i ltac:(apply in_seq; lia)). cbv beta in F. destruct (sql_index i) as [t|]; [|discriminate].
  apply Nat.eqb_eq in F. congruence.
Qed.

Lemma sql_total s l r : sql_lexes s l r -> exists a, drive sym sql_shift sql_build sql_tables (17 * length l + 2) [0] [] l = Some (Ret a).
Proof. intros R. destruct (sql_drive_total _ _ _ R) as (a & D & _). exists a. exact D. Qed.

Lemma sql_means s l r a : sql_lexes s l r -> drive sym sql_shift sql_build sql_tables (17 * length l + 2) [0] [] l = Some (Ret a) ->
  match a with
  | Accepted _ => exists st, gram GSqlStatement l st
  | UnrecognizedToken t _ => exists l1 l2, l = l1 ++ t :: l2 /\ begins l1 /\ ~ begins (l1 ++ [t])
  | UnrecognizedEof _ => begins l /\ ~ exists st, gram GSqlStatement l st
  | ExtraToken _ => False
  end.
Proof. exact (drive_means s l r a). Qed.

Lemma sql_whole s l r : sql_lexes s l r -> (exists st, gram GSqlStatement l st) -> begins l.
Proof.
  intros R (st & G). exists (text_of l), [], st. rewrite app_nil_r. split; [apply text_lexes; exact (lexed_tok_ok _ _ _ R)|exact G].
Qed.

Lemma sql_errors s : exists l x res, stream sql_patterns 83 sql_terminal s 0 l x /\ length l <= length s /\
  parse_at sym sql_shift sql_build sql_tables sql_patterns sql_index (fuel_at 17 s) s = Some (Ret res) /\
  exists a, drive sym sql_shift sql_build sql_tables (17 * length (toks l) + 2) [0] [] (toks l) = Some (Ret a) /\
  agrees sym sql_shift sql_build sql_tables (17 * length s + 2) [0] [] l x 0 a res /\
  match res with Ok v => True | Err e => sql_fails_at s e end.
Proof.
  exact (errors_at sql_patterns W 83 is_whitespace sql_terminal sql_word sql_prefer patterns_good eq_refl flags (fun w => iff_refl _)
    full SqlLexProofs.dark word_pattern prefers sym sql_shift sql_build sql_tables sql_index sql_indices 17 begins (fun l => exists st, gram GSqlStatement l st)
    sql_total sql_means sql_whole begins_before s).
Qed.

Lemma sql_stream s l x : stream sql_patterns 83 sql_terminal s 0 l x ->
  match x with
  | None => sql_lexes s (toks l) []
  | Some p => exists b r, s = b ++ r /\ sql_lexes s (toks l) r /\ stuck sql_word is_whitespace r /\ p = bytes_of b
  end.
Proof.
  exact (stream_reads sql_patterns W 83 is_whitespace sql_terminal sql_word sql_prefer patterns_good eq_refl flags (fun w => iff_refl _)
    full SqlLexProofs.dark word_pattern prefers s 0 l x).
Qed.

Lemma sql_fails_same s e e' : sql_fails_at s e -> sql_fails_at s e' -> same_place e e'.
Proof.
  exact (fails_same sql_patterns W 83 is_whitespace sql_terminal sql_word sql_prefer patterns_good eq_refl flags (fun w => iff_refl _)
    full SqlLexProofs.dark word_pattern prefers begins (fun l => exists st, gram GSqlStatement l st) begins_before s e e').
Qed.

Lemma bytes_place (s b r : str) p : s = b ++ r -> p = length s - length r -> p <= length s /\ bytes_of b = bytes_of (firstn p s).
Proof.
  intros -> ->. rewrite app_length. split; [lia|]. replace (length b + length r - length r) with (length b) by lia.
  rewrite firstn_app, firstn_all, Nat.sub_diag, app_nil_r. reflexivity.
Qed.

Theorem sql_at s : match parse_sql_at s, parse_sql_report s with
  | Ret (Ok st), Ret (Ok st') => st = st'
  | Ret (Err e), Ret (Err (e', expected)) => sql_fails_at s e /\ same_error s e e' expected
  | _, _ => False
  end.
Proof.
  destruct (sql_errors s) as (l & x & res & St & Ln & P & a & D & Ag & Fa). pose proof (sql_stream s l x St) as R.
  unfold parse_sql_at. rewrite P. unfold parse_sql_report. destruct (lex sql_patterns (size s) 0 s) as [ts [p|]] eqn:E.
  - destruct (sql_lex_place s ts p E) as (r & Rl & Sk & Ep).
    assert (Q : exists b, x = Some (bytes_of b) /\ s = b ++ r /\ sql_tokens ts = toks l).
    { destruct x as [q|].
      - destruct R as (b & r' & Eb & R & Sk' & ->). destruct (sql_lex_unique _ _ _ _ _ R (or_intror Sk') Rl (or_intror Sk)) as [<- <-]. exists b. auto.
      - exfalso. destruct (sql_lex_unique _ _ _ _ _ R (or_introl eq_refl) Rl (or_intror Sk)) as [_ <-]. exact Sk. }
    destruct Q as (b & -> & Eb & ->). destruct (drive_before_drive _ _ _ _ _ _ _ _ _ D) as (o & B & O).
    unfold sql_fuel. rewrite B. pose proof (drive_before_same _ _ _ _ _ _ _ _ _ _ D B) as Sm.
    assert (D' : drive sym sql_shift sql_build sql_tables (17 * length s + 2) [0] [] (toks l) = Some (Ret a)).
    { apply (drive_more _ _ _ _ _ (17 * length s + 2)) in D; [exact D|]. rewrite map_length. lia. }
    destruct res as [v|[q|[[q t] q'] ex|q ex|[[q t] q']]]; cbn [agrees] in Ag.
    + destruct Ag. discriminate.
    + destruct Ag as [Eq B']. injection Eq as <-. pose proof (drive_before_same _ _ _ _ _ _ _ _ _ _ D' B') as Sm'.
      destruct o as [c|]; [destruct Sm as [-> Sm]; destruct a; contradiction|]. split; [exact Fa|]. cbn [same_error].
      destruct (bytes_place s b r p Eb Ep). auto.
    + destruct Ag as (-> & _). destruct o as [c|]; [|destruct Sm]. destruct Sm as [-> _]. cbn [answer_report]. split; [exact Fa|]. cbn [same_error]. auto.
    + destruct Ag. discriminate.
    + destruct Fa.
  - pose proof (proj1 (sql_lex_correct s) ts E) as Rl.
    assert (Q : x = None /\ sql_tokens ts = toks l).
    { destruct x as [q|].
      - exfalso. destruct R as (b & r & Eb & R & Sk & ->). destruct (sql_lex_unique _ _ _ _ _ R (or_intror Sk) Rl (or_introl eq_refl)) as [_ ->]. exact Sk.
      - destruct (sql_lex_unique _ _ _ _ _ R (or_introl eq_refl) Rl (or_introl eq_refl)) as [<- _]. auto. }
    destruct Q as (-> & ->). unfold sql_fuel. rewrite D. destruct (sql_drive_total _ _ _ R) as (a' & D' & A1 & _).
    unfold sql_fuel in D'. rewrite D in D'. injection D' as <-.
    destruct res as [v|[q|[[q t] q'] ex|q ex|[[q t] q']]]; cbn [agrees] in Ag.
    + destruct Ag as (_ & ->). destruct (A1 v eq_refl) as (st & ->). reflexivity.
    + destruct Ag. discriminate.
    + destruct Ag as (-> & _). cbn [answer_report]. split; [exact Fa|]. cbn [same_error]. auto.
    + destruct Ag as (_ & -> & _). cbn [answer_report]. split; [exact Fa|]. reflexivity.
    + destruct Fa.
Qed.

Theorem sql_at_ok s st : parse_sql_at s = Ret (Ok st) <-> parse_sql s = Ret (Ok st).
Proof.
  rewrite (SqlExpected.report_forgets s). pose proof (sql_at s) as H. destruct (parse_sql_at s) as [[v|e]| |]; try destruct H;
    destruct (parse_sql_report s) as [[v'|[e' ex]]| |]; try destruct H; cbn [bind].
  - split; intros E; injection E as ->; reflexivity.
  - split; discriminate.
Qed.

Theorem sql_at_err s e : parse_sql_at s = Ret (Err e) -> sql_fails_at s e.
Proof. intros E. pose proof (sql_at s) as H. rewrite E in H. destruct (parse_sql_report s) as [[v'|[e' ex]]| |]; try destruct H. assumption. Qed.

Theorem sql_at_fails s e : sql_fails_at s e -> exists e', parse_sql_at s = Ret (Err e') /\ same_place e e'.
Proof.
  intros F. destruct (parse_sql_at s) as [[v|e']| |] eqn:E.
  - exfalso. apply sql_at_ok in E. destruct (parse_sql_correct s) as (r & E' & C). rewrite E in E'. injection E' as <-.
    destruct (proj1 (C v) eq_refl) as (l & L & G).
    assert (X : SqlErrorSpec.fails s match e with InvalidTokenP p => InvalidTokenAt (length s) | UnrecognizedTokenP (_, t, _) _ => UnrecognizedTokenErr t | UnrecognizedEofP _ _ => UnrecognizedEofErr | ExtraTokenP (_, t, _) => ExtraTokenErr t end \/ exists p, SqlErrorSpec.fails s (InvalidTokenAt p)).
    { destruct e as [p|[[p t] q] ex|p ex|[[p t] q]]; cbn [sql_fails_at fails_at SqlErrorSpec.fails] in *.
      - right. destruct F as (b & a & l' & Es & _ & R & Sk & B). exists (length s - length a). exists l', a. auto.
      - left. destruct F as (l' & b & a & Es & [S1 S2] & _ & _ & B & N). exists l', a. split; [|auto]. rewrite Es. exact (lexes_join _ _ _ _ _ _ _ _ S1 S2).
      - left. destruct F as (l' & R & B & N & _). exists l'. auto.
      - destruct F. }
    destruct X as [X|(p & X)]; apply parse_sql_errors in X; congruence.
  - exists e'. split; [reflexivity|]. exact (sql_fails_same s e e' F (sql_at_err s e' E)).
  - pose proof (sql_at s) as H. rewrite E in H. destruct H.
  - pose proof (sql_at s) as H. rewrite E in H. destruct H.
Qed.
