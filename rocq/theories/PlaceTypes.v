(** * Where the type parser reports errors *)

From Verif Require Import Base StrModel Utf8Model JsonModel LexModel LexSpec LexProofs LrModel LrProofs LrViable TypesModel TypeTables SqlParseModel
  SqlWords SqlLexProofs SqlShow SqlShowProofs TypeParseModel TypeGrammar TypeLexProofs TypeParseProofs TypeParsed TypeViable PlaceModel PlaceSpec PlaceProofs PlaceRun PlaceTop.
Local Open Scope nat_scope.
Local Open Scope list_scope.

Lemma type_total s l r : type_lexes s l r -> exists a, drive type_sym type_shift type_build (type_tables type_grammar) (6 * length l + 2) [0] [] l = Some (Ret a).
Proof. intros R. destruct (type_drive_total _ _ _ R) as (a & D & _). exists a. exact D. Qed.

Lemma type_means s l r a : type_lexes s l r -> drive type_sym type_shift type_build (type_tables type_grammar) (6 * length l + 2) [0] [] l = Some (Ret a) ->
  match a with
  | Accepted _ => exists st, is_type l st
  | UnrecognizedToken t _ => exists l1 l2, l = l1 ++ t :: l2 /\ type_begins l1 /\ ~ type_begins (l1 ++ [t])
  | UnrecognizedEof _ => type_begins l /\ ~ exists st, is_type l st
  | ExtraToken _ => False
  end.
Proof. exact (drive_means s l r a). Qed.

Lemma type_whole s l r : type_lexes s l r -> (exists st, is_type l st) -> type_begins l.
Proof.
  intros R (st & G). exists (text_of l), [], st. rewrite app_nil_r. split; [apply type_text_lexes; exact (lexed_type_ok _ _ _ R)|exact G].
Qed.

Lemma type_errors s : exists l x res, stream type_patterns 25 (fun j => j) s 0 l x /\ length l <= length s /\
  parse_at type_sym type_shift type_build (type_tables type_grammar) type_patterns Some (fuel_at 6 s) s = Some (Ret res) /\
  exists a, drive type_sym type_shift type_build (type_tables type_grammar) (6 * length (toks l) + 2) [0] [] (toks l) = Some (Ret a) /\
  agrees type_sym type_shift type_build (type_tables type_grammar) (6 * length s + 2) [0] [] l x 0 a res /\
  match res with Ok v => True | Err e => type_fails_at s e end.
Proof.
  exact (errors_at type_patterns V 25 is_whitespace (fun j => j) type_word type_prefer type_good eq_refl type_flags (fun w => iff_refl _)
    type_full type_dark type_word_pattern type_prefers type_sym type_shift type_build (type_tables type_grammar) Some (fun i _ => eq_refl) 6 type_begins (fun l => exists st, is_type l st)
    type_total type_means type_whole type_begins_before s).
Qed.

Lemma type_stream s l x : stream type_patterns 25 (fun j => j) s 0 l x ->
  match x with
  | None => type_lexes s (toks l) []
  | Some p => exists b r, s = b ++ r /\ type_lexes s (toks l) r /\ stuck type_word is_whitespace r /\ p = bytes_of b
  end.
Proof.
  exact (stream_reads type_patterns V 25 is_whitespace (fun j => j) type_word type_prefer type_good eq_refl type_flags (fun w => iff_refl _)
    type_full type_dark type_word_pattern type_prefers s 0 l x).
Qed.

Lemma type_fails_same s e e' : type_fails_at s e -> type_fails_at s e' -> same_place e e'.
Proof.
  exact (fails_same type_patterns V 25 is_whitespace (fun j => j) type_word type_prefer type_good eq_refl type_flags (fun w => iff_refl _)
    type_full type_dark type_word_pattern type_prefers type_begins (fun l => exists st, is_type l st) type_begins_before s e e').
Qed.

Theorem type_at s : match parse_type_at s, parse_type s with
  | Ret (Ok st), Ret (Ok st') => st = st'
  | Ret (Err e), Ret (Err e') => type_fails_at s e /\ exists expected, same_error s e e' expected
  | _, _ => False
  end.
Proof.
  destruct (type_errors s) as (l & x & res & St & Ln & P & a & D & Ag & Fa). pose proof (type_stream s l x St) as R.
  unfold parse_type_at. rewrite P. unfold parse_type. destruct (lex type_patterns (size s) 0 s) as [ts [p|]] eqn:E.
  - destruct (type_lex_place s ts p E) as (r & Rl & Sk & Ep).
    assert (Q : exists b, x = Some (bytes_of b) /\ s = b ++ r /\ ts = toks l).
    { destruct x as [q|].
      - destruct R as (b & r' & Eb & R & Sk' & ->). destruct (type_lex_unique _ _ _ _ _ R (or_intror Sk') Rl (or_intror Sk)) as [<- <-]. exists b. auto.
      - exfalso. destruct (type_lex_unique _ _ _ _ _ R (or_introl eq_refl) Rl (or_intror Sk)) as [_ <-]. exact Sk. }
    destruct Q as (b & -> & Eb & ->). destruct (drive_before_drive _ _ _ _ _ _ _ _ _ D) as (o & B & O).
    unfold type_fuel. rewrite B. pose proof (drive_before_same _ _ _ _ _ _ _ _ _ _ D B) as Sm.
    assert (D' : drive type_sym type_shift type_build (type_tables type_grammar) (6 * length s + 2) [0] [] (toks l) = Some (Ret a)).
    { apply (drive_more _ _ _ _ _ (6 * length s + 2)) in D; [exact D|]. rewrite map_length. lia. }
    destruct res as [v|[q|[[q t] q'] ex|q ex|[[q t] q']]]; cbn [agrees] in Ag.
    + destruct Ag. discriminate.
    + destruct Ag as [Eq B']. injection Eq as <-. pose proof (drive_before_same _ _ _ _ _ _ _ _ _ _ D' B') as Sm'.
      destruct o as [c|]; [destruct Sm as [-> Sm]; destruct a; contradiction|]. split; [exact Fa|]. exists []. cbn [same_error].
      destruct (bytes_place s b r p Eb Ep). auto.
    + destruct Ag as (-> & _). destruct o as [c|]; [|destruct Sm]. destruct Sm as [-> _]. cbn [answer_result]. split; [exact Fa|]. eexists. cbn [same_error]. auto.
    + destruct Ag. discriminate.
    + destruct Fa.
  - pose proof (proj1 (type_lex_correct s ts) E) as Rl.
    assert (Q : x = None /\ ts = toks l).
    { destruct x as [q|].
      - exfalso. destruct R as (b & r & Eb & R & Sk & ->). destruct (type_lex_unique _ _ _ _ _ R (or_intror Sk) Rl (or_introl eq_refl)) as [_ ->]. exact Sk.
      - destruct (type_lex_unique _ _ _ _ _ R (or_introl eq_refl) Rl (or_introl eq_refl)) as [<- _]. auto. }
    destruct Q as (-> & ->). unfold type_fuel. rewrite D. destruct (type_drive_total _ _ _ R) as (a' & D' & A1 & _).
    unfold type_fuel in D'. rewrite D in D'. injection D' as <-.
    destruct res as [v|[q|[[q t] q'] ex|q ex|[[q t] q']]]; cbn [agrees] in Ag.
    + destruct Ag as (_ & ->). destruct (A1 v eq_refl) as (st & ->). reflexivity.
    + destruct Ag. discriminate.
    + destruct Ag as (-> & _). cbn [answer_result]. split; [exact Fa|]. eexists. cbn [same_error]. auto.
    + destruct Ag as (_ & -> & _). cbn [answer_result]. split; [exact Fa|]. eexists. reflexivity.
    + destruct Fa.
Qed.

Theorem type_at_ok s st : parse_type_at s = Ret (Ok st) <-> parse_type s = Ret (Ok st).
Proof.
  pose proof (type_at s) as H. destruct (parse_type_at s) as [[v|e]| |]; try destruct H;
    destruct (parse_type s) as [[v'|e']| |]; try destruct H.
  - split; intros E; injection E as ->; reflexivity.
  - split; discriminate.
Qed.

Theorem type_at_err s e : parse_type_at s = Ret (Err e) -> type_fails_at s e.
Proof. intros E. pose proof (type_at s) as H. rewrite E in H. destruct (parse_type s) as [[v'|e']| |]; try destruct H. assumption. Qed.

Theorem type_at_fails s e : type_fails_at s e -> exists e', parse_type_at s = Ret (Err e') /\ same_place e e'.
Proof.
  intros F. destruct (parse_type_at s) as [[v|e']| |] eqn:E.
  - exfalso. apply type_at_ok in E. destruct (parse_type_correct s) as (r & E' & C). rewrite E in E'. injection E' as <-.
    destruct (proj1 (C v) eq_refl) as (l & L & G).
    assert (X : type_fails s match e with InvalidTokenP p => InvalidTokenAt (length s) | UnrecognizedTokenP (_, t, _) _ => UnrecognizedTokenErr t | UnrecognizedEofP _ _ => UnrecognizedEofErr | ExtraTokenP (_, t, _) => ExtraTokenErr t end \/ exists p, type_fails s (InvalidTokenAt p)).
    { destruct e as [p|[[p t] q] ex|p ex|[[p t] q]]; cbn [type_fails_at fails_at type_fails] in *.
      - right. destruct F as (b & a & l' & Es & _ & R & Sk & B). exists (length s - length a). exists l', a. auto.
      - left. destruct F as (l' & b & a & Es & [S1 S2] & _ & _ & B & N). exists l', a. split; [|auto]. rewrite Es. exact (lexes_join _ _ _ _ _ _ _ _ S1 S2).
      - left. destruct F as (l' & R & B & N & _). exists l'. auto.
      - destruct F. }
    destruct X as [X|(p & X)]; apply parse_type_errors in X; congruence.
  - exists e'. split; [reflexivity|]. exact (type_fails_same s e e' F (type_at_err s e' E)).
  - pose proof (type_at s) as H. rewrite E in H. destruct H.
  - pose proof (type_at s) as H. rewrite E in H. destruct H.
Qed.
