(** * The words the SQL parser says it expected *)

From Coq Require Import Strings.String Sorted.
From Verif Require Import Base StrModel JsonModel SqlNameModel SqlModel LexModel LexSpec LexProofs LrModel LrSpec LrProofs LrViable LrExpected SqlTables
  SqlCert SqlActions SqlGrammar SqlTrees SqlParseProofs SqlWords SqlParseModel SqlLexProofs SqlParseTop SqlErrorSpec SqlCheckSpec SqlCheckProofs SqlShow
  SqlShowProofs SqlViable.
Local Open Scope nat_scope.
Local Open Scope list_scope.

(** The report is the answer with a list beside the error. *)
Lemma report_forgets s :
  parse_sql s = (r <- parse_sql_report s ;; Ret match r with Ok v => Ok v | Err (e, _) => Err e end).
Proof.
  unfold parse_sql, parse_sql_report. destruct (lex sql_patterns (size s) 0 s) as [ts [p|]].
  - destruct (drive_before _ _ _ _ _ _ _ _) as [[[[v|t l|l|t]|]| |]|]; reflexivity.
  - destruct (drive _ _ _ _ _ _ _ _) as [[[v|t l|l|t]| |]|]; try reflexivity. cbn [answer_result answer_report].
    destruct (pop_statement v) as [st| |]; reflexivity.
Qed.

Lemma report_drive s e exp : parse_sql_report s = Ret (Err (e, exp)) ->
  exists toks r, sql_lexes s toks r /\ finished r /\
    ((exists p, e = InvalidTokenAt p /\ exp = []) \/
     exists a, drive sym sql_shift sql_build sql_tables (sql_fuel toks) [0] [] toks = Some (Ret a) /\ answer_report a = Err (e, exp)).
Proof.
  unfold parse_sql_report. intros H. destruct (lex sql_patterns (size s) 0 s) as [ts [p|]] eqn:E.
  - destruct (sql_lex_place s ts p E) as (r & R & St & P). destruct (sql_drive_total _ _ _ R) as (a & D & _).
    destruct (drive_before_drive _ _ _ _ _ _ _ _ _ D) as (o & B & O). rewrite B in H. pose proof (drive_before_same _ _ _ _ _ _ _ _ _ _ D B) as Sm.
    exists (sql_tokens ts), r. split; [exact R|]. split; [right; exact St|]. destruct o as [b|].
    + destruct Sm as [-> _]. right. exists a. split; [exact D|]. destruct (answer_report a) as [v|x]; [discriminate|]. congruence.
    + left. exists p. injection H as <- <-. auto.
  - pose proof (proj1 (sql_lex_correct s) ts E) as R. destruct (sql_drive_total _ _ _ R) as (a & D & A1 & _). rewrite D in H.
    exists (sql_tokens ts), []. split; [exact R|]. split; [left; reflexivity|]. right. exists a. split; [exact D|].
    destruct (answer_report a) as [v|x]; [|congruence]. destruct (pop_statement v); discriminate.
Qed.

Lemma rows_long : forallb (fun row => length row =? 83) sql_action_rows = true.
Proof. vm_compute. reflexivity. Qed.

Lemma expected_bound s u : In u (expected_tokens sql_tables s) -> u < 83.
Proof.
  unfold expected_tokens. cbn [sql_tables action_rows]. destruct (nth_error sql_action_rows s) as [row|] eqn:E; [|intros []].
  intros I. apply filter_In in I as [I _]. apply in_seq in I. pose proof rows_long as L. rewrite forallb_forall in L.
  specialize (L row (nth_error_In _ _ E)). apply Nat.eqb_eq in L. lia.
Qed.

(** What every list is like. *)
Theorem expected_list s e exp : parse_sql_report s = Ret (Err (e, exp)) ->
  StronglySorted lt exp /\ (forall u, In u exp -> u < 83) /\
  match e with
  | UnrecognizedTokenErr t => ~ In (fst t) exp
  | UnrecognizedEofErr => True
  | _ => exp = []
  end.
Proof.
  intros H. destruct (report_drive s e exp H) as (toks & r & R & _ & [(p & -> & ->)|(a & D & A)]).
  - split; [constructor|]. split; [intros u []|reflexivity].
  - pose proof (drive_expected _ _ _ _ _ _ _ _ _ D) as X. destruct a as [v|t l|l|t]; cbn [answer_report] in A; try discriminate; injection A as <- <-.
    + destruct X as (q & -> & N). split; [apply expected_sorted|]. split; [apply expected_bound|exact N].
    + destruct X as (q & ->). split; [apply expected_sorted|]. split; [apply expected_bound|exact I].
    + split; [constructor|]. split; [intros u []|reflexivity].
Qed.

(** ** When it is exact *)

Lemma plain_words_checked :
  plain_state sql_tables 0 = true /\
  forallb (fun n => plain_word sql_tables (terminal n)) opening_words = true.
Proof. split; vm_compute; reflexivity. Qed.

Lemma after_opening_plain l : after_opening l -> ends_plain sql_tables l = true.
Proof.
  unfold after_opening, ends_plain. destruct plain_words_checked as (P0 & P1). destruct (rev l) as [|[u w] r]; [intros _; exact P0|].
  intros (n & I & E). cbn [fst]. rewrite forallb_forall in P1. specialize (P1 n I). replace u with (terminal n); [exact P1|].
  assert (Q : forall k, nth_error terminals k = Some n -> terminal n = k).
  { intros k Ek. assert (L : k < 83) by (change 83 with (length terminals); apply nth_error_Some; congruence).
    assert (Fa : forallb (fun k => match nth_error terminals k with Some n => terminal n =? k | None => false end) (seq 0 83) = true) by (vm_compute; reflexivity).
    rewrite forallb_forall in Fa. specialize (Fa k ltac:(apply in_seq; lia)). cbv beta in Fa. rewrite Ek in Fa. now apply Nat.eqb_eq. }
  exact (Q u E).
Qed.

Notation goes_on := (goes_on productions 61 sql_cert).

Lemma begins_goes_on l : begins l -> goes_on l.
Proof.
  intros (s & more & st & L & G). destruct (gram_derives _ _ _ _ L G) as (t & D). exists more, t. split; [|exact D].
  destruct (lexed_fine _ _ _ L) as [V _]. apply Forall_app in V as [_ V]. exact V.
Qed.

Theorem expected_exact s e exp l : parse_sql_report s = Ret (Err (e, exp)) -> stops_after s e l -> after_opening l ->
  forall u, In u exp <-> may_follow l u.
Proof.
  intros H [B Sp] Ao u. pose proof (expected_list s e exp H) as (_ & Bd & _).
  destruct (report_drive s e exp H) as (toks & r & R & Fi & [(p & -> & ->)|(a & D & A)]); [destruct Sp|].
  pose proof (lexed_tok_ok _ _ _ R) as Ok1. destruct (lexed_fine _ _ _ R) as [V F].
  destruct (lr_correct sql_tables productions 61 sql_cert sql_tables_checked toks (sql_fuel toks) V (le_n _)) as (b & Eb & _).
  pose proof (run_translates sql_tables productions 61 sql_cert sql_tables_checked sym sql_shift sql_build fine trees_evaluate (sql_fuel toks)
    0 [] [] [] [] toks (stack_nil _ _ _) (Forall2_nil _) V F) as RT. rewrite Eb, D in RT.
  assert (K : exists rest, toks = l ++ rest /\ match rest with [] => True | t :: _ => ~ begins (l ++ [t]) end /\
    (forall t, e = UnrecognizedTokenErr t -> rest <> []) /\ (e = UnrecognizedEofErr -> rest = [])).
  { destruct e as [p|t| |t]; try destruct Sp.
    - destruct H0 as (r' & R'). destruct (lexes_prefix _ _ _ _ _ R' R Fi) as (l' & ->). exists (t :: l'). rewrite <- app_assoc. cbn [app].
      split; [reflexivity|]. split; [assumption|]. split; discriminate.
    - destruct (lexes_prefix _ _ _ _ _ H0 R Fi) as (l' & Q). destruct (sql_lex_unique _ _ _ _ _ R Fi H0 (or_introl eq_refl)) as [-> _].
      exists []. rewrite app_nil_r. split; [reflexivity|]. split; [exact I|]. split; [discriminate|reflexivity]. }
  destruct K as (rest & -> & No & _ & _).
  assert (Okl : Forall tok_ok l) by (apply Forall_app in Ok1; tauto).
  assert (Nv : match rest with [] => True | t :: _ => ~ LrViable.viable productions 61 sql_cert filler (l ++ [t]) end).
  { destruct rest as [|t rest]; [exact I|]. intros Vi. apply No, viable_begins; [|exact Vi]. apply Forall_app in Ok1 as [_ Ok1]. apply Forall_app. split; [exact Okl|].
    constructor; [exact (Forall_inv Ok1)|constructor]. }
  pose proof (plain_exact sql_tables productions 61 sql_cert sql_order sql_tables_checked sql_tables_useful filler l rest _ b V (begins_goes_on l B)
    (after_opening_plain l Ao) Nv Eb) as X.
  assert (Y : forall u w, u < 83 -> (In u exp -> LrViable.viable productions 61 sql_cert filler (l ++ [(u, w)])) /\ (goes_on (l ++ [(u, w)]) -> In u exp)).
  { destruct b as [v|t x|x|t]; cbn [translate] in RT; try contradiction.
    - injection RT as ->. cbn [answer_report] in A. injection A as _ <-. destruct X as (_ & _ & X). exact X.
    - injection RT as ->. cbn [answer_report] in A. injection A as _ <-. destruct X as (_ & X). exact X. }
  split.
  - intros I. pose proof (Bd u I) as L. exists (filler u). apply viable_begins; [|exact (proj1 (Y u _ L) I)].
    apply Forall_app. split; [exact Okl|]. constructor; [exact (filler_ok u L)|constructor].
  - intros (w & Bw). assert (L : u < 83).
    { destruct Bw as (s' & more & st & L & _). destruct (lexed_fine _ _ _ L) as [V' _]. apply Forall_app in V' as [V' _]. apply Forall_app in V' as [_ V'].
      exact (Forall_inv V'). }
    exact (proj2 (Y u w L) (begins_goes_on _ Bw)).
Qed.

(** ** When it is not *)

Definition rejected (o : option (outcome (answer tree))) : option LrModel.token :=
  match o with Some (Ret (UnrecognizedToken t _)) => Some t | _ => None end.

Lemma never_follows l u :
  (forall w more, rejected (drive tree Leaf (fun p ts => Ret (Node p ts)) sql_tables 200 [0] [] (l ++ (u, w) :: more)) = Some (u, w)) ->
  ~ may_follow l u.
Proof.
  intros H (w & s & more & st & L & G). destruct (gram_derives _ _ _ _ L G) as (t & D). rewrite <- app_assoc in D. cbn [app] in D.
  destruct (lexed_fine _ _ _ L) as [V _]. rewrite <- app_assoc in V. cbn [app] in V. specialize (H w more).
  destruct (drive tree _ _ _ 200 [0] [] _) as [[[v|t' e|e|t']| |]|] eqn:E; try discriminate.
  pose proof (lr_complete sql_tables productions 61 sql_cert sql_tables_checked t _ 0 D V) as Acc.
  apply (run_more sql_tables productions 61 sql_cert _ (200 + (LrProofs.size t + 1))) in E; [|lia].
  apply (run_more sql_tables productions 61 sql_cert _ (200 + (LrProofs.size t + 1))) in Acc; [|lia]. pose proof (eq_trans (eq_sym E) Acc) as Q. discriminate Q.
Qed.

(** Words of a text, by computation. *)
Lemma lexes_by s ts : lex sql_patterns (size s) 0 s = (ts, None) -> sql_lexes s (sql_tokens ts) [].
Proof. intros E. exact (proj1 (sql_lex_correct s) ts E). Qed.

Lemma begins_by s ts st l more : lex sql_patterns (size s) 0 s = (ts, None) -> parse_sql s = Ret (Ok st) -> sql_tokens ts = l ++ more -> begins l.
Proof.
  intros E P Q. destruct (parse_sql_correct s) as (r & E' & C). rewrite P in E'. injection E' as <-. destruct (proj1 (C st) eq_refl) as (toks & L & G).
  pose proof (lexes_by s ts E) as L'. destruct (sql_lex_unique _ _ _ _ _ L (or_introl eq_refl) L' (or_introl eq_refl)) as [-> _]. rewrite Q in *.
  exists s, more, st. auto.
Qed.

Definition describe_words : list LrModel.token := [(terminal "DESCRIBE", JsonModel.lit "describe"); (terminal "ID", JsonModel.lit "a"); (terminal ".", JsonModel.lit "."); (terminal "ID", JsonModel.lit "b")].

Theorem expected_wrong : exists s e exp l, parse_sql_report s = Ret (Err (e, exp)) /\ stops_after s e l /\
  length exp = 55 /\ forall u, In u exp -> ~ may_follow l u.
Proof.
  eexists (JsonModel.lit "describe a.b all"), _, _, describe_words.
  split; [vm_compute; reflexivity|]. split; [split|split].
  - eapply (begins_by (JsonModel.lit "describe a.b") _ _ _ []); [vm_compute; reflexivity|vm_compute; reflexivity|vm_compute; reflexivity].
  - cbv beta iota. split.
    + exists []. apply (lexes_by (JsonModel.lit "describe a.b all") _ ltac:(vm_compute; reflexivity)).
    + intros B. refine (never_follows describe_words 14 _ _); [intros w more; vm_compute; reflexivity|]. exists (JsonModel.lit "all"). exact B.
  - vm_compute. reflexivity.
  - intros u I. apply never_follows. intros w more. revert u I.
    match goal with |- forall u, In u ?l -> _ => assert (K : map (fun u => rejected (drive tree Leaf (fun p ts => Ret (Node p ts)) sql_tables 200 [0] [] (describe_words ++ (u, w) :: more))) l = map (fun u => Some (u, w)) l) by (vm_compute; reflexivity) end.
    intros u I. exact (map_same _ _ _ u K I).
Qed.

Definition select_words : list LrModel.token := [(terminal "SELECT", JsonModel.lit "select"); (terminal "HEX_LIT", JsonModel.lit "0x1")].

Theorem expected_missing : exists s e l, parse_sql_report s = Ret (Err (e, [])) /\ stops_after s e l /\ exists u, may_follow l u.
Proof.
  eexists (JsonModel.lit "select 0x1 )"), _, select_words.
  split; [vm_compute; reflexivity|]. split; [split|].
  - eapply (begins_by (JsonModel.lit "select 0x1 from t") _ _ _ _); [vm_compute; reflexivity|vm_compute; reflexivity|].
    instantiate (1 := [(terminal "FROM", JsonModel.lit "from"); (terminal "ID", JsonModel.lit "t")]). vm_compute. reflexivity.
  - cbv beta iota. split.
    + exists []. apply (lexes_by (JsonModel.lit "select 0x1 )") _ ltac:(vm_compute; reflexivity)).
    + intros B. refine (never_follows select_words 2 _ _); [intros w more; vm_compute; reflexivity|]. exists (JsonModel.lit ")"). exact B.
  - exists (terminal "FROM"), (JsonModel.lit "from").
    eapply (begins_by (JsonModel.lit "select 0x1 from t") _ _ _ _); [vm_compute; reflexivity|vm_compute; reflexivity|].
    instantiate (1 := [(terminal "ID", JsonModel.lit "t")]). vm_compute. reflexivity.
Qed.
