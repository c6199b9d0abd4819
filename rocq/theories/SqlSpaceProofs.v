(** * Proofs about white space in SQL texts *)

From Coq Require Import Strings.String ZifyBool.
From Verif Require Import Base StrModel JsonModel LexSpec LexProofs SqlGrammar SqlWords SqlParseModel SqlLexProofs SqlParsed SqlSpaceSpec.
Local Open Scope Z_scope.
Local Open Scope list_scope.

Definition loose (c : Z) : Prop := is_whitespace c = true \/ edge c.

Lemma loose_cases c : loose c -> is_whitespace c = true \/ c = 40 \/ c = 41 \/ c = 42 \/ c = 44 \/ c = 47 \/ c = 39.
Proof. unfold loose, edge. cbn [In]. intuition congruence. Qed.

(** Letters of fixed texts with a mark in them. *)
Lemma fixed_loose j : (5 <= j < 83)%nat ->
  forallb (fun k => ((65 <=? k) && (k <=? 95)) || existsb (Z.eqb k) [33; 43; 45; 46; 60; 61; 62; 124])
    (lit (terminal_name (sql_terminal j))) = true \/ exists k, lit (terminal_name (sql_terminal j)) = [k].
Proof.
  intros H.
  assert (A : forallb (fun j => forallb (fun k => ((65 <=? k) && (k <=? 95)) || existsb (Z.eqb k) [33; 43; 45; 46; 60; 61; 62; 124])
    (lit (terminal_name (sql_terminal j))) || (size (lit (terminal_name (sql_terminal j))) =? 1)%nat) (seq 5 78) = true)
    by (vm_compute; reflexivity).
  rewrite forallb_forall in A. specialize (A j). rewrite in_seq in A. specialize (A ltac:(lia)).
  apply orb_true_iff in A as [A|A]; [left; exact A|right]. apply Nat.eqb_eq in A.
  destruct (lit (terminal_name (sql_terminal j))) as [|k [|]]; try discriminate. eauto.
Qed.

Lemma in_forall {A} (P : A -> Prop) c l : Forall P l -> In c l -> P c.
Proof. intros F. rewrite Forall_forall in F. apply F. Qed.

Lemma exponent_in w c : exponent w -> In c w -> c = 69 \/ c = 43 \/ c = 45 \/ digit c.
Proof.
  intros [->|(sg & ds & -> & S & _ & F)] I; [destruct I|]. cbn [In] in I. destruct I as [<-|I]; [auto|].
  apply in_app_or in I as [I|I].
  - destruct S as [->|[->| ->]]; cbn [In] in I; intuition.
  - right. right. right. exact (in_forall _ _ _ F I).
Qed.

(** A word with white space or a mark in it is the mark alone, or quoted. *)
Lemma word_loose t w c : sql_word t w -> In c w -> loose c -> w = [c] \/ quoted w.
Proof.
  intros H I L. apply word_pattern in H as (j & J & _ & H). apply loose_cases in L.
  assert (D : ((c <= 32 \/ 133 <= c) /\ c <> 383 /\ c <> 8490) \/ c = 40 \/ c = 41 \/ c = 42 \/ c = 44 \/ c = 47 \/ c = 39).
  { destruct L as [L|L]; [left|right; exact L]. unfold is_whitespace in L. lia. }
  clear L.
  destruct (Nat.lt_ge_cases j 5) as [C|C].
  - destruct j as [|[|[|[|[|j]]]]]; [..|lia].
    + right. exact H.
    + exfalso. destruct H as (ds & -> & _ & F). cbn [In] in I. destruct I as [I|[I|I]]; [lia|lia|].
      apply (in_forall _ _ _ F) in I. unfold hex_digit, digit in I. lia.
    + exfalso. destruct H as (ds & f & e & -> & _ & F & G & E). rewrite !in_app_iff in I. destruct I as [I|[I|I]].
      * apply (in_forall _ _ _ F) in I. unfold digit in I. lia.
      * destruct G as [->|(fs & -> & G)]; [destruct I|]. cbn [In] in I. destruct I as [I|I]; [lia|].
        apply (in_forall _ _ _ G) in I. unfold digit in I. lia.
      * apply (exponent_in _ _ E) in I. unfold digit in I. lia.
    + exfalso. destruct H as (k & cs & -> & N & F). cbn [In] in I. destruct I as [<-|I].
      * unfold name_start in N. lia.
      * apply (in_forall _ _ _ F) in I. unfold name_char, name_start, digit in I. lia.
    + exfalso. destruct H as (ds & e & -> & _ & F & E). cbn [In] in I. rewrite in_app_iff in I. destruct I as [I|[I|I]].
      * lia.
      * apply (in_forall _ _ _ F) in I. unfold digit in I. lia.
      * apply (exponent_in _ _ E) in I. unfold digit in I. lia.
  - left. rewrite W_fixed in H by lia. destruct (fixed_loose j ltac:(lia)) as [A|[k E]].
    + exfalso. assert (exists k, In k (lit (terminal_name (sql_terminal j))) /\ same_letter c k) as (k & K & S).
      { clear - H I. induction H as [|x y w l S F IH]; [destruct I|]. destruct I as [->|I].
        - exists y. cbn. auto.
        - destruct (IH I) as (k & K & S'). exists k. cbn. auto. }
      rewrite forallb_forall in A. apply A in K. cbn [existsb] in K. unfold same_letter in S. lia.
    + rewrite E in H. inversion H as [|x y w' l S F]; subst. inversion F; subst. destruct I as [->|[]]. reflexivity.
Qed.

Lemma quoted_word t w : sql_word t w -> hd_error w = Some 39 -> quoted w.
Proof.
  intros H E. destruct w as [|c w]; [discriminate|]. injection E as ->.
  destruct (word_loose t _ 39 H (or_introl eq_refl)) as [Q|Q]; [right; cbn; tauto| |exact Q].
  exfalso. injection Q as ->. apply word_pattern in H as (j & J & _ & H).
  pose proof (W_head _ _ J H) as (c & w' & X & K). injection X as <- <-.
  destruct (head_kind _ _ J K) as [_ N]. destruct (Nat.lt_ge_cases j 5) as [C|C].
  - destruct j as [|[|[|[|[|j]]]]]; [..|lia]; cbn [head_ok] in K; unfold digit, name_start in K; try lia.
    destruct H as (cs & X & _). destruct cs; discriminate X.
  - destruct (N C). congruence.
Qed.

Lemma quoted_prefix w z : quoted w -> quoted (w ++ z) -> z = [].
Proof.
  intros (cs & -> & F) (ds & E & G). cbn [app] in E. injection E as E. rewrite <- app_assoc in E. cbn [app] in E.
  revert ds E G. induction F as [|c cs Q F IH]; intros [|d ds] E G; cbn [app] in E.
  - injection E as ->. reflexivity.
  - injection E as <- E. apply Forall_inv in G. destruct G as (_ & G & _). congruence.
  - injection E as -> E. destruct Q as (_ & Q & _). congruence.
  - injection E as _ E. exact (IH ds E (Forall_inv_tail G)).
Qed.

(** A longer word at the place of a word has no white space or mark in it. *)
Lemma no_longer t w t' w' z c : sql_word t w -> w <> [] -> sql_word t' w' -> w' = w ++ z -> z <> [] -> In c w' -> ~ loose c.
Proof.
  intros H N H' E Z I L. destruct (word_loose _ _ _ H' I L) as [->|Q].
  - destruct w as [|x w]; [contradiction|]. injection E as -> E. symmetry in E. apply app_eq_nil in E as [_ E]. contradiction.
  - assert (hd_error w = Some 39) as Hd.
    { destruct w as [|x w]; [contradiction|]. destruct Q as (cs & Q & _). rewrite E in Q. injection Q as -> _. reflexivity. }
    apply Z. apply (quoted_prefix w z); [exact (quoted_word t w H Hd)|congruence].
Qed.

Lemma open_loose a b : open_place a b ->
  a = [] \/ b = [] \/ (exists a' c, a = a' ++ [c] /\ loose c) \/ (exists c b', b = c :: b' /\ loose c).
Proof. intros H. exact H. Qed.

Lemma open_skip x a b : a <> [] -> open_place (x ++ a) b -> open_place a b.
Proof.
  intros N [H|[H|[H|H]]].
  - apply app_eq_nil in H as [_ H]. contradiction.
  - right. left. exact H.
  - right. right. left. destruct H as (a' & c & E & L). exists (removelast a), c. split; [|exact L].
    pose proof (app_removelast_last 0 N) as R. rewrite R in E at 1. rewrite app_assoc in E. apply app_inj_tail in E as [_ E].
    rewrite R at 1. congruence.
  - right. right. right. exact H.
Qed.

(** Words that fit before [r] fit before [b]. *)
Lemma at_most_open t w a r b : sql_word t w -> w <> [] -> open_place (w ++ a) b ->
  at_most sql_word (size w) (w ++ a ++ r) -> at_most sql_word (size w) (w ++ a ++ b).
Proof.
  intros H N O A t' w' rest E H'.
  destruct (Nat.le_gt_cases (size w') (size w)) as [|Lw]; [assumption|exfalso].
  assert (P : exists z, w' = w ++ z).
  { exists (skipn (size w) w'). rewrite <- (firstn_skipn (size w) w') at 1. f_equal.
    apply (f_equal (firstn (size w))) in E. rewrite !firstn_app in E.
    rewrite firstn_all, Nat.sub_diag in E. cbn [firstn] in E. rewrite app_nil_r in E.
    replace (size w - size w')%nat with 0%nat in E by lia. cbn [firstn] in E. rewrite app_nil_r in E. now symmetry. }
  destruct P as [z Ez].
  assert (Nz : z <> []) by (intros ->; rewrite app_nil_r in Ez; subst w'; lia).
  destruct (Nat.le_gt_cases (size w') (size (w ++ a))) as [Lc|Lc].
  - (* inside the old text *)
    enough (size w' <= size w)%nat by lia.
    apply (A t' w' (skipn (size w') (w ++ a) ++ r)); [|exact H'].
    assert (Q : w' = firstn (size w') (w ++ a)).
    { rewrite app_assoc in E. apply (f_equal (firstn (size w'))) in E. rewrite (firstn_app _ (w ++ a) b), (firstn_app _ w' rest) in E.
      rewrite firstn_all, Nat.sub_diag in E. cbn [firstn] in E. rewrite app_nil_r in E.
      replace (size w' - size (w ++ a))%nat with 0%nat in E by lia. cbn [firstn] in E. rewrite app_nil_r in E. now symmetry. }
    rewrite app_assoc. rewrite Q at 1. rewrite app_assoc. f_equal. now rewrite firstn_skipn.
  - assert (Q : exists y d, w' = (w ++ a) ++ d :: y /\ hd_error b = Some d).
    { assert (X : firstn (size (w ++ a)) w' = w ++ a).
      { rewrite app_assoc in E. apply (f_equal (firstn (size (w ++ a)))) in E. rewrite (firstn_app _ (w ++ a)) in E.
        rewrite firstn_all, Nat.sub_diag in E. cbn [firstn] in E. rewrite app_nil_r in E.
        rewrite firstn_app in E. replace (size (w ++ a) - size w')%nat with 0%nat in E by lia.
        cbn [firstn] in E. rewrite app_nil_r in E. now symmetry. }
      pose proof (firstn_skipn (size (w ++ a)) w') as Y. rewrite X in Y.
      destruct (skipn (size (w ++ a)) w') as [|d y] eqn:D.
      { exfalso. apply (f_equal (@List.length Z)) in D. rewrite skipn_length in D. cbn in D. lia. }
      exists y, d. split; [now symmetry|]. rewrite <- Y in E. rewrite <- !app_assoc in E. do 2 apply app_inv_head in E. rewrite E. reflexivity. }
    destruct Q as (y & d & Q & Hb). destruct (open_loose _ _ O) as [X|[X|[(a' & c & X & L)|(c & b' & X & L)]]].
    + apply app_eq_nil in X as [X _]. contradiction.
    + subst b. discriminate.
    + apply (no_longer t w t' w' z c H N H' Ez Nz); [|exact L]. rewrite Q, X. rewrite !in_app_iff. cbn. tauto.
    + subst b. injection Hb as ->. apply (no_longer t w t' w' z d H N H' Ez Nz); [|exact L].
      rewrite Q. rewrite in_app_iff. cbn. tauto.
Qed.

Lemma lexes_suffix s toks r : sql_lexes s toks r -> exists a, s = a ++ r.
Proof.
  intros H. induction H as [s|c s toks r B R [a ->]|t w s toks r N Hw A U R [a ->]].
  - exists []. reflexivity.
  - exists (c :: a). reflexivity.
  - exists (w ++ a). now rewrite app_assoc.
Qed.

(** The text after a place can be exchanged. *)
Lemma lexes_exchange s toks r : sql_lexes s toks r -> forall a b, s = a ++ r -> open_place a b -> sql_lexes (a ++ b) toks b.
Proof.
  intros H. induction H as [s|c s toks r B R IH|t w s toks r N Hw A U R IH]; intros a b E O.
  - assert (a = []) as ->. { apply (f_equal (@List.length Z)) in E. rewrite app_length in E. destruct a; [reflexivity|cbn in E; lia]. }
    constructor.
  - destruct (lexes_suffix _ _ _ R) as [a1 ->]. assert (a = c :: a1) as ->.
    { change (c :: a1 ++ r) with ((c :: a1) ++ r) in E. now apply app_inv_tail in E. }
    cbn [app]. apply L_blank; [exact B|].
    destruct a1 as [|x a1]; [exact (IH [] b eq_refl (or_introl eq_refl))|].
    apply IH; [reflexivity|]. apply (open_skip [c]); [discriminate|exact O].
  - destruct (lexes_suffix _ _ _ R) as [a1 ->]. assert (a = w ++ a1) as ->.
    { rewrite app_assoc in E. now apply app_inv_tail in E. }
    rewrite <- app_assoc. apply L_word; [exact N|exact Hw| |exact U|].
    + exact (at_most_open t w a1 r b Hw N O A).
    + destruct a1 as [|x a1]; [exact (IH [] b eq_refl (or_introl eq_refl))|].
      apply IH; [reflexivity|]. apply (open_skip w); [discriminate|exact O].
Qed.

Lemma lexes_app s toks r : sql_lexes s toks r -> forall toks', sql_lexes r toks' [] -> sql_lexes s (toks ++ toks') [].
Proof.
  intros H. induction H as [s|c s toks r B R IH|t w s toks r N Hw A U R IH]; intros toks' R'; cbn [app].
  - exact R'.
  - apply L_blank; [exact B|]. apply IH, R'.
  - apply L_word; try assumption. apply IH, R'.
Qed.

Lemma sql_word_head t w : sql_word t w -> exists c w', w = c :: w' /\ is_whitespace c = false.
Proof.
  intros H. apply word_pattern in H as (j & J & _ & H). destruct (W_head _ _ J H) as (c & w' & -> & _).
  exists c, w'. split; [reflexivity|]. exact (dark j c w' J H).
Qed.

Lemma lexes_rest s toks r : sql_lexes s toks r -> forall all, sql_lexes s all [] ->
  exists toks', all = toks ++ toks' /\ sql_lexes r toks' [].
Proof.
  intros H. induction H as [s|c s toks r B R IH|t w s toks r N Hw A U R IH]; intros all R'.
  - exists all. auto.
  - apply IH. inversion R' as [s0 H1 H2 H3|c0 s0 toks0 r0 B0 R0 H1 H2 H3|t0 w0 s0 toks0 r0 N0 Hw0 A0 U0 R0 H1 H2 H3]; subst.
    + exact R0.
    + exfalso. destruct (sql_word_head _ _ Hw0) as (d & w' & -> & D). injection H1 as -> _. congruence.
  - destruct all as [|[t0 w0] all].
    + exfalso. destruct (sql_word_head _ _ Hw) as (d & w' & -> & D).
      inversion R' as [s0 H1 H2 H3|c0 s0 toks0 r0 B0 R0 H1 H2 H3|]; subst; congruence.
    + destruct (sql_lex_unique (w ++ s) ((t0, w0) :: all) [] ((t0, w0) :: all) [] R' (or_introl eq_refl) R' (or_introl eq_refl)) as [_ _].
      inversion R' as [s0 H1 H2 H3|c0 s0 toks0 r0 B0 R0 H1 H2 H3|t1 w1 s0 toks0 r0 N0 Hw0 A0 U0 R0 H1 H2 H3]; subst.
      * exfalso. destruct (sql_word_head _ _ Hw) as (d & w' & -> & D). injection H1 as -> _. congruence.
      * pose proof (A t0 w0 s0 (eq_sym H1) Hw0) as L1. rewrite H1 in A0. pose proof (A0 t w s eq_refl Hw) as L2.
        destruct (app_same_length _ _ _ _ H1) as [-> ->]; [lia|]. destruct (IH all R0) as (toks' & -> & R1).
        exists toks'. split; [|exact R1]. cbn [app]. do 2 f_equal.
        destruct (U0 t Hw) as [->|P]; [reflexivity|]. destruct (U t0 Hw0) as [->|P']; [reflexivity|].
        destruct P as [P1 P2], P' as [P3 P4]. congruence.
Qed.

Lemma lexes_blanks w s toks r : blanks w -> sql_lexes s toks r -> sql_lexes (w ++ s) toks r.
Proof. intros F H. induction F as [|c w B F IH]; [exact H|]. cbn [app]. apply L_blank; assumption. Qed.

Lemma lexes_unblank w s toks : blanks w -> sql_lexes (w ++ s) toks [] -> sql_lexes s toks [].
Proof.
  intros F H. induction F as [|c w B F IH]; [exact H|]. apply IH. cbn [app] in H.
  inversion H as [s0 H1 H2 H3|c0 s0 toks0 r0 B0 R0 H1 H2 H3|t0 w0 s0 toks0 r0 N0 Hw0 A0 U0 R0 H1 H2 H3]; subst.
  - exact R0.
  - exfalso. destruct (sql_word_head _ _ Hw0) as (d & w' & -> & D). injection H1 as -> _. congruence.
Qed.

(** ** Adding and removing white space *)

Lemma words_same a b sp toks : blanks sp -> sql_lexes (a ++ b) toks b -> open_place a (sp ++ b) ->
  forall all, sql_lexes (a ++ b) all [] <-> sql_lexes (a ++ sp ++ b) all [].
Proof.
  intros F H O all. pose proof (lexes_exchange _ _ _ H a (sp ++ b) eq_refl O) as H'. split; intros R.
  - destruct (lexes_rest _ _ _ H _ R) as (toks' & -> & R'). apply (lexes_app _ _ _ H'). now apply lexes_blanks.
  - destruct (lexes_rest _ _ _ H' _ R) as (toks' & -> & R'). apply (lexes_app _ _ _ H). now apply lexes_unblank in R'.
Qed.

Lemma space_added a b sp toks st : blanks sp -> sql_lexes (a ++ b) toks b ->
  (parse_sql (a ++ sp ++ b) = Ret (Ok st) <-> parse_sql (a ++ b) = Ret (Ok st)).
Proof.
  intros F H. destruct sp as [|c sp]; [reflexivity|].
  assert (O : open_place a ((c :: sp) ++ b)).
  { right. right. right. exists c, (sp ++ b). split; [reflexivity|]. left. exact (Forall_inv F). }
  rewrite !parse_grammar. split; intros (all & R & G); exists all; split; try exact G;
    now apply (words_same a b (c :: sp) toks F H O).
Qed.

Lemma space_removed a b sp toks st : blanks sp -> sql_lexes (a ++ sp ++ b) toks (sp ++ b) -> open_place a b ->
  (parse_sql (a ++ b) = Ret (Ok st) <-> parse_sql (a ++ sp ++ b) = Ret (Ok st)).
Proof.
  intros F H O. pose proof (lexes_exchange _ _ _ H a b eq_refl O) as H'. symmetry. eapply space_added; eassumption.
Qed.

Lemma spaced_lexes : forall toks spaces, size spaces = size toks -> Forall (fun s => blanks s /\ s <> []) spaces ->
  Forall (fun t => sql_word (fst t) (snd t) /\ forall t', sql_word t' (snd t) -> t' = fst t \/ sql_prefer (fst t) t') toks ->
  sql_lexes (spaced toks spaces) toks [].
Proof.
  induction toks as [|[t w] toks IH]; intros [|sp spaces] L F G; try discriminate; cbn [spaced snd].
  - constructor.
  - inversion F as [|? ? [F1 F2] F3]; subst. inversion G as [|? ? [G1 G2] G3]; subst. cbn [fst snd] in G1, G2.
    injection L as L. destruct (sql_word_head _ _ G1) as (d & w' & Ew & _).
    assert (N : w <> []) by (rewrite Ew; discriminate).
    apply L_word; [exact N|exact G1| |exact G2|].
    + destruct sp as [|c sp]; [contradiction|].
      apply (at_most_open t w [] [] ((c :: sp) ++ spaced toks spaces) G1 N).
      * right. right. right. exists c, (sp ++ spaced toks spaces). split; [reflexivity|]. left. exact (Forall_inv F1).
      * intros t' v rest E _. rewrite !app_nil_r in E. rewrite E, app_length. lia.
    + apply lexes_blanks; [exact F1|]. apply IH; assumption.
Qed.

Lemma lexes_words s toks r : sql_lexes s toks r ->
  Forall (fun t => sql_word (fst t) (snd t) /\ forall t', sql_word t' (snd t) -> t' = fst t \/ sql_prefer (fst t) t') toks.
Proof. intros H. induction H as [s|c s toks r B R IH|t w s toks r N Hw A U R IH]; [constructor|exact IH|constructor; [split|]; assumption]. Qed.

Lemma words_spaced s toks spaces st : sql_lexes s toks [] -> size spaces = size toks -> Forall (fun w => blanks w /\ w <> []) spaces ->
  (parse_sql (spaced toks spaces) = Ret (Ok st) <-> parse_sql s = Ret (Ok st)).
Proof.
  intros H L F. pose proof (spaced_lexes toks spaces L F (lexes_words _ _ _ H)) as H'.
  rewrite !parse_grammar. split; intros (all & R & G); exists all; split; try exact G.
  - destruct (lexes_rest _ _ _ H' _ R) as (l & -> & R'). apply (lexes_app _ _ _ H). exact R'.
  - destruct (lexes_rest _ _ _ H _ R) as (l & -> & R'). apply (lexes_app _ _ _ H'). exact R'.
Qed.
