(** * Facts about the parsers with byte positions *)

From Verif Require Import Base StrModel Utf8Model JsonModel LexModel LexSpec LexProofs LrModel LrProofs LrViable SqlParseModel PlaceModel PlaceSpec.
Local Open Scope nat_scope.

(** ** Bytes *)

Lemma bytes_app a b : bytes_of (a ++ b) = bytes_of a + bytes_of b.
Proof. unfold bytes_of, utf8_encode. rewrite flat_map_app, app_length. reflexivity. Qed.

Lemma bytes_cons c s : bytes_of (c :: s) = length (utf8_char c) + bytes_of s.
Proof. unfold bytes_of, utf8_encode. cbn [flat_map]. rewrite app_length. reflexivity. Qed.

Lemma char_bytes c : 1 <= length (utf8_char c).
Proof. unfold utf8_char. repeat match goal with |- context [if ?b then _ else _] => destruct b end; cbn [length]; lia. Qed.

Lemma bytes_none s : bytes_of s = 0 -> s = [].
Proof. destruct s as [|c s]; [reflexivity|]. rewrite bytes_cons. pose proof (char_bytes c). lia. Qed.

Lemma split_bytes_app a b : split_bytes (bytes_of a) (a ++ b) = Ret (a, b).
Proof.
  induction a as [|c a IH]; [destruct b; reflexivity|]. rewrite bytes_cons. cbn [app]. pose proof (char_bytes c) as C.
  destruct (length (utf8_char c) + bytes_of a) as [|n] eqn:E; [lia|]. cbn [split_bytes]. rewrite <- E.
  destruct (Nat.leb_spec (length (utf8_char c)) (length (utf8_char c) + bytes_of a)) as [_|L]; [|lia].
  replace (length (utf8_char c) + bytes_of a - length (utf8_char c)) with (bytes_of a) by lia. rewrite IH. reflexivity.
Qed.

Lemma firstn_more m n (s : str) : m <= n -> n <= length s -> bytes_of (firstn m s) <= bytes_of (firstn n s) /\
  (bytes_of (firstn n s) <= bytes_of (firstn m s) -> m = n).
Proof.
  intros L N. rewrite <- (firstn_skipn m (firstn n s)), firstn_firstn, Nat.min_l by lia. rewrite bytes_app. split; [lia|]. intros H.
  assert (Z0 : bytes_of (skipn m (firstn n s)) = 0) by lia. apply bytes_none in Z0. apply (f_equal (@length Z)) in Z0.
  rewrite skipn_length, firstn_length in Z0. cbn [length] in Z0. lia.
Qed.

Lemma lexes_join word blank prefer s a r b r' : lexes word blank prefer s a r -> lexes word blank prefer r b r' -> lexes word blank prefer s (a ++ b) r'.
Proof.
  intros H H'. induction H as [s|c s toks r B _ IH|t w s toks r N W M P _ IH]; [exact H'|exact (L_blank _ _ _ c s _ r' B (IH H'))|].
  exact (L_word _ _ _ t w s _ r' N W M P (IH H')).
Qed.

Lemma lexes_part word blank prefer a : forall s b r, lexes word blank prefer s (a ++ b) r ->
  exists r', lexes word blank prefer s a r' /\ lexes word blank prefer r' b r.
Proof.
  intros s b r H. remember (a ++ b) as l eqn:E. revert a E. induction H as [s|c s toks r B _ IH|t w s toks r N W M P H IH]; intros a E.
  - symmetry in E. apply app_eq_nil in E as [-> ->]. exists s. split; constructor.
  - destruct (IH a E) as (r' & H1 & H2). exists r'. split; [exact (L_blank _ _ _ c s _ r' B H1)|exact H2].
  - destruct a as [|x a]; cbn [app] in E.
    + subst b. exists (w ++ s). split; [constructor|]. exact (L_word _ _ _ t w s _ r N W M P H).
    + injection E as <- E. destruct (IH a E) as (r' & H1 & H2). exists r'. split; [exact (L_word _ _ _ t w s _ r' N W M P H1)|exact H2].
Qed.

Lemma lexes_suffix word blank prefer s toks r : lexes word blank prefer s toks r -> exists b, s = b ++ r.
Proof.
  induction 1 as [s|c s toks r B _ (b & ->)|t w s toks r N W M P _ (b & ->)]; [exists []; reflexivity|exists (c :: b); reflexivity|].
  exists (w ++ b). rewrite <- app_assoc. reflexivity.
Qed.

Section Lexer.
Variable ps : list pattern.
Variable W : nat -> str -> Prop.
Variable n : nat.
Variable blank : Z -> bool.
Variable term : nat -> nat.
Variable word : nat -> str -> Prop.
Variable prefer : nat -> nat -> Prop.
Hypothesis Good : forall j p, nth_error ps j = Some p -> good (fst p) (W j).
Hypothesis Count : length ps = S n.
Hypothesis Flags : forall j r sk, nth_error ps j = Some (r, sk) -> sk = (j =? n).
Hypothesis Blank : forall w, W n w <-> Forall (fun c => blank c = true) w.
Hypothesis Full : forall j, j < n -> ~ W j [].
Hypothesis Dark : forall j c w, j < n -> W j (c :: w) -> blank c = false.
Hypothesis Word : forall t w, word t w <-> exists j, j < n /\ t = term j /\ W j w.
Hypothesis Prefer : forall i j w, i < n -> j < i -> W i w -> W j w -> prefer (term i) (term j) /\ ~ prefer (term j) (term i).

Notation reads := (lexes word blank prefer).

(** ** The longest match *)

Definition alike (s : str) (a : option (nat * nat * bool)) (b : nat * nat * bool) : Prop :=
  match a with
  | Some (m, i, sk) => m <= length s /\ b = (bytes_of (firstn m s), i, sk)
  | None => b = (0, 0, false)
  end.

Lemma longest_alike s : forall l i a b, (forall j p, nth_error l j = Some p -> exists W, good (fst p) W) -> alike s a b ->
  alike s (longest l i s a)
    (fold_left (fun best m => match best, m with (n, _, _), (i, skip, len) => if n <=? len then (len, i, skip) else best end) (matches l i s) b) /\
  (matches l i s = [] -> longest l i s a = a).
Proof.
  induction l as [|[r sk] l IH]; intros i a b G A; [split; [exact A|reflexivity]|].
  cbn [longest matches]. destruct (G 0 _ eq_refl) as (W0 & G0). specialize (G0 s). cbn [fst] in G0.
  assert (G' : forall j p, nth_error l j = Some p -> exists W, good (fst p) W) by (intros j p N; exact (G (S j) p N)).
  destruct (find_re r s) as [rest|]; [|exact (IH _ _ _ G' A)].
  destruct G0 as (w & Es & _). cbn [fold_left]. split; [|discriminate]. apply IH; [exact G'|].
  replace (length s - length rest) with (length w) by (rewrite Es, app_length; lia).
  replace (bytes_of s - bytes_of rest) with (bytes_of w) by (rewrite Es, bytes_app; lia).
  assert (Fw : firstn (length w) s = w) by (rewrite Es, firstn_app, firstn_all, Nat.sub_diag, app_nil_r; reflexivity).
  assert (Lw : length w <= length s) by (rewrite Es, app_length; lia).
  assert (New : alike s (Some (length w, i, sk)) (bytes_of w, i, sk)) by (split; [exact Lw|rewrite Fw; reflexivity]).
  destruct a as [[[m j] sk']|].
  - destruct A as [L ->]. destruct (Nat.leb_spec m (length w)) as [C|C].
    + destruct (firstn_more m (length w) s C Lw) as [K _]. rewrite Fw in K.
      destruct (Nat.leb_spec (bytes_of (firstn m s)) (bytes_of w)); [exact New|lia].
    + destruct (firstn_more (length w) m s ltac:(lia) L) as [_ K]. rewrite Fw in K.
      destruct (Nat.leb_spec (bytes_of (firstn m s)) (bytes_of w)) as [D|D]; [|split; [exact L|reflexivity]].
      specialize (K D). lia.
  - red in A. subst b. destruct (Nat.leb_spec 0 (bytes_of w)); [exact New|lia].
Qed.

Lemma good_all j p : nth_error ps j = Some p -> exists W, good (fst p) W.
Proof. intros E. exists (W j). exact (Good j p E). Qed.

(** ** One token *)

Definition gives (text : str) (c : nat) (o : outcome fetched) : Prop :=
  match o with
  | Ret NoToken => Forall (fun c => blank c = true) text
  | Ret (BadToken p) => exists b r, text = b ++ r /\ Forall (fun c => blank c = true) b /\ stuck word blank r /\ p = c + bytes_of b
  | Ret (Found a (i, w) e lft) => exists b, text = b ++ w ++ lft /\ Forall (fun c => blank c = true) b /\ a = c + bytes_of b /\
      e = a + bytes_of w /\ i < n /\ w <> [] /\ reads (w ++ lft) [(term i, w)] lft
  | _ => False
  end.

Lemma matcher_gives f : forall text c, length text < f -> gives text c (matcher_next ps f text c).
Proof.
  induction f as [|f IH]; intros text c L; [lia|]. cbn [matcher_next]. destruct text as [|x text']; [constructor|]. set (s := x :: text') in *.
  destruct (longest_alike s ps 0 None (0, 0, false) good_all eq_refl) as [Al Nm]. fold (longest_match (matches ps 0 s)) in Al.
  pose proof (longest_here ps W n blank term word prefer Good Count Flags Blank Full Dark Word Prefer s) as Q.
  destruct (longest ps 0 s None) as [[[m b] sk]|]; [|destruct Q].
  destruct (matches ps 0 s) as [|m0 ms]; [specialize (Nm eq_refl); discriminate|].
  destruct Al as [_ ->]. destruct Q as (Q1 & -> & Q3 & Q4 & Q5 & Q6).
  assert (Sp : split_bytes (bytes_of (firstn m s)) s = Ret (firstn m s, skipn m s)).
  { rewrite <- (firstn_skipn m s) at 2. apply split_bytes_app. }
  rewrite Sp. cbn [bind fst snd].
  destruct (Nat.eqb_spec b n) as [->|Nb].
  - destruct (Nat.eqb_spec (bytes_of (firstn m s)) 0) as [E0|E0].
    + assert (m = 0). { apply bytes_none in E0. apply (f_equal (@length Z)) in E0. rewrite firstn_length in E0. cbn [length] in E0. lia. }
      subst m. exists [], s. split; [reflexivity|]. split; [constructor|]. split; [|cbn; lia]. split.
      * destruct (blank x) eqn:Bx; [|reflexivity]. exfalso. assert (1 <= 0); [|lia]. apply (Q5 n). split; [lia|].
        split; [cbn; lia|]. apply Blank. cbn. repeat constructor. exact Bx.
      * intros t w rest E Hw. pose proof (at_most_words ps W n blank term word prefer Good Count Flags Blank Full Dark Word Prefer _ _ Q5 t w rest E Hw) as H. destruct w; [|cbn in H; lia].
        apply Word in Hw as (j & J & _ & Ww). exact (Full j J Ww).
    + assert (M : 0 < m). { destruct m; [|lia]. destruct E0. reflexivity. }
      specialize (IH (skipn m s) (c + bytes_of (firstn m s)) ltac:(rewrite skipn_length; lia)). apply Blank in Q4.
      destruct (matcher_next ps f (skipn m s) _) as [[|p|a [i w] e lft]| |]; try exact IH; cbn [gives] in *.
      * rewrite <- (firstn_skipn m s). apply Forall_app. auto.
      * destruct IH as (b & r & E & Fb & St & ->). exists (firstn m s ++ b), r. rewrite <- app_assoc, <- E, firstn_skipn. split; [reflexivity|].
        split; [apply Forall_app; auto|]. split; [exact St|]. rewrite bytes_app. lia.
      * destruct IH as (b & E & Fb & -> & -> & I1 & I2 & I3). exists (firstn m s ++ b). rewrite <- app_assoc, <- E, firstn_skipn. split; [reflexivity|].
        split; [apply Forall_app; auto|]. rewrite bytes_app. split; [lia|]. split; [lia|]. auto.
  - assert (B : b < n) by lia.
    assert (M : 0 < m). { destruct m; [|lia]. destruct (Full b B Q4). }
    cbn [gives]. exists []. rewrite firstn_skipn. split; [reflexivity|]. split; [constructor|]. split; [cbn; lia|]. split; [lia|]. split; [exact B|].
    split. { intros E. rewrite E in Q4. exact (Full b B Q4). }
    rewrite <- (firstn_skipn m s) at 1. constructor.
    + intros E. rewrite E in Q4. exact (Full b B Q4).
    + apply Word. exists b. auto.
    + rewrite firstn_skipn. replace (length (firstn m s)) with m by (rewrite firstn_length; lia). exact (at_most_words ps W n blank term word prefer Good Count Flags Blank Full Dark Word Prefer _ _ Q5).
    + intros t' H. apply Word in H as (j & J & -> & Wj). destruct (Nat.lt_trichotomy j b) as [C|[->|C]]; [|auto|].
      * right. exact (proj1 (Prefer b j _ B C Q4 Wj)).
      * exfalso. apply (Q6 j C). split; [lia|]. auto.
    + constructor.
Qed.

Lemma next_gives text c : gives text c (next_match ps text c).
Proof. apply matcher_gives. lia. Qed.

(** ** All tokens *)

Notation toks := (map (fun t : placed => snd (fst t))).

Inductive stream : str -> nat -> list placed -> option nat -> Prop :=
| stream_end text c : next_match ps text c = Ret NoToken -> stream text c [] None
| stream_bad text c p : next_match ps text c = Ret (BadToken p) -> stream text c [] (Some p)
| stream_tok text c a i w e lft l x : next_match ps text c = Ret (Found a (i, w) e lft) -> i < n ->
    stream lft e l x -> stream text c ((a, (term i, w), e) :: l) x.

Lemma stream_exists f : forall text c, length text < f -> exists l x, stream text c l x /\ length l <= length text.
Proof.
  induction f as [|f IH]; intros text c L; [lia|]. pose proof (next_gives text c) as G.
  destruct (next_match ps text c) as [[|p|a [i w] e lft]| |] eqn:E; [| | |destruct G|destruct G].
  - exists [], None. split; [constructor; exact E|cbn; lia].
  - exists [], (Some p). split; [constructor; exact E|cbn; lia].
  - destruct G as (b & Et & _ & _ & _ & I1 & I2 & _). destruct (IH lft e) as (l & y & S1 & S2).
    { rewrite Et, !app_length in L. destruct w; [contradiction|]. cbn [length] in L. lia. }
    exists ((a, (term i, w), e) :: l), y. split; [exact (stream_tok _ _ _ _ _ _ _ _ _ E I1 S1)|].
    rewrite Et, !app_length. destruct w; [contradiction|]. cbn [length]. lia.
Qed.

Lemma blanks_read b s l r : Forall (fun c => blank c = true) b -> reads s l r -> reads (b ++ s) l r.
Proof. intros F H. induction F as [|c w B F IH]; [exact H|]. cbn [app]. apply L_blank; assumption. Qed.

Lemma stream_reads text c l x : stream text c l x ->
  match x with
  | None => reads text (toks l) []
  | Some p => exists b r, text = b ++ r /\ reads text (toks l) r /\ stuck word blank r /\ p = c + bytes_of b
  end.
Proof.
  induction 1 as [text c E|text c p E|text c a i w e lft l x E I0 S0 IH]; pose proof (next_gives text c) as G; rewrite E in G; cbn [gives map] in *.
  - rewrite <- (app_nil_r text). apply blanks_read; [exact G|constructor].
  - destruct G as (b & r & -> & Fb & St & ->). exists b, r. split; [reflexivity|]. split; [apply blanks_read; [exact Fb|constructor]|]. auto.
  - destruct G as (b & -> & Fb & -> & -> & _ & _ & R). cbn [fst snd].
    change ((term i, w) :: toks l) with ([(term i, w)] ++ toks l). destruct x as [p|].
    + destruct IH as (b' & r & El & R' & St & ->). exists (b ++ w ++ b'), r. rewrite El, <- !app_assoc. split; [reflexivity|]. rewrite <- El. split.
      { apply blanks_read; [exact Fb|]. exact (lexes_join _ _ _ _ _ _ _ _ R R'). }
      split; [exact St|]. rewrite !bytes_app. lia.
    + apply blanks_read; [exact Fb|]. exact (lexes_join _ _ _ _ _ _ _ _ R IH).
Qed.

Lemma stream_stands l1 : forall text c p t q l2 x, stream text c (l1 ++ (p, t, q) :: l2) x ->
  exists before after, text = before ++ snd t ++ after /\ stands word blank prefer (toks l1) t before after /\
    p = c + bytes_of before /\ q = c + bytes_of (before ++ snd t).
Proof.
  induction l1 as [|y l1 IH]; intros text c p t q l2 x H; cbn [app] in H.
  - inversion H as [| |text0 c0 a i w e lft l x0 E I0 S0]; subst. pose proof (next_gives text c) as G. rewrite E in G. cbn [gives] in G.
    destruct G as (b & -> & Fb & -> & -> & _ & _ & R). exists b, lft. cbn [snd]. split; [reflexivity|]. split; [split|].
    + apply blanks_read; [exact Fb|constructor].
    + exact R.
    + rewrite bytes_app. split; lia.
  - inversion H as [| |text0 c0 a i w e lft l x0 E I0 S0]; subst. pose proof (next_gives text c) as G. rewrite E in G. cbn [gives] in G.
    destruct G as (b & -> & Fb & -> & -> & _ & _ & R). apply IH in S0 as (before & after & El & [S1 S2] & -> & ->).
    exists (b ++ w ++ before), after. rewrite El, <- !app_assoc. split; [reflexivity|]. cbn [map fst snd]. split; [split|].
    + rewrite <- !app_assoc, <- El. apply blanks_read; [exact Fb|]. change ((term i, w) :: toks l1) with ([(term i, w)] ++ toks l1).
      apply (lexes_join _ _ _ _ _ _ _ _ R). rewrite El. exact S1.
    + exact S2.
    + rewrite !bytes_app. split; lia.
Qed.

(** ** The words before a word are determined *)

Lemma head_dark t w : word t w -> exists c w', w = c :: w' /\ blank c = false.
Proof.
  intros H. apply Word in H as (j & J & -> & Ww). destruct w as [|c w]; [destruct (Full j J Ww)|]. exists c, w.
  split; [reflexivity|exact (Dark j c w J Ww)].
Qed.

Definition dark (r : str) : Prop := match r with [] => True | c :: _ => blank c = false end.

Lemma reads_same s l r r' : reads s l r -> reads s l r' -> dark r -> dark r' -> r = r'.
Proof.
  intros R R' D D'. revert R'. induction R as [s|c s l r B R IH|t w s l r N Hw A U R IH]; intros R'.
  - inversion R' as [s0 H1 H2 H3|c0 s0 toks0 r0 B0 R0 H1 H2 H3|]; subst; [reflexivity|]. cbn [dark] in D. congruence.
  - inversion R' as [s0 H1 H2 H3|c0 s0 toks0 r0 B0 R0 H1 H2 H3|t0 w0 s0 toks0 r0 N0 Hw0 A0 U0 R0 H1 H2 H3]; subst.
    + cbn [dark] in D'. congruence.
    + apply IH; assumption.
    + exfalso. destruct (head_dark _ _ Hw0) as (d & w' & -> & K). injection H1 as -> _. congruence.
  - inversion R' as [s0 H1 H2 H3|c0 s0 toks0 r0 B0 R0 H1 H2 H3|t0 w0 s0 toks0 r0 N0 Hw0 A0 U0 R0 H1 H2 H3]; subst.
    + exfalso. destruct (head_dark _ _ Hw) as (d & w' & -> & K). injection H1 as -> _. congruence.
    + apply app_inv_head in H1 as ->. apply IH; assumption.
Qed.

Lemma reads_length s l r : reads s l r -> length r + length (concat (map snd l)) <= length s.
Proof.
  induction 1 as [s|c s toks r B _ IH|t w s toks r N Hw M P _ IH]; cbn [map concat snd length] in *; [lia|lia|]. rewrite !app_length. lia.
Qed.

Lemma one_word t r : reads (snd t ++ r) [t] r -> word (fst t) (snd t).
Proof.
  intros H. inversion H as [|c0 s0 toks0 r0 B0 R0 H1 H2 H3|t0 w0 s0 toks0 r0 N0 Hw0 A0 U0 R0 H1 H2 H3]; subst.
  - exfalso. apply reads_length in R0. cbn [map concat] in R0. rewrite app_nil_r in R0. apply (f_equal (@length Z)) in H1. cbn [length] in H1.
    rewrite !app_length in H1. lia.
  - exact Hw0.
Qed.

Lemma stands_dark l t before after : stands word blank prefer l t before after -> dark (snd t ++ after).
Proof. intros [_ H]. apply one_word in H. destruct (head_dark _ _ H) as (d & w' & -> & K). exact K. Qed.

Lemma stands_same l t before after before' after' :
  before ++ snd t ++ after = before' ++ snd t ++ after' ->
  stands word blank prefer l t before after -> stands word blank prefer l t before' after' -> before = before' /\ after = after'.
Proof.
  intros E H H'. pose proof (stands_dark _ _ _ _ H) as D. pose proof (stands_dark _ _ _ _ H') as D'. destruct H as [H _], H' as [H' _].
  rewrite <- E in H'. pose proof (reads_same _ _ _ _ H H' D D') as Q. apply app_inv_head in Q as <-. apply app_inv_tail in E as ->. auto.
Qed.
End Lexer.
