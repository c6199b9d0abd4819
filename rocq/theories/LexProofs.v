(** * Facts about the lexers of LALRPOP *)

From Verif Require Import Base StrModel LexModel LexSpec.
Local Open Scope nat_scope.

(** ** Patterns find the longest match

    [good r W]: the pattern finds the longest prefix in [W], and something if there is any. *)
Definition good (r : re) (W : str -> Prop) : Prop :=
  forall s,
    match find_re r s with
    | Some rest => exists w, s = w ++ rest /\ W w /\ forall w' r', s = w' ++ r' -> W w' -> length w' <= length w
    | None => forall w' r', s = w' ++ r' -> ~ W w'
    end.

Lemma good_iff r W W' : good r W -> (forall w, W w <-> W' w) -> good r W'.
Proof.
  intros G E s. specialize (G s). destruct (find_re r s) as [rest|].
  - destruct G as (w & Es & Ww & M). exists w. split; [exact Es|]. split; [apply E; exact Ww|].
    intros w' r' E' W0. apply (M w' r' E'). apply E. exact W0.
  - intros w' r' E' W0. apply (G w' r' E'). apply E. exact W0.
Qed.

Lemma good_eps : good Eps (fun w => w = []).
Proof. intros s. exists []. split; [reflexivity|]. split; [reflexivity|]. intros w' r' _ ->. reflexivity. Qed.

Definition starts (k : cls) (W : str -> Prop) (w : str) : Prop := exists c w', w = c :: w' /\ in_cls k c = true /\ W w'.

Lemma good_cls k r W : good r W -> good (Seq (Cls k) r) (starts k W).
Proof.
  intros G s. unfold find_re. cbn [search]. destruct s as [|c s'].
  - intros w' r' E (c & w0 & -> & _). discriminate.
  - destruct (in_cls k c) eqn:K.
    + specialize (G s'). unfold find_re in G. destruct (search str r s' Some) as [rest|].
      * destruct G as (w & -> & Ww & M). exists (c :: w). split; [reflexivity|]. split; [exists c, w; auto|].
        intros w' r' E (c' & w0 & -> & K' & W0). injection E as <- E. cbn. apply le_n_S. exact (M w0 r' E W0).
      * intros w' r' E (c' & w0 & -> & K' & W0). injection E as <- E. exact (G w0 r' E W0).
    + intros w' r' E (c' & w0 & -> & K' & W0). injection E as <- E. congruence.
Qed.

(** No word of [W] starts with a character of [k]. *)
Definition avoids (k : cls) (W : str -> Prop) : Prop := forall c w, W (c :: w) -> in_cls k c = false.

Definition many (k : cls) (W : str -> Prop) (w : str) : Prop :=
  exists a b, w = a ++ b /\ Forall (fun c => in_cls k c = true) a /\ W b.

Lemma good_star k r W : good r W -> avoids k W -> good (Seq (Star k) r) (many k W).
Proof.
  intros G A. intros s. unfold find_re. cbn [search]. induction s as [|c s' IH].
  - cbn [search_star]. specialize (G []). unfold find_re in G. destruct (search str r [] Some) as [rest|].
    + destruct G as (w & E & Ww & M). exists w. split; [exact E|]. split; [exists [], w; auto|].
      intros w' r' E' _. destruct w'; [cbn; lia|discriminate].
    + intros w' r' E (a & b & -> & F & Wb). symmetry in E. apply app_eq_nil in E as [E ->]. apply app_eq_nil in E as [-> ->].
      exact (G [] [] eq_refl Wb).
  - cbn [search_star]. destruct (in_cls k c) eqn:K.
    + destruct (search_star str k s' _) as [rest|] eqn:E0.
      * destruct IH as (w & -> & (a & b & -> & F & Wb) & M). exists (c :: a ++ b). split; [reflexivity|]. split.
        { exists (c :: a), b. split; [reflexivity|]. split; [constructor; assumption|exact Wb]. }
        intros w' r' E (a' & b' & -> & F' & Wb'). destruct a' as [|x a'].
        -- cbn [app] in *. destruct b' as [|y b']; [cbn; lia|]. injection E as <- E. rewrite (A _ _ Wb') in K. discriminate.
        -- injection E as <- E. apply Forall_inv_tail in F'. cbn [length app]. apply le_n_S. apply (M (a' ++ b') r'); [exact E|].
           exists a', b'. auto.
      * specialize (G (c :: s')). unfold find_re in G. destruct (search str r (c :: s') Some) as [rest|].
        -- destruct G as (w & E & Ww & M). destruct w as [|x w].
           ++ exfalso. apply (IH [] s' eq_refl). exists [], []. auto.
           ++ injection E as <- E. rewrite (A _ _ Ww) in K. discriminate.
        -- intros w' r' E (a & b & -> & F & Wb). destruct a as [|x a].
           ++ exact (G b r' E Wb).
           ++ injection E as <- E. apply Forall_inv_tail in F. apply (IH (a ++ b) r' E). exists a, b. auto.
    + specialize (G (c :: s')). unfold find_re in G.
      assert (N : forall w' r', c :: s' = w' ++ r' -> many k W w' -> W w').
      { intros w' r' E (a & b & -> & F & Wb). destruct a as [|x a]; [exact Wb|]. injection E as <- _. inversion F. congruence. }
      destruct (search str r (c :: s') Some) as [rest|].
      * destruct G as (w & E & Ww & M). exists w. split; [exact E|]. split; [exists [], w; auto|].
        intros w' r' E' Mw. exact (M w' r' E' (N w' r' E' Mw)).
      * intros w' r' E Mw. exact (G w' r' E (N w' r' E Mw)).
Qed.

(** An optional part that starts with a character of [k], before [r]. *)
Lemma good_opt k a r Wa W : good (Seq a r) Wa -> good r W -> avoids k W ->
  good (Seq (Opt (Seq (Cls k) a)) r) (fun w => W w \/ starts k Wa w).
Proof.
  intros Ga G A s. unfold find_re. cbn [search].
  assert (R : (forall w' r', s = w' ++ r' -> ~ starts k Wa w') ->
    match search str r s Some with
    | Some rest => exists w, s = w ++ rest /\ (W w \/ starts k Wa w) /\
        forall w' r', s = w' ++ r' -> W w' \/ starts k Wa w' -> length w' <= length w
    | None => forall w' r', s = w' ++ r' -> ~ (W w' \/ starts k Wa w')
    end).
  { intros N. specialize (G s). unfold find_re in G. destruct (search str r s Some) as [rest|].
    - destruct G as (w & E & Ww & M). exists w. split; [exact E|]. split; [left; exact Ww|].
      intros w' r' E' [W'|S']; [exact (M w' r' E' W')|]. exfalso. exact (N w' r' E' S').
    - intros w' r' E' [W'|S']; [exact (G w' r' E' W')|exact (N w' r' E' S')]. }
  destruct s as [|c s'].
  - apply R. intros w' r' E (c & w0 & -> & _). discriminate.
  - destruct (in_cls k c) eqn:K.
    + specialize (Ga s'). unfold find_re in Ga. cbn [search] in Ga. destruct (search str a s' _) as [rest|].
      * destruct Ga as (w & -> & Ww & M). exists (c :: w). split; [reflexivity|]. split; [right; exists c, w; auto|].
        intros w' r' E [W'|(c' & w0 & -> & K' & W0)].
        -- destruct w' as [|x w']; [cbn; lia|]. injection E as <- _. rewrite (A _ _ W') in K. discriminate.
        -- injection E as <- E. cbn. apply le_n_S. exact (M w0 r' E W0).
      * apply R. intros w' r' E (c' & w0 & -> & K' & W0). injection E as <- E. exact (Ga w0 r' E W0).
    + apply R. intros w' r' E (c' & w0 & -> & K' & W0). injection E as <- E. congruence.
Qed.

(** Patterns that search alike are good for the same words. *)
Lemma good_same r r' W : (forall s, find_re r s = find_re r' s) -> good r W -> good r' W.
Proof. intros E G s. rewrite <- E. apply G. Qed.

Lemma good_fixed l : good (fixed l) (fun w => Forall2 (fun c k => in_cls (Ranges k) c = true) w l).
Proof.
  induction l as [|k l IH].
  - eapply good_iff; [apply good_eps|]. intros w. split; [intros ->; constructor|intros H; inversion H; reflexivity].
  - eapply good_same; [|eapply good_iff; [apply (good_cls (Ranges k) (fixed l)); exact IH|]].
    + intros s. unfold find_re. destruct l as [|k' l]; reflexivity.
    + intros w. split.
      * intros (c & w' & -> & K & F). constructor; assumption.
      * intros F. inversion F as [|c ? w' ? K F']; subst. exists c, w'. auto.
Qed.

(** ** The longest of the matches *)

Definition holds (W : nat -> str -> Prop) (n : nat) (s : str) (i m : nat) : Prop := i < n /\ m <= length s /\ W i (firstn m s).

Lemma longest_spec W s ps : forall i best,
  (forall j p, nth_error ps j = Some p -> good (fst p) (W (i + j))) ->
  match best with
  | Some (m, b, sk) => b < i /\ m <= length s /\ W b (firstn m s) /\
      (forall j n, holds W i s j n -> n <= m) /\ (forall j, b < j -> ~ holds W i s j m)
  | None => forall j n, ~ holds W i s j n
  end ->
  match longest ps i s best with
  | Some (m, b, sk) => b < i + length ps /\ m <= length s /\ W b (firstn m s) /\
      (forall j n, holds W (i + length ps) s j n -> n <= m) /\ (forall j, b < j -> ~ holds W (i + length ps) s j m)
  | None => forall j n, ~ holds W (i + length ps) s j n
  end.
Proof.
  induction ps as [|[r sk] ps IH]; intros i best G B.
  - cbn [longest length]. rewrite Nat.add_0_r. exact B.
  - cbn [longest length]. rewrite <- Nat.add_succ_comm. apply IH.
    { intros j p Hj. rewrite Nat.add_succ_comm. apply (G (S j) p Hj). }
    specialize (G 0 (r, sk) eq_refl). rewrite Nat.add_0_r in G. specialize (G s). cbn [fst] in G.
    destruct (find_re r s) as [rest|].
    + destruct G as (w & -> & Ww & M).
      replace (length (w ++ rest) - length rest) with (length w) by (rewrite app_length; lia).
      assert (Fw : firstn (length w) (w ++ rest) = w) by (rewrite firstn_app, firstn_all, Nat.sub_diag, app_nil_r; reflexivity).
      assert (Lw : length w <= length (w ++ rest)) by (rewrite app_length; lia).
      assert (Mi : forall m, m <= length (w ++ rest) -> W i (firstn m (w ++ rest)) -> m <= length w).
      { intros m Hm Wm. specialize (M (firstn m (w ++ rest)) (skipn m (w ++ rest)) (eq_sym (firstn_skipn _ _)) Wm).
        rewrite firstn_length in M. lia. }
      assert (New : (forall j n, holds W i (w ++ rest) j n -> n <= length w) ->
        i < S i /\ length w <= length (w ++ rest) /\ W i (firstn (length w) (w ++ rest)) /\
        (forall j n, holds W (S i) (w ++ rest) j n -> n <= length w) /\
        (forall j, i < j -> ~ holds W (S i) (w ++ rest) j (length w))).
      { intros O. split; [lia|]. split; [exact Lw|]. split; [rewrite Fw; exact Ww|]. split.
        - intros j n (J & N & Wn). destruct (Nat.eq_dec j i) as [->|Q]; [exact (Mi n N Wn)|]. apply (O j n). split; [lia|auto].
        - intros j J (J' & _). lia. }
      destruct best as [[[m b] sk']|].
      * destruct B as (Bb & Bm & Bw & Bl & Bt). destruct (Nat.leb_spec m (length w)) as [C|C].
        -- apply New. intros j n H. specialize (Bl j n H). lia.
        -- split; [lia|]. split; [exact Bm|]. split; [exact Bw|]. split.
           ++ intros j n (J & N & Wn). destruct (Nat.eq_dec j i) as [->|Q]; [specialize (Mi n N Wn); lia|].
              apply (Bl j n). split; [lia|auto].
           ++ intros j J (J' & N & Wn). destruct (Nat.eq_dec j i) as [->|Q]; [specialize (Mi m N Wn); lia|].
              apply (Bt j J). split; [lia|auto].
      * apply New. intros j n H. destruct (B j n H).
    + assert (Mi : forall m, ~ W i (firstn m s)).
      { intros m Wm. exact (G _ (skipn m s) (eq_sym (firstn_skipn _ _)) Wm). }
      destruct best as [[[m b] sk']|].
      * destruct B as (Bb & Bm & Bw & Bl & Bt). split; [lia|]. split; [exact Bm|]. split; [exact Bw|]. split.
        -- intros j n (J & N & Wn). destruct (Nat.eq_dec j i) as [->|Q]; [destruct (Mi n Wn)|]. apply (Bl j n). split; [lia|auto].
        -- intros j J (J' & N & Wn). destruct (Nat.eq_dec j i) as [->|Q]; [destruct (Mi m Wn)|]. apply (Bt j J). split; [lia|auto].
      * intros j n (J & N & Wn). destruct (Nat.eq_dec j i) as [->|Q]; [destruct (Mi n Wn)|]. apply (B j n). split; [lia|auto].
Qed.

Lemma longest_skip s ps : forall i best m b sk,
  longest ps i s best = Some (m, b, sk) ->
  best = Some (m, b, sk) \/ exists j r, b = i + j /\ nth_error ps j = Some (r, sk).
Proof.
  induction ps as [|[r sk0] ps IH]; intros i best m b sk E; [left; exact E|].
  cbn [longest] in E. apply IH in E as [E|(j & r' & -> & N)].
  - destruct (find_re r s); [|left; exact E]. destruct best as [[[m' b'] sk']|].
    + destruct (m' <=? _); [|left; exact E]. injection E as <- <- <-. right. exists 0, r. split; [lia|reflexivity].
    + injection E as <- <- <-. right. exists 0, r. split; [lia|reflexivity].
  - right. exists (S j), r'. split; [lia|exact N].
Qed.

(** ** A lexer with one pattern for blanks, the last *)

Lemma app_same_length (w1 s1 w2 s2 : str) : w1 ++ s1 = w2 ++ s2 -> length w1 = length w2 -> w1 = w2 /\ s1 = s2.
Proof.
  revert w2. induction w1 as [|c w1 IH]; intros [|d w2] E L; try discriminate; [auto|].
  injection E as <- E. injection L as L. destruct (IH w2 E L) as [-> ->]. auto.
Qed.

Section Lexer.
Variable ps : list pattern.
Variable W : nat -> str -> Prop.
Variable n : nat.
Variable blank : Z -> bool.
Variable term : nat -> nat.
Variable word : nat -> str -> Prop.
Variable prefer : nat -> nat -> Prop.
Hypothesis Good : forall j p, nth_error ps j = Some p -> good (fst p) (W j).
Hypothesis Count : length ps = S n.
Hypothesis Flags : forall j r sk, nth_error ps j = Some (r, sk) -> sk = (j =? n).
Hypothesis Blank : forall w, W n w <-> Forall (fun c => blank c = true) w.
Hypothesis Full : forall j, j < n -> ~ W j [].
Hypothesis Dark : forall j c w, j < n -> W j (c :: w) -> blank c = false.
Hypothesis Word : forall t w, word t w <-> exists j, j < n /\ t = term j /\ W j w.
Hypothesis Prefer : forall i j w, i < n -> j < i -> W i w -> W j w -> prefer (term i) (term j) /\ ~ prefer (term j) (term i).

Notation named := (map (fun t : nat * str => (term (fst t), snd t))).
Notation reads := (lexes word blank prefer).

Lemma longest_here s :
  match longest ps 0 s None with
  | Some (m, b, sk) => b < S n /\ sk = (b =? n) /\ m <= length s /\ W b (firstn m s) /\
      (forall j k, holds W (S n) s j k -> k <= m) /\ (forall j, b < j -> ~ holds W (S n) s j m)
  | None => False
  end.
Proof.
  pose proof (longest_spec W s ps 0 None Good (fun j k (H : holds W 0 s j k) => Nat.nlt_0_r j (proj1 H))) as L.
  change (0 + length ps) with (length ps) in L. rewrite Count in L.
  destruct (longest ps 0 s None) as [[[m b] sk]|] eqn:E.
  - destruct L as (L1 & L2 & L3 & L4 & L5).
    apply longest_skip in E as [E|(j & r & -> & N)]; [discriminate|]. split; [exact L1|]. split; [exact (Flags _ _ _ N)|]. auto.
  - apply (L n 0). split; [lia|]. split; [lia|]. apply Blank. constructor.
Qed.

Lemma at_most_words m s : (forall j k, holds W (S n) s j k -> k <= m) -> at_most word m s.
Proof.
  intros H t w rest -> Hw. apply Word in Hw as (j & J & -> & Ww). apply (H j). split; [lia|]. split; [rewrite app_length; lia|].
  rewrite firstn_app, firstn_all, Nat.sub_diag, app_nil_r. exact Ww.
Qed.

Lemma reads_blanks w s toks r : Forall (fun c => blank c = true) w -> reads s toks r -> reads (w ++ s) toks r.
Proof. intros F H. induction F as [|c w B F IH]; [exact H|]. cbn [app]. apply L_blank; assumption. Qed.

Lemma lex_reads f : forall place s, length s <= f ->
  match lex ps f place s with
  | (toks, None) => reads s (named toks) []
  | (toks, Some p) => exists r, reads s (named toks) r /\ stuck word blank r /\ p = place + (length s - length r)
  end.
Proof.
  induction f as [|f IH]; intros place s L.
  - destruct s; [|cbn in L; lia]. cbn. constructor.
  - cbn [lex]. destruct s as [|c s']; [constructor|]. set (s := c :: s') in *.
    pose proof (longest_here s) as Q. destruct (longest ps 0 s None) as [[[m b] sk]|]; [|destruct Q].
    destruct Q as (Q1 & -> & Q3 & Q4 & Q5 & Q6).
    assert (Lr : 0 < m -> length (skipn m s) <= f) by (rewrite skipn_length; lia).
    destruct (Nat.eqb_spec b n) as [->|Nb].
    + destruct (Nat.eqb_spec m 0) as [->|Nm].
      * exists s. split; [constructor|]. split; [|lia]. split.
        -- destruct (blank c) eqn:Bc; [|reflexivity]. exfalso. assert (1 <= 0); [|lia]. apply (Q5 n). split; [lia|].
           split; [cbn; lia|]. apply Blank. cbn. repeat constructor. exact Bc.
        -- intros t w rest E Hw. pose proof (at_most_words _ _ Q5 t w rest E Hw) as H. destruct w; [|cbn in H; lia].
           apply Word in Hw as (j & J & _ & Ww). exact (Full j J Ww).
      * specialize (IH (place + m) (skipn m s) (Lr ltac:(lia))). apply Blank in Q4.
        assert (Step : forall toks r, reads (skipn m s) (named toks) r -> reads s (named toks) r).
        { intros toks r R. pose proof (reads_blanks _ _ _ _ Q4 R) as R'. rewrite firstn_skipn in R'. exact R'. }
        destruct (lex ps f (place + m) (skipn m s)) as [toks [p|]].
        -- destruct IH as (r & R & St & ->). exists r. split; [apply Step; exact R|]. split; [exact St|].
           assert (length r <= length (skipn m s)).
           { clear - R. remember (skipn m s) as z. clear Heqz. induction R; cbn [length] in *; rewrite ?app_length; lia. }
           rewrite skipn_length in *. lia.
        -- apply Step. exact IH.
    + assert (B : b < n) by lia.
      assert (M : 0 < m). { destruct m; [|lia]. destruct (Full b B Q4). }
      specialize (IH (place + m) (skipn m s) (Lr M)).
      assert (Step : forall toks r, reads (skipn m s) (named toks) r -> reads s (named ((b, firstn m s) :: toks)) r).
      { intros toks r R. cbn [map fst snd]. rewrite <- (firstn_skipn m s) at 1. constructor.
        - intros E. rewrite E in Q4. exact (Full b B Q4).
        - apply Word. exists b. auto.
        - rewrite firstn_skipn. replace (length (firstn m s)) with m by (rewrite firstn_length; lia). apply at_most_words. exact Q5.
        - intros t' H. apply Word in H as (j & J & -> & Wj). destruct (Nat.lt_trichotomy j b) as [C|[->|C]]; [|auto|].
          + right. exact (proj1 (Prefer b j _ B C Q4 Wj)).
          + exfalso. apply (Q6 j C). split; [lia|]. auto.
        - exact R. }
      destruct (lex ps f (place + m) (skipn m s)) as [toks [p|]].
      * destruct IH as (r & R & St & ->). exists r. split; [apply Step; exact R|]. split; [exact St|].
        assert (length r <= length (skipn m s)).
        { clear - R. remember (skipn m s) as z. clear Heqz. induction R; cbn [length] in *; rewrite ?app_length; lia. }
        rewrite skipn_length in *. lia.
      * apply Step. exact IH.
Qed.

Definition ended (r : str) : Prop := r = [] \/ stuck word blank r.

Lemma word_head t w : word t w -> exists c w', w = c :: w' /\ blank c = false.
Proof.
  intros H. apply Word in H as (j & J & -> & Ww). destruct w as [|c w]; [destruct (Full j J Ww)|]. exists c, w.
  split; [reflexivity|exact (Dark j c w J Ww)].
Qed.

Lemma ended_stops s toks r : ended s -> reads s toks r -> toks = [] /\ r = s.
Proof.
  intros E R. destruct R as [s|c s toks r B R|t w s toks r N Hw A U R]; [auto|..]; exfalso.
  - destruct E as [E|[E _]]; [discriminate|congruence].
  - destruct E as [E|E]; [apply app_eq_nil in E as [E _]; contradiction|]. destruct w as [|c w]; [contradiction|].
    destruct E as [_ E]. exact (E t (c :: w) s eq_refl Hw).
Qed.

Lemma reads_unique s toks r toks' r' : reads s toks r -> ended r -> reads s toks' r' -> ended r' -> toks = toks' /\ r = r'.
Proof.
  intros R E R' E'. revert toks' R'. induction R as [s|c s toks r B R IH|t w s toks r N Hw A U R IH]; intros toks' R'.
  - destruct (ended_stops _ _ _ E R') as [-> ->]. auto.
  - inversion R' as [s0 H1 H2 H3|c0 s0 toks0 r0 B0 R0 H1 H2 H3|t0 w0 s0 toks0 r0 N0 Hw0 A0 U0 R0 H1 H2 H3]; subst.
    + destruct E' as [E'|[E' _]]; [discriminate|congruence].
    + apply IH; assumption.
    + exfalso. destruct (word_head _ _ Hw0) as (d & w' & -> & D). injection H1 as -> _. congruence.
  - inversion R' as [s0 H1 H2 H3|c0 s0 toks0 r0 B0 R0 H1 H2 H3|t0 w0 s0 toks0 r0 N0 Hw0 A0 U0 R0 H1 H2 H3]; subst.
    + exfalso. destruct w as [|c w]; [contradiction|]. destruct E' as [E'|[_ E']]; [discriminate|]. exact (E' t _ s eq_refl Hw).
    + exfalso. destruct (word_head _ _ Hw) as (d & w' & -> & D). injection H1 as -> _. congruence.
    + pose proof (A t0 w0 s0 (eq_sym H1) Hw0) as L1. rewrite H1 in A0. pose proof (A0 t w s eq_refl Hw) as L2.
      destruct (app_same_length _ _ _ _ H1) as [-> ->]; [lia|]. destruct (IH E toks0 R0) as [-> ->]. split; [|reflexivity].
      f_equal. f_equal. destruct (U0 t Hw) as [->|P]; [reflexivity|]. destruct (U t0 Hw0) as [->|P']; [reflexivity|].
      apply Word in Hw as (j & J & -> & Wj). apply Word in Hw0 as (j0 & J0 & -> & Wj0).
      destruct (Nat.lt_trichotomy j j0) as [C|[->|C]]; [|reflexivity|]; exfalso.
      * exact (proj2 (Prefer j0 j _ J0 C Wj0 Wj) P').
      * exact (proj2 (Prefer j j0 _ J C Wj Wj0) P).
Qed.

Theorem lex_correct s toks : 
  (lex ps (length s) 0 s = (toks, None) -> reads s (named toks) []) /\
  (reads s toks [] -> exists ts, lex ps (length s) 0 s = (ts, None) /\ named ts = toks).
Proof.
  pose proof (lex_reads (length s) 0 s (le_n _)) as L. split.
  - intros E. rewrite E in L. exact L.
  - intros R. destruct (lex ps (length s) 0 s) as [ts [p|]].
    + exfalso. destruct L as (r & R' & St & _). destruct (reads_unique _ _ _ _ _ R (or_introl eq_refl) R' (or_intror St)) as [_ <-]. exact St.
    + exists ts. split; [reflexivity|]. destruct (reads_unique _ _ _ _ _ R (or_introl eq_refl) L (or_introl eq_refl)) as [-> _]. reflexivity.
Qed.
End Lexer.
