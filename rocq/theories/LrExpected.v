(** * The tokens an error of an LR parser says it expected

    After some words the list is exact: those after which the machine is in a state without reductions. *)

From Coq Require Import ZifyBool ZifyNat ZifyN Sorted.
From Verif Require Import Base StrModel LrModel LrSpec LrProofs LrViable.
Local Open Scope nat_scope.

(** ** The list *)

Lemma expected_spec tb s u : In u (expected_tokens tb s) <-> exists a, action tb s u = Ret a /\ a <> Fail.
Proof.
  unfold expected_tokens, action. destruct (nth_error (action_rows tb) s) as [row|]; [|split; [intros []|intros (a & E & _); discriminate]].
  rewrite filter_In, in_seq. assert (D : forall z, decode z = Fail <-> z = 0%Z).
  { intros z. unfold decode. destruct (Z.ltb_spec 0 z), (Z.ltb_spec z 0); split; intros; try discriminate; try reflexivity; try lia; exfalso; lia. }
  split.
  - intros [L N]. destruct (nth_error row u) as [z|] eqn:Z.
    + rewrite (nth_error_nth _ _ _ Z) in N. exists (decode z). split; [reflexivity|]. rewrite D. lia.
    + apply nth_error_None in Z. lia.
  - intros (a & E & N). destruct (nth_error row u) as [z|] eqn:Z; [|discriminate]. injection E as <-. rewrite D in N.
    assert (L : u < length row) by (apply nth_error_Some; congruence). rewrite (nth_error_nth _ _ _ Z). split; lia.
Qed.

Lemma seq_sorted n : forall a, StronglySorted lt (seq a n).
Proof.
  induction n as [|n IH]; intros a; cbn [seq]; constructor; [apply IH|]. apply Forall_forall. intros x I. apply in_seq in I. lia.
Qed.

Lemma filter_sorted (f : nat -> bool) l : StronglySorted lt l -> StronglySorted lt (filter f l).
Proof.
  induction 1 as [|a l H IH F]; cbn [filter]; [constructor|]. destruct (f a); [|exact IH]. constructor; [exact IH|].
  rewrite Forall_forall in *. intros x I. apply filter_In in I. apply F, I.
Qed.

Lemma expected_sorted tb s : StronglySorted lt (expected_tokens tb s).
Proof. unfold expected_tokens. destruct (nth_error _ _); [apply filter_sorted, seq_sorted|constructor]. Qed.

(** What every answer has. *)
Lemma drive_expected V shift build tb f : forall states values toks a,
  drive V shift build tb f states values toks = Some (Ret a) ->
  match a with
  | UnrecognizedToken t e => exists s, e = expected_tokens tb s /\ ~ In (fst t) e
  | UnrecognizedEof e => exists s, e = expected_tokens tb s
  | _ => True
  end.
Proof.
  induction f as [|f IH]; intros states values toks a E; [discriminate|]. cbn [drive] in E. destruct states as [|s states]; [discriminate|].
  destruct toks as [|t rest].
  - destruct (eof_action tb s) as [[s'|p|]| |]; try discriminate.
    + injection E as <-. eauto.
    + destruct (final tb p); [destruct values; [discriminate|]; injection E as <-; exact I|].
      destruct (reduce V build tb p (s :: states) values) as [[st vs]| |]; try discriminate. exact (IH _ _ _ _ E).
    + injection E as <-. eauto.
  - destruct (action tb s (fst t)) as [[s'|p|]| |] eqn:A; try discriminate.
    + exact (IH _ _ _ _ E).
    + destruct (final tb p); [destruct values; [discriminate|]; injection E as <-; exact I|].
      destruct (reduce V build tb p (s :: states) values) as [[st vs]| |]; try discriminate. exact (IH _ _ _ _ E).
    + injection E as <-. exists s. split; [reflexivity|]. rewrite expected_spec. rewrite A. intros (a & [= <-] & N). exact (N eq_refl).
Qed.

(** ** Exact lists *)

Section Exact.
Variable tb : tables.
Variable g : grammar.
Variable start : nat.
Variable k : cert.
Variable order : list nat.
Hypothesis Checked : check_tables tb g start k = true.
Hypothesis Useful : check_useful tb g start k order = true.
Variable filler : nat -> str.

Notation run := (drive tree Leaf (fun p ts => Ret (Node p ts)) tb).
Notation fold_up := (reduce tree (fun p ts => Ret (Node p ts)) tb).
Notation viable := (viable g start k filler).
Notation valid := (Forall (fun t : token => fst t < k_terms k)).

(** A state without reductions, and a terminal that always leads to one. *)
Definition plain_state (s : nat) : bool :=
  match nth_error (action_rows tb) s with Some row => forallb (fun z => (0 <=? z)%Z) row | None => false end &&
  match nth_error (eof_actions tb) s with Some z => (0 <=? z)%Z | None => false end.

Definition plain_word (t : nat) : bool :=
  forallb (fun row => match nth_error row t with Some z => match decode z with Shift s => plain_state s | _ => true end | None => true end)
    (action_rows tb).

Lemma decode_reduce z p : decode z = Reduce p -> (z < 0)%Z.
Proof. unfold decode. destruct (Z.ltb_spec 0 z); [discriminate|]. destruct (Z.ltb_spec z 0); [lia|discriminate]. Qed.

Lemma plain_state_spec s : plain_state s = true -> (forall u p, action tb s u <> Ret (Reduce p)) /\ forall p, eof_action tb s <> Ret (Reduce p).
Proof.
  unfold plain_state, action, eof_action. intros H. apply andb_true_iff in H as [H1 H2]. split.
  - intros u p E. destruct (nth_error (action_rows tb) s) as [row|]; [|discriminate]. destruct (nth_error row u) as [z|] eqn:Z; [|discriminate].
    rewrite forallb_forall in H1. specialize (H1 z (nth_error_In _ _ Z)). injection E as E. apply decode_reduce in E. lia.
  - intros p E. destruct (nth_error (eof_actions tb) s) as [z|]; [|discriminate]. injection E as E. apply decode_reduce in E. lia.
Qed.

Lemma plain_word_spec t s s' : plain_word t = true -> action tb s t = Ret (Shift s') -> plain_state s' = true.
Proof.
  unfold plain_word, action. intros H E. destruct (nth_error (action_rows tb) s) as [row|] eqn:R; [|discriminate].
  destruct (nth_error row t) as [z|] eqn:Z; [|discriminate]. rewrite forallb_forall in H. specialize (H row (nth_error_In _ _ R)). rewrite Z in H.
  injection E as E. rewrite E in H. exact H.
Qed.

(** The machine up to the end of [l], where it is just before it looks at the next token. *)
Fixpoint reads (fuel : nat) (states : list nat) (values : list tree) (l : list token) : option (nat * list nat * list tree) :=
  match l with
  | [] => Some (fuel, states, values)
  | t :: rest =>
      match fuel, states with
      | S f, s :: _ =>
          match action tb s (fst t) with
          | Ret (Shift s') => reads f (s' :: states) (Leaf t :: values) rest
          | Ret (Reduce p) =>
              if final tb p then None
              else match fold_up p states values with Ret (states', values') => reads f states' values' l | _ => None end
          | _ => None
          end
      | _, _ => None
      end
  end.

Lemma reads_run l rest : forall f st vs f' st' vs', reads f st vs l = Some (f', st', vs') ->
  run f st vs (l ++ rest) = run f' st' vs' rest.
Proof.
  intros f. revert l. induction f as [|f IH]; intros [|t l] st vs f' st' vs' E; cbn [reads] in E; try (injection E as <- <- <-; reflexivity); [discriminate|].
  destruct st as [|s st]; [discriminate|]. cbn [app drive]. destruct (action tb s (fst t)) as [[s'|p|]| |]; try discriminate.
  - exact (IH l _ _ _ _ _ E).
  - destruct (final tb p); [discriminate|]. destruct (fold_up p (s :: st) vs) as [[st1 vs1]| |]; try discriminate. exact (IH (t :: l) _ _ _ _ _ E).
Qed.

Lemma run_reads l rest v : forall f st vs, run f st vs (l ++ rest) = Some (Ret (Accepted v)) ->
  exists f' st' vs', reads f st vs l = Some (f', st', vs') /\ run f' st' vs' rest = Some (Ret (Accepted v)).
Proof.
  intros f. revert l. induction f as [|f IH]; intros [|t l] st vs E; try discriminate.
  - cbn [reads app] in *. eauto.
  - destruct st as [|s st]; [discriminate|]. cbn [app drive reads] in *. destruct (action tb s (fst t)) as [[s'|p|]| |]; try discriminate.
    + exact (IH l _ _ E).
    + destruct (final tb p); [destruct vs; discriminate|]. destruct (fold_up p (s :: st) vs) as [[st1 vs1]| |]; try discriminate. exact (IH (t :: l) _ _ E).
Qed.

(** Where it is then. *)
Lemma reads_stack f : forall l s ss vals w f' st' vs', stack g start k (s :: ss) vals w -> valid l ->
  reads f (s :: ss) vals l = Some (f', st', vs') ->
  exists s' ss', st' = s' :: ss' /\ stack g start k st' vs' (w ++ l) /\
    match rev l with [] => s' = s | t :: _ => exists s0, action tb s0 (fst t) = Ret (Shift s') end.
Proof.
  induction f as [|f IH]; intros [|t l] s ss vals w f' st' vs' H V E; cbn [reads] in E;
    try (injection E as <- <- <-; exists s, ss; rewrite app_nil_r; cbn [rev]; auto; fail); [discriminate|].
  pose proof (stack_range tb g start k Checked _ _ _ _ H) as R. destruct (state_checked tb g start k Checked s R) as (C1 & _ & _).
  inversion V as [|? ? V1 V2]; subst. destruct (C1 _ V1) as [C3 C4].
  destruct (action tb s (fst t)) as [[s1|p|]| |] eqn:A; try discriminate.
  - assert (HS : stack g start k (s1 :: s :: ss) (Leaf t :: vals) (w ++ [t])).
    { apply (stack_cons g start k s ss vals w s1 (T (fst t))); auto. - destruct t; constructor. - discriminate. - discriminate. }
    destruct (IH l s1 _ _ _ _ _ _ HS V2 E) as (s' & ss' & -> & HS' & M). exists s', ss'. rewrite <- app_assoc in HS'. split; [reflexivity|]. split; [exact HS'|].
    cbn [rev]. destruct (rev l) as [|x r]; cbn [app] in *; [|exact M]. subst s'. exists s. exact A.
  - pose proof (stack_reduce tb g start k Checked _ _ _ _ p _ H C3 eq_refl) as P. destruct (final tb p); [discriminate|].
    destruct P as (st1 & vs1 & Er & HS & _). rewrite Er in E. destruct st1 as [|s1 st1]; [inversion HS|].
    destruct (IH (t :: l) s1 st1 vs1 w f' st' vs' HS V E) as (s' & ss' & -> & HS' & M). exists s', ss'. split; [reflexivity|]. split; [exact HS'|].
    destruct (rev (t :: l)) as [|x r] eqn:Q; [|exact M]. exfalso. cbn [rev] in Q. symmetry in Q. exact (app_cons_not_nil _ _ _ Q).
Qed.

(** Some sentence has [w] first. *)
Definition goes_on (w : list token) : Prop := exists v t, valid v /\ derives g (NT start) t (w ++ v).

(** What can follow [l] has an action there. *)
Lemma follows_action l u w : valid l -> goes_on (l ++ [(u, w)]) -> u < k_terms k ->
  exists f f' s ss vs, reads f [0] [] l = Some (f', s :: ss, vs) /\ exists a, action tb s u = Ret a /\ a <> Fail.
Proof.
  intros V (v & t & F & D) U. rewrite <- app_assoc in D. cbn [app] in D.
  assert (Va : valid (l ++ (u, w) :: v)).
  { apply Forall_app. split; [exact V|]. constructor; [exact U|exact F]. }
  pose proof (lr_complete tb g start k Checked t _ 0 D Va) as Acc. destruct (run_reads l _ t _ _ _ Acc) as (f' & st' & vs' & Rd & Rn).
  destruct (reads_stack _ l 0 [] [] [] _ _ _ (stack_nil g start k) V Rd) as (s & ss & -> & _). exists (size t + 1), f', s, ss, vs'. split; [exact Rd|].
  destruct f' as [|f']; [discriminate|]. cbn [drive] in Rn. cbn [fst] in Rn. destruct (action tb s u) as [a| |]; try discriminate. exists a. split; [reflexivity|]. intros ->. discriminate.
Qed.

Definition ends_plain (l : list token) : bool :=
  match rev l with [] => plain_state 0 | t :: _ => plain_word (fst t) end.

(** The configuration after [l] does not depend on the fuel. *)
Lemma reads_same f1 : forall f2 st vs l f1' st1 vs1 f2' st2 vs2, reads f1 st vs l = Some (f1', st1, vs1) -> reads f2 st vs l = Some (f2', st2, vs2) ->
  st1 = st2 /\ vs1 = vs2.
Proof.
  induction f1 as [|f1 IH]; intros f2 st vs [|t l] f1' st1 vs1 f2' st2 vs2 E1 E2; cbn [reads] in E1; try discriminate.
  - injection E1 as <- <- <-. cbn [reads] in E2. destruct f2; injection E2 as <- <- <-; auto.
  - injection E1 as <- <- <-. cbn [reads] in E2. destruct f2; injection E2 as <- <- <-; auto.
  - destruct f2 as [|f2]; [discriminate|]. cbn [reads] in E2. destruct st as [|s st]; [discriminate|].
    destruct (action tb s (fst t)) as [[s'|p|]| |]; try discriminate; [exact (IH _ _ _ _ _ _ _ _ _ _ E1 E2)|].
    destruct (final tb p); [discriminate|]. destruct (fold_up p (s :: st) vs) as [[st' vs']| |]; try discriminate. exact (IH _ _ _ _ _ _ _ _ _ _ E1 E2).
Qed.

(** In such a place, the list has exactly what may follow. *)
Theorem plain_exact l rest f a : valid (l ++ rest) -> goes_on l -> ends_plain l = true ->
  match rest with [] => True | t :: _ => ~ viable (l ++ [t]) end ->
  run f [0] [] (l ++ rest) = Some (Ret a) ->
  match a with
  | UnrecognizedToken t e => exists rest', rest = t :: rest' /\ forall u w, u < k_terms k -> (In u e -> viable (l ++ [(u, w)])) /\ (goes_on (l ++ [(u, w)]) -> In u e)
  | UnrecognizedEof e => rest = [] /\ forall u w, u < k_terms k -> (In u e -> viable (l ++ [(u, w)])) /\ (goes_on (l ++ [(u, w)]) -> In u e)
  | _ => False
  end.
Proof.
  intros Va Vi Pl No E. apply Forall_app in Va as [V V']. destruct Vi as (v & t0 & F & D).
  assert (Vb : valid (l ++ v)).
  { apply Forall_app. split; [exact V|exact F]. }
  pose proof (lr_complete tb g start k Checked t0 _ f D Vb) as Acc. destruct (run_reads l _ t0 _ _ _ Acc) as (f' & st' & vs' & Rd & Rn).
  destruct (reads_stack _ l 0 [] [] [] _ _ _ (stack_nil g start k) V Rd) as (s & ss & -> & St & La). cbn [app] in St.
  pose proof (reads_run l rest _ _ _ _ _ _ Rd) as Ru. apply (run_more tb g start k _ (size t0 + S f)) in E; [|lia]. rewrite Ru in E.
  assert (Ps : plain_state s = true).
  { unfold ends_plain in Pl. destruct (rev l) as [|x r]; [subst s; exact Pl|]. destruct La as (s0 & A). exact (plain_word_spec _ _ _ Pl A). }
  destruct (plain_state_spec s Ps) as [P1 P2]. destruct f' as [|f']; [discriminate|]. cbn [drive] in E.
  pose proof (stack_range tb g start k Checked _ _ _ _ St) as R. destruct (state_checked tb g start k Checked s R) as (C1 & _ & _).
  assert (Sh : forall u w s', u < k_terms k -> action tb s u = Ret (Shift s') -> viable (l ++ [(u, w)])).
  { intros u w s' U A. destruct (C1 u U) as [_ C4].
    assert (HS : stack g start k (s' :: s :: ss) (Leaf (u, w) :: vs') (l ++ [(u, w)])).
    { apply (stack_cons g start k s ss vs' l s' (T u)); auto. - constructor. - discriminate. - discriminate. }
    exact (stack_viable tb g start k order Checked Useful filler _ _ _ _ HS). }
  assert (Ex : forall u w, u < k_terms k -> (In u (expected_tokens tb s) -> viable (l ++ [(u, w)])) /\ (goes_on (l ++ [(u, w)]) -> In u (expected_tokens tb s))).
  { intros u w U. rewrite expected_spec. split.
    - intros (b & A & N). destruct b as [s'|p|]; [exact (Sh u w s' U A)|destruct (P1 _ _ A)|destruct (N eq_refl)].
    - intros Vu. destruct (follows_action l u w V Vu U) as (f1 & f1' & s1 & ss1 & vs1 & Rd1 & A).
      destruct (reads_same _ _ _ _ _ _ _ _ _ _ _ Rd Rd1) as [Q _]. injection Q as <- _. exact A. }
  destruct rest as [|t rest].
  - destruct (eof_action tb s) as [[s'|p|]| |] eqn:A; try discriminate; [injection E as <-; auto|destruct (P2 _ eq_refl)|injection E as <-; auto].
  - destruct (action tb s (fst t)) as [[s'|p|]| |] eqn:A; try discriminate.
    + exfalso. apply No. inversion V'; subst. destruct t as [u w]. exact (Sh u w s' ltac:(assumption) A).
    + destruct (P1 _ _ A).
    + injection E as <-. exists rest. auto.
Qed.

End Exact.
