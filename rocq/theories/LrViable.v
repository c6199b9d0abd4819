(** * Errors of LR parsers

    If [check_useful] accepts too, an error names the first token that cannot continue a sentence. *)

From Coq Require Import ZifyBool ZifyNat ZifyN.
From Verif Require Import Base StrModel LrModel LrSpec LrProofs.
Local Open Scope nat_scope.

Section Viable.
Variable tb : tables.
Variable g : grammar.
Variable start : nat.
Variable k : cert.
(** Productions that show, in this order, that every nonterminal has sentences. *)
Variable order : list nat.

Notation aug := (aug g start k).
Notation kernel_at := (kernel_at k).
Notation closure_at := (closure_at k).

Definition add (n : nat) (m : N) : N := N.setbit m (N.of_nat n).

(** ** Checks *)

(** The nonterminals that start a production of [n]. *)
Definition heads (n : nat) : N :=
  fold_right (fun (q : nat * list symbol) m => if fst q =? n then match snd q with NT h :: _ => add h m | _ => m end else m) 0%N aug.

Definition next_of (e : nat * nat * N) (m : N) : N :=
  let '(p, d, _) := e in
  match nth_error aug p with
  | Some (_, rhs) => match nth_error rhs d with Some (NT n) => add n m | _ => m end
  | None => m
  end.

(** The nonterminals a state expects, each after one it starts. *)
Fixpoint check_expected (hs : list N) (seen : N) (l : list (nat * N)) : bool :=
  match l with
  | [] => true
  | (n, _) :: l' => bit n seen && check_expected hs (N.lor seen (nth n hs 0%N)) l'
  end.

Definition check_reached (hs : list N) (s : nat) : bool :=
  check_expected hs (fold_right next_of (if s =? 0 then add (k_top k) 0%N else 0%N) (kernel_at s)) (closure_at s) &&
  ((s =? 0) || match kernel_at s with [] => false | _ => true end).

Definition ready (m : N) (x : symbol) : bool := match x with T t => t <? k_terms k | NT n => bit n m end.

Fixpoint check_order (m : N) (l : list nat) : option N :=
  match l with
  | [] => Some m
  | p :: l' =>
      match nth_error aug p with
      | Some (lhs, rhs) => if forallb (ready m) rhs then check_order (add lhs m) l' else None
      | None => None
      end
  end.

Definition check_useful : bool :=
  match check_order 0 order with
  | Some m => bit (k_top k) m && forallb (fun q : nat * list symbol => bit (fst q) m && forallb (ready m) (snd q)) aug
  | None => false
  end &&
  (let hs := map heads (seq 0 (S (k_top k))) in forallb (check_reached hs) (seq 0 (length (k_kernel k)))) &&
  forallb (fun row => forallb (fun z => negb (is_reduce (Ret (decode z)) (length (reductions tb)))) row) (action_rows tb).

Hypothesis Checked : check_tables tb g start k = true.
Hypothesis Useful : check_useful = true.

(** ** Every nonterminal has a sentence *)

Variable filler : nat -> str.
Definition filled (w : list token) : Prop := Forall (fun t : token => fst t < k_terms k /\ snd t = filler (fst t)) w.

Definition productive (x : symbol) : Prop := exists t w, derives aug x t w /\ filled w.
Definition productive_all (xs : list symbol) : Prop := exists ts w, derives_all aug xs ts w /\ filled w.

Lemma productive_seq xs : Forall productive xs -> productive_all xs.
Proof.
  induction 1 as [|x xs (t & w & D & F) _ (ts & ws & Ds & Fs)]; [exists [], []; split; constructor|].
  exists (t :: ts), (w ++ ws). split; [constructor; assumption|apply Forall_app; auto].
Qed.

Lemma bit_add n n' m : bit n (add n' m) = (n =? n') || bit n m.
Proof.
  unfold bit, add. destruct (Nat.eqb_spec n n') as [->|N]; [apply N.setbit_eq|]. rewrite N.setbit_neq by lia. reflexivity.
Qed.

Lemma ready_productive m x : (forall n, bit n m = true -> productive (NT n)) -> ready m x = true -> productive x.
Proof.
  intros H R. destruct x as [t|n]; [|exact (H n R)]. exists (Leaf (t, filler t)), [(t, filler t)]. split; [constructor|].
  constructor; [|constructor]. cbn [ready fst snd] in *. split; [lia|reflexivity].
Qed.

Lemma order_productive l : forall m m', (forall n, bit n m = true -> productive (NT n)) -> check_order m l = Some m' ->
  forall n, bit n m' = true -> productive (NT n).
Proof.
  induction l as [|p l IH]; intros m m' H E; cbn [check_order] in E; [injection E as <-; exact H|].
  destruct (nth_error aug p) as [[lhs rhs]|] eqn:P; [|discriminate]. destruct (forallb (ready m) rhs) eqn:R; [|discriminate].
  apply (IH (add lhs m) m'); [|exact E]. intros n B. rewrite bit_add in B. destruct (n =? lhs) eqn:En; [apply Nat.eqb_eq in En; subst n|exact (H n B)].
  rewrite forallb_forall in R. destruct (productive_seq rhs) as (ts & w & D & F).
  - apply Forall_forall. intros x I. exact (ready_productive m x H (R x I)).
  - exists (Node p ts), w. split; [econstructor; eassumption|exact F].
Qed.

Lemma useful_parts : (forall p lhs rhs, nth_error aug p = Some (lhs, rhs) -> productive (NT lhs) /\ Forall productive rhs) /\
  productive (NT (k_top k)) /\
  (forall s, s < length (k_kernel k) -> check_reached (map heads (seq 0 (S (k_top k)))) s = true) /\
  (forall s t, action tb s t <> Ret (Reduce (length (reductions tb)))).
Proof.
  pose proof Useful as U. unfold check_useful in U. apply andb_true_iff in U as [U U3]. apply andb_true_iff in U as [U1 U2].
  destruct (check_order 0 order) as [m|] eqn:O; [|discriminate]. apply andb_true_iff in U1 as [Ut U1].
  assert (P : forall n, bit n m = true -> productive (NT n)).
  { apply (order_productive order 0%N m); [|exact O]. intros n B. unfold bit in B. rewrite N.bits_0 in B. discriminate. }
  split; [|split; [exact (P _ Ut)|split]].
  - intros p lhs rhs E. rewrite forallb_forall in U1. specialize (U1 _ (nth_error_In _ _ E)). cbn [fst snd] in U1. apply andb_true_iff in U1 as [A B].
    split; [exact (P _ A)|]. rewrite forallb_forall in B. apply Forall_forall. intros x I. exact (ready_productive m x P (B x I)).
  - intros s L. rewrite forallb_forall in U2. apply U2. apply in_seq. lia.
  - intros s t E. unfold action in E. destruct (nth_error (action_rows tb) s) as [row|] eqn:R; [|discriminate].
    destruct (nth_error row t) as [z|] eqn:Z; [|discriminate]. rewrite forallb_forall in U3. specialize (U3 _ (nth_error_In _ _ R)). cbv beta in U3.
    rewrite forallb_forall in U3. specialize (U3 _ (nth_error_In _ _ Z)). cbv beta in U3. rewrite E in U3. cbn [is_reduce] in U3. rewrite Nat.eqb_refl in U3. discriminate.
Qed.

(** ** What is read can be continued *)

(** After [w], a sentence of [xs] and something more, there is a sentence. *)
Definition goes (w : list token) (xs : list symbol) : Prop :=
  exists v, filled v /\ forall u ts, derives_all aug xs ts u -> exists t, derives aug (NT (k_top k)) t (w ++ u ++ v).

Lemma derives_all_app xs ts u ys ts' u' : derives_all aug xs ts u -> derives_all aug ys ts' u' -> derives_all aug (xs ++ ys) (ts ++ ts') (u ++ u').
Proof. induction 1 as [|X t w Xs ts ws D Ds IH]; intros D'; cbn [app]; [exact D'|]. rewrite <- app_assoc. constructor; auto. Qed.

Lemma goes_first w x xs : goes w (x :: xs) -> Forall productive xs -> goes w [x].
Proof.
  intros (v & F & H) P. destruct (productive_seq xs P) as (ts & u & D & Fu). exists (u ++ v). split; [apply Forall_app; auto|].
  intros u0 ts0 D0. destruct (H (u0 ++ u) (ts0 ++ ts) (derives_all_app [x] _ _ _ _ _ D0 D)) as (t & Ht). exists t. rewrite <- app_assoc in Ht. exact Ht.
Qed.

Lemma goes_rule w p lhs rhs : nth_error aug p = Some (lhs, rhs) -> goes w [NT lhs] -> goes w rhs.
Proof.
  intros E (v & F & H). exists v. split; [exact F|]. intros u ts D. destruct (H (u ++ []) [Node p ts]) as (t & Ht).
  - constructor; [econstructor; eassumption|constructor].
  - exists t. rewrite app_nil_r in Ht. exact Ht.
Qed.

Lemma goes_past w x t u xs : goes w (x :: xs) -> derives aug x t u -> goes (w ++ u) xs.
Proof.
  intros (v & F & H) D. exists v. split; [exact F|]. intros u0 ts D0. destruct (H (u ++ u0) (t :: ts)) as (t' & Ht); [constructor; assumption|].
  exists t'. rewrite <- !app_assoc in *. exact Ht.
Qed.

Lemma heads_spec n h : bit h (heads n) = true -> exists p rhs, nth_error aug p = Some (n, NT h :: rhs).
Proof.
  unfold heads. intros B. assert (K : exists rhs, In (n, NT h :: rhs) aug).
  { revert B. induction aug as [|[lhs rhs] l IH]; cbn [fold_right fst snd]; [unfold bit; rewrite N.bits_0; discriminate|].
    destruct (Nat.eqb_spec lhs n) as [->|Ne].
    - destruct rhs as [|[t|h'] rhs]; intros B; try (destruct (IH B) as [r I]; exists r; right; exact I).
      rewrite bit_add in B. destruct (Nat.eqb_spec h h') as [<-|Nh]; [exists rhs; left; reflexivity|]. destruct (IH B) as [r I]. exists r. right. exact I.
    - intros B. destruct (IH B) as [r I]. exists r. right. exact I. }
  destruct K as [rhs I]. apply In_nth_error in I as [p E]. exists p, rhs. exact E.
Qed.

Lemma expected_goes w l : forall seen, (forall n, bit n seen = true -> goes w [NT n]) ->
  check_expected (map heads (seq 0 (S (k_top k)))) seen l = true -> forall n m, In (n, m) l -> goes w [NT n].
Proof.
  destruct useful_parts as (P & _). induction l as [|[n0 m0] l IH]; intros seen H C n m I; [destruct I|]. cbn [check_expected] in C.
  apply andb_true_iff in C as [C1 C2]. destruct I as [I|I]; [injection I as <- <-; exact (H n0 C1)|]. revert n m I. apply (IH _) with (2 := C2).
  intros h B. unfold bit in B. rewrite N.lor_spec in B. apply orb_true_iff in B as [B|B]; [exact (H h B)|].
  destruct (Nat.lt_ge_cases n0 (S (k_top k))) as [L|L].
  - replace (nth n0 (map heads (seq 0 (S (k_top k)))) 0%N) with (heads n0) in B.
    + destruct (heads_spec n0 h B) as (p & rhs & E). pose proof (goes_rule w p n0 _ E (H n0 C1)) as Go. destruct (P p n0 _ E) as [_ F].
      apply (goes_first w (NT h) rhs Go). exact (Forall_inv_tail F).
    + symmetry. rewrite (nth_indep _ 0%N (heads 0)) by (rewrite map_length, seq_length; exact L). rewrite map_nth, seq_nth by exact L. reflexivity.
  - rewrite nth_overflow in B by (rewrite map_length, seq_length; lia). rewrite N.bits_0 in B. discriminate.
Qed.

Lemma next_goes w base l : (forall n, bit n base = true -> goes w [NT n]) ->
  (forall p d m lhs rhs, In (p, d, m) l -> nth_error aug p = Some (lhs, rhs) -> goes w (skipn d rhs)) ->
  forall n, bit n (fold_right next_of base l) = true -> goes w [NT n].
Proof.
  destruct useful_parts as (P & _). intros H K. induction l as [|[[p d] m] l IH]; cbn [fold_right]; [exact H|]. intros n B. unfold next_of in B at 1.
  assert (IH' : forall n, bit n (fold_right next_of base l) = true -> goes w [NT n]) by (apply IH; intros; eapply K; [right; eassumption|eassumption]).
  destruct (nth_error aug p) as [[lhs rhs]|] eqn:E; [|exact (IH' n B)]. destruct (nth_error rhs d) as [[t|n']|] eqn:Y; try exact (IH' n B).
  rewrite bit_add in B. destruct (Nat.eqb_spec n n') as [->|Ne]; [|exact (IH' n B)].
  pose proof (K p d m lhs rhs (or_introl eq_refl) E) as Go.
  assert (Sk : skipn d rhs = NT n' :: skipn (S d) rhs).
  { clear - Y. revert rhs Y. induction d as [|d IH]; intros [|y rhs] Y; try discriminate; cbn in *; [congruence|]. exact (IH rhs Y). }
  rewrite Sk in Go. apply (goes_first w (NT n') _ Go). destruct (P p lhs rhs E) as [_ F]. rewrite <- (firstn_skipn (S d) rhs) in F. apply Forall_app in F. apply F.
Qed.

Lemma stack_goes ss vals w : stack g start k ss vals w ->
  match ss with
  | [] => True
  | s :: _ => (forall p d m lhs rhs, In (p, d, m) (kernel_at s) -> nth_error aug p = Some (lhs, rhs) -> goes w (skipn d rhs)) /\
              (forall n m, In (n, m) (closure_at s) -> goes w [NT n])
  end.
Proof.
  destruct (checked tb g start k Checked) as (_ & _ & _ & _ & L0 & K0 & _). destruct useful_parts as (P & _ & R & _).
  induction 1 as [|s ss ts w s' X t u H [IHk IHc] C D M N TT].
  - assert (Kn : forall p d m lhs rhs, In (p, d, m) (kernel_at 0) -> nth_error aug p = Some (lhs, rhs) -> goes [] (skipn d rhs)) by (rewrite K0; intros ? ? ? ? ? []).
    split; [exact Kn|]. specialize (R 0 L0). unfold check_reached in R. apply andb_true_iff in R as [R _].
    eapply expected_goes; [|exact R]. apply next_goes; [|exact Kn]. intros n B. cbn [Nat.eqb] in B. rewrite bit_add in B.
    destruct (n =? k_top k) eqn:En; [apply Nat.eqb_eq in En; subst n|unfold bit in B; rewrite N.bits_0 in B; discriminate].
    exists []. split; [constructor|]. intros u ts D. inversion D as [|? t1 w1 ? ? ? D1 D2]; subst. inversion D2; subst. exists t1. rewrite !app_nil_r. exact D1.
  - assert (Ls : s' < length (k_kernel k)) by (unfold check_back in C; lia).
    assert (Ns : s' <> 0) by (unfold check_back in C; lia).
    assert (Kn : forall p d m lhs rhs, In (p, d, m) (kernel_at s') -> nth_error aug p = Some (lhs, rhs) -> goes (w ++ u) (skipn d rhs)).
    { intros p d m lhs rhs I E. unfold check_back in C. apply andb_true_iff in C as [_ C]. rewrite forallb_forall in C. specialize (C _ I). cbv beta iota in C.
      rewrite E in C. destruct d as [|d]; [discriminate|]. apply andb_true_iff in C as [C1 C2]. destruct (nth_error rhs d) as [Y|] eqn:EY; [|discriminate].
      assert (X = Y). { destruct X, Y; try discriminate; f_equal; lia. } subst Y.
      assert (Sk : skipn d rhs = X :: skipn (S d) rhs).
      { clear - EY. revert rhs EY. induction d as [|d IH]; intros [|y rhs] Y; try discriminate; cbn in *; [congruence|]. exact (IH rhs Y). }
      apply (goes_past w X t u); [|exact D]. rewrite <- Sk. destruct (Nat.eqb_spec d 0) as [->|Nd].
      - apply (in_closure_spec tb g start k) in C2 as (m' & I' & _). cbn [skipn]. exact (goes_rule w p lhs rhs E (IHc _ _ I')).
      - apply (in_kernel_spec tb g start k) in C2 as (m' & I' & _). exact (IHk _ _ _ _ _ I' E). }
    split; [exact Kn|]. specialize (R s' Ls). unfold check_reached in R. apply andb_true_iff in R as [R _].
    eapply expected_goes; [|exact R]. apply next_goes; [|exact Kn]. intros n B. replace (s' =? 0) with false in B by lia. unfold bit in B. rewrite N.bits_0 in B. discriminate.
Qed.

(** [w] is the beginning of a sentence. *)
Definition viable (w : list token) : Prop := exists v t, filled v /\ derives g (NT start) t (w ++ v).

Lemma goes_viable w xs : goes w xs -> Forall productive xs -> viable w.
Proof.
  intros (v & F & H) P. destruct (productive_seq xs P) as (ts & u & D & Fu). destruct (H u ts D) as (t & Ht).
  exists (u ++ v). inversion Ht as [|p lhs rhs ts' w' E D']; subst.
  assert (Ep : p = length g).
  { destruct (Nat.lt_ge_cases p (length g)) as [L|L].
    - exfalso. destruct (checked tb g start k Checked) as (_ & _ & _ & _ & _ & _ & Z & _). rewrite forallb_forall in Z. unfold LrProofs.aug in E.
      rewrite nth_error_app1 in E by exact L. specialize (Z _ (nth_error_In _ _ E)). cbn in Z. lia.
    - assert (Z : p < length aug) by (apply nth_error_Some; congruence). unfold LrProofs.aug in Z. rewrite app_length in Z. cbn in Z. lia. }
  subst p. rewrite (aug_last g start k) in E. injection E as <-. inversion D' as [|? t1 w1 ? ? ? D1 D2]; subst. inversion D2; subst. rewrite app_nil_r in *.
  exists t1. split; [apply Forall_app; auto|]. apply (proj1 (aug_derives tb g start k Checked)) in D1; [|intros Q; injection Q; exact (start_not_top tb g start k Checked)].
  first [exact D1|subst; exact D1|match goal with Q : w1 = _ |- _ => rewrite Q in D1; exact D1 end].
Qed.

Theorem stack_viable s ss vals w : stack g start k (s :: ss) vals w -> viable w.
Proof.
  intros H. destruct (stack_goes _ _ _ H) as [Kn Cl]. destruct useful_parts as (P & Pt & R & _).
  pose proof (stack_range tb g start k Checked _ _ _ _ H) as L. specialize (R s L). unfold check_reached in R. apply andb_true_iff in R as [_ R].
  destruct (Nat.eqb_spec s 0) as [->|Ns].
  - destruct (checked tb g start k Checked) as (_ & _ & _ & C & _). apply (in_closure_spec tb g start k) in C as (m & I & _).
    apply (goes_viable w [NT (k_top k)] (Cl _ _ I)). constructor; [exact Pt|constructor].
  - destruct (kernel_at s) as [|[[p d] m] l] eqn:E; [discriminate|].
    destruct (item_checked tb g start k Checked s p d m) as (lhs & rhs & Ep & _).
    { split; [exact L|]. left. rewrite E. left. reflexivity. }
    apply (goes_viable w (skipn d rhs)); [apply (Kn p d m lhs rhs); [left; reflexivity|exact Ep]|].
    destruct (P p lhs rhs Ep) as [_ F]. rewrite <- (firstn_skipn d rhs) in F. apply Forall_app in F. apply F.
Qed.

(** ** Errors *)

Notation run := (drive tree Leaf (fun p ts => Ret (Node p ts)) tb).

Lemma not_final s t p : action tb s t = Ret (Reduce p) -> final tb p = false.
Proof.
  intros E. destruct (final tb p) eqn:F; [|reflexivity]. unfold final in F. apply Nat.eqb_eq in F. subst p.
  destruct useful_parts as (_ & _ & _ & Z). destruct (Z s t E).
Qed.

(** The machine stops at the token [t] after [a] whatever follows. *)
Lemma run_error f : forall s ss vals (w toks : list token) a, stack g start k (s :: ss) vals w -> Forall (fun t : token => fst t < k_terms k) toks ->
  run f (s :: ss) vals toks = Some (Ret a) ->
  match a with
  | Accepted _ => True
  | UnrecognizedToken t e => exists l l', toks = l ++ t :: l' /\ viable (w ++ l) /\
      forall rest, run f (s :: ss) vals (l ++ t :: rest) = Some (Ret (UnrecognizedToken t e))
  | UnrecognizedEof _ => viable (w ++ toks)
  | ExtraToken _ => False
  end.
Proof.
  induction f as [|f IH]; intros s ss vals w toks a H V E; [discriminate|].
  pose proof (stack_range tb g start k Checked _ _ _ _ H) as R. destruct (state_checked tb g start k Checked s R) as (C1 & C2 & _). cbn [drive] in E.
  destruct toks as [|t toks].
  - destruct (eof_action tb s) as [[s'|p|]| |] eqn:A; try discriminate.
    + injection E as <-. rewrite app_nil_r. exact (stack_viable _ _ _ _ H).
    + pose proof (stack_reduce tb g start k Checked _ _ _ _ p _ H C2 eq_refl) as P. destruct (final tb p).
      * destruct P as [t [-> D]]. injection E as <-. exact I.
      * destruct P as (ss' & vals' & Er & HS & _). rewrite Er in E. destruct ss' as [|s1 ss']; [inversion HS|].
        specialize (IH _ _ _ _ (@nil token) a HS V E). destruct a as [v|t e|e|t]; try exact IH.
        destruct IH as (l & l' & El & _). destruct l; discriminate.
    + injection E as <-. rewrite app_nil_r. exact (stack_viable _ _ _ _ H).
  - inversion V as [|? ? V1 V2]; subst. destruct (C1 _ V1) as [C3 C4]. destruct (action tb s (fst t)) as [[s'|p|]| |] eqn:A; try discriminate.
    + assert (HS : stack g start k (s' :: s :: ss) (Leaf t :: vals) (w ++ [t])).
      { apply (stack_cons g start k s ss vals w s' (T (fst t))); auto. - destruct t; constructor. - discriminate. - discriminate. }
      specialize (IH _ _ _ _ toks a HS V2 E). destruct a as [v|t' e|e|t']; try exact IH.
      * destruct IH as (l & l' & -> & Vi & Ru). exists (t :: l), l'. split; [reflexivity|]. rewrite <- app_assoc in Vi. split; [exact Vi|].
        intros rest. cbn [app drive]. rewrite A. exact (Ru rest).
      * rewrite <- app_assoc in IH. exact IH.
    + rewrite (not_final _ _ _ A) in E. pose proof (stack_reduce tb g start k Checked _ _ _ _ p _ H C3 eq_refl) as P. rewrite (not_final _ _ _ A) in P.
      destruct P as (ss' & vals' & Er & HS & _). rewrite Er in E. destruct ss' as [|s1 ss']; [inversion HS|].
      specialize (IH _ _ _ _ (@cons token t toks) a HS V E). destruct a as [v|t' e|e|t']; try exact IH.
      destruct IH as (l & l' & El & Vi & Ru). exists l, l'. split; [exact El|]. split; [exact Vi|]. intros rest. specialize (Ru rest). cbn [drive].
      destruct l as [|t0 l]; injection El as -> El; cbn [app] in Ru |- *; rewrite A, (not_final _ _ _ A), Er; exact Ru.
    + injection E as <-. exists [], toks. rewrite app_nil_r. split; [reflexivity|]. split; [exact (stack_viable _ _ _ _ H)|].
      intros rest. cbn [app drive]. rewrite A. reflexivity.
Qed.

(** The answers that are not [Accepted]. *)
Theorem lr_errors (toks : list token) f a : Forall (fun t : token => fst t < k_terms k) toks -> run f [0] [] toks = Some (Ret a) ->
  match a with
  | Accepted _ => True
  | UnrecognizedToken t _ => exists l l', toks = l ++ t :: l' /\ viable l /\
      forall rest t', Forall (fun t : token => fst t < k_terms k) rest -> ~ derives g (NT start) t' (l ++ t :: rest)
  | UnrecognizedEof _ => viable toks
  | ExtraToken _ => False
  end.
Proof.
  intros V E. pose proof (run_error f 0 [] [] [] toks a (stack_nil g start k) V E) as H. destruct a as [v|t e|e|t]; try exact H.
  destruct H as (l & l' & -> & Vi & Ru). exists l, l'. split; [reflexivity|]. split; [exact Vi|]. intros rest t' Vr D.
  assert (V' : Forall (fun t : token => fst t < k_terms k) (l ++ t :: rest)).
  { apply Forall_app in V as [Va Vb]. inversion Vb; subst. apply Forall_app. split; [assumption|]. constructor; assumption. }
  pose proof (lr_complete tb g start k Checked t' _ 0 D V') as Acc. specialize (Ru rest).
  apply (run_more tb g start k _ (f + (size t' + 1))) in Ru; [|lia]. apply (run_more tb g start k _ (f + (size t' + 1))) in Acc; [|lia]. congruence.
Qed.

End Viable.

(** The machine that stops before an error of the lexer. *)
Lemma drive_before_same V shift build tb f : forall states values toks a o,
  drive V shift build tb f states values toks = Some (Ret a) ->
  drive_before V shift build tb f states values toks = Some (Ret o) ->
  match o with
  | Some b => b = a /\ match b with UnrecognizedToken _ _ | ExtraToken _ => True | _ => False end
  | None => match a with Accepted _ | UnrecognizedEof _ => True | _ => False end
  end.
Proof.
  induction f as [|f IH]; intros states values toks a o E B; [discriminate|]. cbn [drive drive_before] in *.
  destruct states as [|s states]; [discriminate|]. destruct toks as [|t rest].
  - injection B as <-. destruct (eof_action tb s) as [[s'|p|]| |]; try discriminate.
    + injection E as <-. exact I.
    + destruct (final tb p).
      * destruct values; [discriminate|]. injection E as <-. exact I.
      * destruct (reduce V build tb p (s :: states) values) as [[st vs]| |]; try discriminate.
        destruct f as [|f']; [discriminate|]. assert (B : drive_before V shift build tb (S f') st vs [] = Some (Ret None)).
        { cbn [drive_before drive] in *. destruct st; [discriminate|reflexivity]. }
        exact (IH _ _ _ _ _ E B).
    + injection E as <-. exact I.
  - destruct (action tb s (fst t)) as [[s'|p|]| |]; try discriminate.
    + exact (IH _ _ _ _ _ E B).
    + destruct (final tb p).
      * destruct values; [discriminate|]. injection B as <-. split; [congruence|exact I].
      * destruct (reduce V build tb p (s :: states) values) as [[st vs]| |]; try discriminate. exact (IH _ _ _ _ _ E B).
    + injection B as <-. split; [congruence|exact I].
Qed.
