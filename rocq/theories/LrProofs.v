(** * A checker for LR tables

    A certificate annotates each state with LR(1) items. If [check_tables] accepts tables, grammar and certificate,
    the machine accepts exactly the sentences of the grammar, with their parse trees, in linear time. *)

From Coq Require Import ZifyBool ZifyNat ZifyN.
From Verif Require Import Base StrModel LrModel LrSpec.
Local Open Scope nat_scope.
Ltac Zify.zify_post_hook ::= Z.div_mod_to_equations.

(** [k_kernel]: for each state the items (production, position of the dot > 0, lookaheads). [k_closure]: for each state the
    nonterminals whose productions can start there, with lookaheads. Sets of lookaheads are bit masks; the bit after
    those of the terminals is the end of the input. [k_weight] bounds the sizes of trees. *)
Record cert : Type := {
  k_terms : nat;
  k_top : nat;
  k_kernel : list (list (nat * nat * N));
  k_closure : list (list (nat * N));
  k_first : list N;
  k_null : list bool;
  k_weight : list nat;
  k_unit : nat
}.

Section Checker.
Variable tb : tables.
Variable g : grammar.
Variable start : nat.
Variable k : cert.

Definition aug : grammar := g ++ [(k_top k, [NT start])].

Definition bit (t : nat) (m : N) : bool := N.testbit m (N.of_nat t).
Definition subset (m m' : N) : bool := N.eqb (N.land m m') m.

Definition first_of (n : nat) : N := nth n (k_first k) 0%N.
Definition null_of (n : nat) : bool := nth n (k_null k) false.

Fixpoint first_seq (xs : list symbol) (m : N) : N :=
  match xs with
  | [] => m
  | T t :: _ => N.shiftl 1 (N.of_nat t)
  | NT n :: xs' => if null_of n then N.lor (first_of n) (first_seq xs' m) else first_of n
  end.

Definition null_sym (x : symbol) : bool := match x with T _ => false | NT n => null_of n end.

Definition kernel_at (s : nat) : list (nat * nat * N) := nth s (k_kernel k) [].
Definition closure_at (s : nat) : list (nat * N) := nth s (k_closure k) [].

Definition in_closure (s n : nat) (m : N) : bool :=
  existsb (fun e => (fst e =? n) && subset m (snd e)) (closure_at s).
Definition in_kernel (s p d : nat) (m : N) : bool :=
  existsb (fun e => let '(p', d', m') := e in (p' =? p) && (d' =? d) && subset m m') (kernel_at s).

Definition is_shift (o : outcome act) (s : nat) : bool := match o with Ret (Shift s') => s' =? s | _ => false end.
Definition is_reduce (o : outcome act) (p : nat) : bool := match o with Ret (Reduce p') => p' =? p | _ => false end.

(** *** Every item is served *)

Definition check_complete (s p : nat) (m : N) : bool :=
  forallb (fun t => if bit t m then is_reduce (action tb s t) p else true) (seq 0 (k_terms k)) &&
  (negb (bit (k_terms k) m) || is_reduce (eof_action tb s) p) && (N.size_nat m <=? S (k_terms k)).

Definition check_item (s p d : nat) (rest : list symbol) (m : N) : bool :=
  match rest with
  | [] => check_complete s p m
  | T t :: _ =>
      match action tb s t with Ret (Shift s') => in_kernel s' p (S d) m | _ => false end
  | NT n :: rest' => in_closure s n (first_seq rest' m) && in_kernel (goto tb s n) p (S d) m
  end.

Definition check_kernel (s : nat) (e : nat * nat * N) : bool :=
  let '(p, d, m) := e in
  match nth_error aug p with Some (_, rhs) => (d <=? length rhs) && check_item s p d (skipn d rhs) m | None => false end.

Definition indexed : list (nat * (nat * list symbol)) := combine (seq 0 (length aug)) aug.

Definition check_closure (s : nat) (e : nat * N) : bool :=
  let '(n, m) := e in
  forallb (fun q => let '(p, (lhs, rhs)) := q in if lhs =? n then check_item s p 0 rhs m else true) indexed.

(** *** Every move is justified *)

Definition check_back (s : nat) (x : symbol) (s' : nat) : bool :=
  (0 <? s') && (s' <? length (k_kernel k)) &&
  forallb (fun e => let '(p, d, _) := e in
             match nth_error aug p, d with
             | Some (lhs, rhs), S d' =>
                 match nth_error rhs d' with
                 | Some y => match x, y with T a, T b => a =? b | NT a, NT b => a =? b | _, _ => false end
                 | None => false
                 end &&
                 (if d' =? 0 then in_closure s lhs 0 else in_kernel s p d' 0)
             | _, _ => false
             end) (kernel_at s').

Definition check_reduce (s : nat) (o : outcome act) : bool :=
  match o with
  | Ret (Reduce p) =>
      match nth_error aug p with
      | Some (lhs, []) => in_closure s lhs 0
      | Some (_, rhs) => in_kernel s p (length rhs) 0
      | None => false
      end
  | Ret _ => true
  | _ => false
  end.

Definition check_state (s : nat) : bool :=
  forallb (check_kernel s) (kernel_at s) &&
  forallb (check_closure s) (closure_at s) &&
  forallb (fun t => let o := action tb s t in
             check_reduce s o && match o with Ret (Shift s') => check_back s (T t) s' | _ => true end) (seq 0 (k_terms k)) &&
  check_reduce s (eof_action tb s) &&
  forallb (fun e => let n := fst e in
             if n =? k_top k then s =? 0
             else check_back s (NT n) (goto tb s n) &&
             (negb (null_of n) || forallb (fun e' => negb (null_of (fst e'))) (closure_at (goto tb s n)))) (closure_at s).

(** *** Productions *)

Definition weight (x : symbol) : nat := match x with T _ => k_unit k - 1 | NT n => nth n (k_weight k) 0 end.
Definition sum (l : list nat) : nat := fold_right plus 0 l.

Definition check_production (q : nat * list symbol) : bool :=
  let '(lhs, rhs) := q in
  subset (first_seq rhs 0) (first_of lhs) &&
  (negb (forallb null_sym rhs) || null_of lhs) &&
  match rhs with
  | [] => true
  | _ => negb (forallb null_sym rhs) &&
         (weight (NT lhs) + 1 + length (filter null_sym rhs) <=? sum (map weight (filter (fun x => negb (null_sym x)) rhs)))
  end.

Definition check_reductions : bool :=
  (length (reductions tb) =? length g) &&
  forallb (fun e => let '(r, q) := e in (fst r =? length (snd q)) && (snd r =? fst q)) (combine (reductions tb) g).

Definition check_tables : bool :=
  check_reductions && forallb check_production aug && (1 <=? k_unit k) &&
  in_closure 0 (k_top k) (N.shiftl 1 (N.of_nat (k_terms k))) &&
  (0 <? length (k_kernel k)) && match kernel_at 0 with [] => true | _ => false end &&
  forallb (fun q => negb (fst q =? k_top k)) g &&
  forallb (fun q => forallb (fun x => match x with NT n => negb (n =? k_top k) | T _ => true end) (snd q)) aug &&
  forallb check_state (seq 0 (length (k_kernel k))).

(** ** From the checks to facts *)

Hypothesis Checked : check_tables = true.

Lemma checked : check_reductions = true /\ forallb check_production aug = true /\ 1 <= k_unit k /\
  in_closure 0 (k_top k) (N.shiftl 1 (N.of_nat (k_terms k))) = true /\ 0 < length (k_kernel k) /\ kernel_at 0 = [] /\
  forallb (fun q => negb (fst q =? k_top k)) g = true /\
  forallb (fun q => forallb (fun x => match x with NT n => negb (n =? k_top k) | T _ => true end) (snd q)) aug = true /\
  forall s, s < length (k_kernel k) -> check_state s = true.
Proof.
  pose proof Checked as H. unfold check_tables in H. apply andb_true_iff in H as [H H9]. apply andb_true_iff in H as [H H8].
  apply andb_true_iff in H as [H H7]. apply andb_true_iff in H as [H H6]. apply andb_true_iff in H as [H H5].
  apply andb_true_iff in H as [H H4]. apply andb_true_iff in H as [H H3]. apply andb_true_iff in H as [H1 H2].
  split; [exact H1|]. split; [exact H2|]. split; [lia|]. split; [exact H4|]. split; [lia|].
  split; [destruct (kernel_at 0); [reflexivity|discriminate]|]. split; [exact H7|]. split; [exact H8|].
  intros s L. rewrite forallb_forall in H9. apply H9. apply in_seq. lia.
Qed.

Lemma subset_bit m m' t : subset m m' = true -> bit t m = true -> bit t m' = true.
Proof.
  unfold subset, bit. intros E B. apply N.eqb_eq in E. rewrite <- E, N.land_spec in B. now apply andb_true_iff in B.
Qed.

Lemma subset_zero m : subset 0 m = true.
Proof. reflexivity. Qed.

Lemma production p lhs rhs : nth_error aug p = Some (lhs, rhs) -> check_production (lhs, rhs) = true.
Proof.
  intros E. destruct checked as (_ & H & _). rewrite forallb_forall in H. apply H. eapply nth_error_In; eauto.
Qed.

Lemma in_closure_spec s n m : in_closure s n m = true <-> exists m', In (n, m') (closure_at s) /\ subset m m' = true.
Proof.
  unfold in_closure. rewrite existsb_exists. split.
  - intros [[n' m'] [I E]]. cbn in E. apply andb_true_iff in E as [E1 E2]. assert (n' = n) by lia. subst. eauto.
  - intros [m' [I E]]. exists (n, m'). cbn. rewrite Nat.eqb_refl, E. auto.
Qed.

Lemma in_kernel_spec s p d m : in_kernel s p d m = true <-> exists m', In (p, d, m') (kernel_at s) /\ subset m m' = true.
Proof.
  unfold in_kernel. rewrite existsb_exists. split.
  - intros [[[p' d'] m'] [I E]]. apply andb_true_iff in E as [E1 E2]. apply andb_true_iff in E1 as [E0 E1].
    assert (p' = p) by lia. assert (d' = d) by lia. subst. eauto.
  - intros [m' [I E]]. exists (p, d, m'). rewrite !Nat.eqb_refl, E. auto.
Qed.

Lemma kernel_range s e : In e (kernel_at s) -> s < length (k_kernel k).
Proof.
  unfold kernel_at. intros I. destruct (Nat.lt_ge_cases s (length (k_kernel k))) as [|L]; [assumption|].
  rewrite nth_overflow in I by exact L. destruct I.
Qed.

(** An item of a state: from the kernel, or a production of a nonterminal of the closure. *)
Definition item (s p d : nat) (m : N) : Prop :=
  s < length (k_kernel k) /\
  (In (p, d, m) (kernel_at s) \/ d = 0 /\ exists lhs rhs, nth_error aug p = Some (lhs, rhs) /\ In (lhs, m) (closure_at s)).

Lemma item_checked s p d m : item s p d m ->
  exists lhs rhs, nth_error aug p = Some (lhs, rhs) /\ d <= length rhs /\ check_item s p d (skipn d rhs) m = true.
Proof.
  intros [L I]. destruct checked as (_ & _ & _ & _ & _ & _ & _ & _ & C). specialize (C s L). unfold check_state in C.
  apply andb_true_iff in C as [C _]. apply andb_true_iff in C as [C _]. apply andb_true_iff in C as [C _].
  apply andb_true_iff in C as [C1 C2]. rewrite forallb_forall in C1, C2. destruct I as [I|[-> [lhs [rhs [E I]]]]].
  - specialize (C1 _ I). unfold check_kernel in C1. destruct (nth_error aug p) as [[lhs rhs]|]; [|discriminate].
    apply andb_true_iff in C1 as [C1 C3]. exists lhs, rhs. split; [reflexivity|]. split; [lia|exact C3].
  - specialize (C2 _ I). unfold check_closure in C2. rewrite forallb_forall in C2. exists lhs, rhs. split; [exact E|]. split; [lia|].
    assert (X : In (p, (lhs, rhs)) indexed).
    { unfold indexed. assert (G : forall (l : grammar) n p, nth_error l p = Some (lhs, rhs) -> In (n + p, (lhs, rhs)) (combine (seq n (length l)) l)).
      { induction l as [|q l IH]; intros n [|p'] E'; try discriminate; cbn [length seq combine].
        - injection E' as ->. left. f_equal. lia.
        - right. replace (n + S p') with (S n + p') by lia. apply IH. exact E'. }
      exact (G aug 0 p E). }
    specialize (C2 _ X). cbn in C2. rewrite Nat.eqb_refl in C2. exact C2.
Qed.

(** ** Completeness *)

(** The lookahead. *)
Definition look (toks : list token) : nat := match toks with t :: _ => fst t | [] => k_terms k end.

Definition shape (X : symbol) (w : list token) (m : N) (rest : list token) : Prop :=
  bit (look (w ++ rest)) m = true.

Lemma bit_shift t : bit t (N.shiftl 1 (N.of_nat t)) = true.
Proof. unfold bit. rewrite N.shiftl_spec_high' by lia. rewrite N.sub_diag. reflexivity. Qed.

Lemma bit_lor t m m' : bit t (N.lor m m') = bit t m || bit t m'.
Proof. unfold bit. apply N.lor_spec. Qed.

Scheme derives_rec := Induction for derives Sort Prop
  with derives_all_rec := Induction for derives_all Sort Prop.
Combined Scheme derives_both from derives_rec, derives_all_rec.

Lemma derives_first :
  (forall X t w, derives aug X t w -> match X with
     | T a => exists tok rest, w = tok :: rest /\ fst tok = a
     | NT n => (w = [] -> null_of n = true) /\ (w <> [] -> bit (look w) (first_of n) = true)
     end) /\
  (forall Xs ts w, derives_all aug Xs ts w -> forall m rest,
     (w = [] -> forallb null_sym Xs = true) /\
     (bit (look rest) m = true -> bit (look (w ++ rest)) (first_seq Xs m) = true) /\
     (w <> [] -> bit (look (w ++ rest)) (first_seq Xs 0) = true)).
Proof.
  apply derives_both.
  - intros t s. eauto.
  - intros p lhs rhs ts w E D IH. pose proof (production _ _ _ E) as C. cbn in C.
    apply andb_true_iff in C as [C _]. apply andb_true_iff in C as [C1 C2]. destruct (IH 0%N []) as (I1 & _ & I3).
    rewrite app_nil_r in I3. split.
    + intros W. rewrite (I1 W) in C2. exact C2.
    + intros W. eapply subset_bit; eauto.
  - intros m rest. cbn. split; [auto|]. split; [auto|congruence].
  - intros X t w Xs ts ws D1 IH1 D2 IH2 m rest. rewrite <- app_assoc. destruct X as [a|n].
    + destruct IH1 as [tok [r [-> <-]]]. cbn. split; [discriminate|]. split; intros _; apply bit_shift.
    + destruct IH1 as [N1 N2]. destruct (IH2 m rest) as (A1 & A2 & A3). cbn [first_seq forallb null_sym].
      destruct w as [|tok w].
      * rewrite (N1 eq_refl). cbn [app andb]. rewrite !bit_lor. split; [exact A1|]. split; intros H; [rewrite (A2 H)|rewrite (A3 H)]; apply orb_true_r.
      * assert (F : bit (look ((tok :: w) ++ ws ++ rest)) (first_of n) = true) by (apply N2; discriminate).
        split; [discriminate|]. split; intros _; destruct (null_of n); rewrite ?bit_lor, F; reflexivity.
Qed.

(** *** The run of a derivation *)

Fixpoint size (t : tree) : nat := match t with Leaf _ => 1 | Node _ ts => S (sum (map size ts)) end.

Notation run := (drive tree Leaf (fun p ts => Ret (Node p ts)) tb).

Lemma complete_reduces s p m lhs rhs rest : item s p (length rhs) m -> nth_error aug p = Some (lhs, rhs) ->
  bit (look rest) m = true -> Forall (fun t : token => fst t < k_terms k) rest ->
  match rest with t :: _ => action tb s (fst t) | [] => eof_action tb s end = Ret (Reduce p).
Proof.
  intros I E B V. destruct (item_checked _ _ _ _ I) as (lhs' & rhs' & E' & L & C). rewrite E in E'. injection E' as <- <-.
  rewrite skipn_all in C. cbn in C. unfold check_complete in C. apply andb_true_iff in C as [C _]. apply andb_true_iff in C as [C1 C2].
  destruct rest as [|t rest]; cbn in B.
  - rewrite B in C2. cbn in C2. destruct (eof_action tb s) as [[]| |]; try discriminate. cbn in C2. f_equal. f_equal. lia.
  - inversion V; subst. rewrite forallb_forall in C1. specialize (C1 (fst t)). rewrite B in C1.
    specialize (C1 ltac:(apply in_seq; lia)). destruct (action tb s (fst t)) as [[]| |]; try discriminate. cbn in C1. f_equal. f_equal. lia.
Qed.

Lemma reductions_aug p lhs rhs : nth_error aug p = Some (lhs, rhs) -> p < length g ->
  nth_error (reductions tb) p = Some (length rhs, lhs).
Proof.
  intros E L. destruct checked as (C & _). unfold check_reductions in C. apply andb_true_iff in C as [C1 C2].
  unfold aug in E. rewrite nth_error_app1 in E by exact L.
  assert (L1 : length (reductions tb) = length g) by lia. clear C1 L. revert p E L1 C2. generalize (reductions tb) g.
  induction l as [|[a b] l IH]; intros [|[c d] l'] p E L1 C2; try discriminate; destruct p as [|p]; try discriminate; cbn in *.
  - injection E as -> ->. f_equal. f_equal; lia.
  - apply (IH l' p); [exact E|lia|]. apply andb_true_iff in C2. tauto.
Qed.

Lemma reductions_length : length (reductions tb) = length g.
Proof. destruct checked as (C & _). unfold check_reductions in C. lia. Qed.

Lemma top_not_in_g p lhs rhs : nth_error aug p = Some (lhs, rhs) -> lhs <> k_top k -> p < length g.
Proof.
  intros E N. destruct (Nat.lt_ge_cases p (length g)) as [|L]; [assumption|]. exfalso. unfold aug in E. rewrite nth_error_app2 in E by exact L.
  destruct (p - length g) as [|q]; cbn in E; [injection E as E1 E2; auto|]. destruct q; discriminate.
Qed.

Lemma rhs_not_top p lhs rhs n : nth_error aug p = Some (lhs, rhs) -> In (NT n) rhs -> n <> k_top k.
Proof.
  intros E I. destruct checked as (_ & _ & _ & _ & _ & _ & _ & C & _). rewrite forallb_forall in C.
  specialize (C _ (nth_error_In _ _ E)). cbn in C. rewrite forallb_forall in C. specialize (C _ I). cbn in C. lia.
Qed.

Lemma run_reduce f s states values rest p lhs rhs pre ts :
  match rest with t :: _ => action tb s (fst t) | [] => eof_action tb s end = Ret (Reduce p) ->
  nth_error aug p = Some (lhs, rhs) -> p < length g -> length pre = length rhs -> length ts = length rhs ->
  hd 0 (pre ++ states) = s -> states <> [] ->
  run (S f) (pre ++ states) (rev ts ++ values) rest = run f (goto tb (hd 0 states) lhs :: states) (Node p ts :: values) rest.
Proof.
  intros A E L L1 L2 H N. destruct (pre ++ states) as [|s0 st] eqn:X; [apply app_eq_nil in X; tauto|]. cbn in H. subst s0.
  assert (R : reduce tree (fun p ts => Ret (Node p ts)) tb p (s :: st) (rev ts ++ values) =
              Ret (goto tb (hd 0 states) lhs :: states, Node p ts :: values)).
  { unfold reduce. rewrite (reductions_aug _ _ _ E L). unfold bind. rewrite app_length, rev_length, L2.
    replace (length rhs <=? length rhs + length values) with true by lia.
    rewrite <- X, app_length, L1. replace (length rhs <=? length rhs + length states) with true by lia.
    rewrite skipn_app, <- L1, skipn_all, Nat.sub_diag. cbn [app skipn].
    destruct states as [|s1 states]; [congruence|]. cbn [hd]. rewrite L1, <- L2, <- (rev_length ts).
    rewrite firstn_app, firstn_all, Nat.sub_diag, skipn_app, skipn_all, Nat.sub_diag. cbn [firstn skipn app]. now rewrite app_nil_r, rev_involutive. }
  assert (F : final tb p = false) by (unfold final; rewrite reductions_length; lia).
  cbn [drive]. destruct rest as [|t rest]; rewrite A, F, R; reflexivity.
Qed.

Lemma item_next s p d m m' : in_kernel s p d m = true -> bit m' m = true -> exists m2, item s p d m2 /\ bit m' m2 = true.
Proof.
  intros I B. apply in_kernel_spec in I as [m2 [I SS]]. exists m2. split; [|eapply subset_bit; eauto]. split; [eapply kernel_range; eauto|auto].
Qed.

Lemma skipn_cons_nth {A} (l : list A) d x r : skipn d l = x :: r -> nth_error l d = Some x /\ skipn (S d) l = r /\ S d <= length l.
Proof.
  revert l. induction d as [|d IH]; intros [|y l]; cbn; try discriminate.
  - intros [= -> ->]. split; [reflexivity|]. split; [destruct r; reflexivity|lia].
  - intros E. destruct (IH _ E) as (A1 & A2 & A3). split; [exact A1|]. split; [exact A2|lia].
Qed.

Lemma run_derivation :
  (forall X t w, derives aug X t w -> forall s states values rest p d lhs rhs m Xs f,
     nth_error aug p = Some (lhs, rhs) -> skipn d rhs = X :: Xs -> item s p d m -> bit (look rest) (first_seq Xs m) = true ->
     Forall (fun t : token => fst t < k_terms k) (w ++ rest) ->
     exists s', run (size t + f) (s :: states) values (w ++ rest) = run f (s' :: s :: states) (t :: values) rest /\
                in_kernel s' p (S d) m = true) /\
  (forall Xs ts w, derives_all aug Xs ts w -> forall s states values rest p d lhs rhs m f,
     nth_error aug p = Some (lhs, rhs) -> skipn d rhs = Xs -> item s p d m -> bit (look rest) m = true ->
     Forall (fun t : token => fst t < k_terms k) (w ++ rest) ->
     exists pre m', run (sum (map size ts) + f) (s :: states) values (w ++ rest) = run f (pre ++ s :: states) (rev ts ++ values) rest /\
                length pre = length Xs /\ length ts = length Xs /\ item (hd 0 (pre ++ s :: states)) p (length rhs) m' /\
                bit (look rest) m' = true).
Proof.
  apply derives_both.
  - intros t str s states values rest p d lhs rhs m Xs f E K I B V.
    destruct (item_checked _ _ _ _ I) as (lhs' & rhs' & E' & L & C). rewrite E in E'. injection E' as <- <-. rewrite K in C. cbn in C.
    cbn [size app plus drive fst]. destruct (action tb s t) as [[s'| |]| |]; try discriminate. exists s'. auto.
  - intros q n rhs' ts w Eq D IH s states values rest p d lhs rhs m Xs f E K I B V.
    destruct (item_checked _ _ _ _ I) as (lhs' & rhs2 & E' & L & C). rewrite E in E'. injection E' as <- <-. rewrite K in C. cbn in C.
    apply andb_true_iff in C as [C1 C2]. apply in_closure_spec in C1 as [m' [J SS]].
    assert (N : n <> k_top k). { apply (rhs_not_top _ _ _ n E). rewrite <- (firstn_skipn d rhs), K. apply in_or_app. right. now left. }
    assert (B' : bit (look rest) m' = true) by (eapply subset_bit; eauto).
    destruct (IH s states values rest q 0 n rhs' m' (1 + f)%nat) as (pre & m2 & R & L1 & L2 & I2 & B2); auto.
    { destruct I as [I _]. split; [exact I|]. right. split; [reflexivity|]. eauto. }
    exists (goto tb s n). split; [|exact C2]. cbn [size]. replace (S (sum (map size ts)) + f) with (sum (map size ts) + (1 + f)) by lia.
    rewrite R. cbn [plus]. apply Forall_app in V as [_ V].
    apply (run_reduce f (hd 0 (pre ++ s :: states)) (s :: states) values rest q n rhs' pre ts); auto; try congruence.
    + eapply complete_reduces; eauto.
    + eapply top_not_in_g; eauto.
  - intros s states values rest p d lhs rhs m f E K I B V. exists [], m. cbn. destruct (item_checked _ _ _ _ I) as (lhs' & rhs2 & E' & L & C).
    rewrite E in E'. injection E' as <- <-.
    assert (d = length rhs). { assert (X := skipn_length d rhs). rewrite K in X. cbn in X. lia. }
    subst d. auto.
  - intros X t w Xs ts ws D1 IH1 D2 IH2 s states values rest p d lhs rhs m f E K I B V. rewrite <- app_assoc in V.
    destruct (proj2 derives_first _ _ _ D2 m rest) as (_ & F & _). specialize (F B).
    destruct (IH1 s states values (ws ++ rest) p d lhs rhs m Xs (sum (map size ts) + f) E K I F V) as (s' & R1 & K1).
    apply in_kernel_spec in K1 as [m1 [K1 S1]]. destruct (skipn_cons_nth _ _ _ _ K) as (_ & K2 & _).
    apply Forall_app in V as [_ V].
    destruct (IH2 s' (s :: states) (t :: values) rest p (S d) lhs rhs m1 f E K2) as (pre & m' & R2 & L1 & L2 & I2 & B2); auto.
    { split; [eapply kernel_range; eauto|auto]. }
    { eapply subset_bit; eauto. }
    exists (pre ++ [s']), m'. rewrite <- !app_assoc. cbn [app map sum fold_right rev]. fold (sum (map size ts)).
    replace (size t + sum (map size ts) + f) with (size t + (sum (map size ts) + f)) by lia. rewrite R1, R2, <- app_assoc. cbn [app].
    split; [reflexivity|]. rewrite app_length. cbn [length]. split; [lia|]. split; [lia|]. split; assumption.
Qed.

Lemma derives_aug :
  (forall X t w, derives g X t w -> derives aug X t w) /\ (forall Xs ts w, derives_all g Xs ts w -> derives_all aug Xs ts w).
Proof.
  apply (derives_both g (fun X t w _ => derives aug X t w) (fun Xs ts w _ => derives_all aug Xs ts w)).
  - constructor.
  - intros p lhs rhs ts w E _ IH. econstructor; [|exact IH]. unfold aug. rewrite nth_error_app1; [exact E|]. apply nth_error_Some. congruence.
  - constructor.
  - constructor; assumption.
Qed.

Lemma aug_derives :
  (forall X t w, derives aug X t w -> X <> NT (k_top k) -> derives g X t w) /\
  (forall Xs ts w, derives_all aug Xs ts w -> ~ In (NT (k_top k)) Xs -> derives_all g Xs ts w).
Proof.
  apply (derives_both aug (fun X t w _ => X <> NT (k_top k) -> derives g X t w) (fun Xs ts w _ => ~ In (NT (k_top k)) Xs -> derives_all g Xs ts w)).
  - constructor.
  - intros p lhs rhs ts w E _ IH N. econstructor.
    + pose proof (top_not_in_g _ _ _ E ltac:(congruence)) as L. unfold aug in E. rewrite nth_error_app1 in E by exact L. exact E.
    + apply IH. intros I. now apply (rhs_not_top _ _ _ _ E I).
  - constructor.
  - intros X t w Xs ts ws _ IH1 _ IH2 N. constructor; [apply IH1|apply IH2]; intros Z; apply N; [now left|now right].
Qed.

Lemma aug_last : nth_error aug (length g) = Some (k_top k, [NT start]).
Proof. unfold aug. now rewrite nth_error_app2, Nat.sub_diag. Qed.

Lemma start_not_top : start <> k_top k.
Proof. apply (rhs_not_top _ _ _ _ aug_last). now left. Qed.

Theorem lr_complete t toks f : derives g (NT start) t toks -> Forall (fun t : token => fst t < k_terms k) toks ->
  run (size t + S f) [0] [] toks = Some (Ret (Accepted t)).
Proof.
  intros D V. apply (proj1 derives_aug) in D. destruct checked as (_ & _ & _ & C & L & _).
  apply in_closure_spec in C as [m [I SS]].
  pose proof aug_last as E.
  assert (B : bit (look []) m = true) by (eapply subset_bit; [exact SS|apply bit_shift]).
  assert (IT : item 0 (length g) 0 m) by (split; [exact L|]; right; split; [reflexivity|]; exists (k_top k), [NT start]; auto).
  destruct (proj1 run_derivation _ _ _ D 0 [] [] [] (length g) 0 (k_top k) [NT start] m [] (S f) E eq_refl IT B) as (s' & R & K).
  { now rewrite app_nil_r. }
  rewrite app_nil_r in R. rewrite R. destruct (item_next _ _ _ _ _ K B) as (m2 & I2 & B2).
  pose proof (complete_reduces s' (length g) m2 (k_top k) [NT start] [] I2 E B2 (Forall_nil _)) as A. cbn in A.
  cbn [drive]. rewrite A. unfold final. rewrite reductions_length, Nat.eqb_refl. reflexivity.
Qed.

(** ** Soundness and time *)

(** What is on the stacks at any time: states, values, and the tokens the values cover. *)
Inductive stack : list nat -> list tree -> list token -> Prop :=
| stack_nil : stack [0] [] []
| stack_cons : forall s ss ts w s' X t u, stack (s :: ss) ts w -> check_back s X s' = true -> derives aug X t u ->
    match X with NT n => exists m, In (n, m) (closure_at s) | T _ => True end ->
    (null_sym X = true -> forall n m, In (n, m) (closure_at s') -> null_of n = false) -> X <> NT (k_top k) ->
    stack (s' :: s :: ss) (t :: ts) (w ++ u).

Lemma stack_lengths ss ts w : stack ss ts w -> length ss = S (length ts).
Proof. induction 1; cbn in *; lia. Qed.

Lemma stack_range s ss ts w : stack (s :: ss) ts w -> s < length (k_kernel k).
Proof.
  intros H. inversion H; subst.
  - destruct checked as (_ & _ & _ & _ & L & _). exact L.
  - unfold check_back in *. lia.
Qed.

Lemma stack_zero ss ts w : stack (0 :: ss) ts w -> ss = [] /\ ts = [] /\ w = [].
Proof.
  intros H. inversion H; subst; [auto|]. unfold check_back in *. cbn in *. discriminate.
Qed.

Lemma derives_all_snoc g' Xs ts w X t u : derives_all g' Xs ts w -> derives g' X t u -> derives_all g' (Xs ++ [X]) (ts ++ [t]) (w ++ u).
Proof.
  induction 1 as [|Y t' w' Xs ts ws D1 D2 IH]; intros D; cbn [app].
  - rewrite <- (app_nil_r u). constructor; [exact D|constructor].
  - rewrite <- app_assoc. constructor; auto.
Qed.

Lemma firstn_S_nth {A} (l : list A) d x : nth_error l d = Some x -> firstn (S d) l = firstn d l ++ [x].
Proof.
  revert l. induction d as [|d IH]; intros [|y l] E; try discriminate; cbn in *; [congruence|]. f_equal. now apply IH.
Qed.

Lemma stack_pop p lhs rhs : nth_error aug p = Some (lhs, rhs) -> forall d s ss vals w, stack (s :: ss) vals w ->
  in_kernel s p (S d) 0 = true ->
  exists pre s0 ss0 ts vals0 w0 u, s :: ss = pre ++ s0 :: ss0 /\ vals = rev ts ++ vals0 /\ w = w0 ++ u /\ length pre = S d /\ length ts = S d /\
    derives_all aug (firstn (S d) rhs) ts u /\ stack (s0 :: ss0) vals0 w0 /\ in_closure s0 lhs 0 = true.
Proof.
  intros E. induction d as [|d IH]; intros s ss vals w H K; apply in_kernel_spec in K as [m [K _]].
  - inversion H as [|s0 ss0 ts w0 s' X t u HS0 CB DD MM NN TT]; subst; [destruct checked as (_ & _ & _ & _ & _ & Z & _); rewrite Z in K; destruct K|].
    unfold check_back in CB. apply andb_true_iff in CB as [_ C]. rewrite forallb_forall in C. specialize (C _ K). cbv beta iota in C. rewrite E in C.
    apply andb_true_iff in C as [C1 C2]. destruct (nth_error rhs 0) as [Y|] eqn:EY; [|discriminate].
    assert (X = Y). { destruct X, Y; try discriminate; f_equal; lia. } subst Y.
    exists [s], s0, ss0, [t], ts, w0, u. cbn [app rev length]. repeat (split; [reflexivity|]).
    rewrite (firstn_S_nth _ _ _ EY). split; [|auto]. apply (derives_all_snoc _ [] [] [] X t u); [constructor|assumption].
  - inversion H as [|s0 ss0 ts w0 s' X t u HS0 CB DD MM NN TT]; subst; [destruct checked as (_ & _ & _ & _ & _ & Z & _); rewrite Z in K; destruct K|].
    unfold check_back in CB. apply andb_true_iff in CB as [_ C]. rewrite forallb_forall in C. specialize (C _ K). cbv beta iota in C. rewrite E in C.
    apply andb_true_iff in C as [C1 C2]. destruct (nth_error rhs (S d)) as [Y|] eqn:EY; [|discriminate].
    assert (X = Y). { destruct X, Y; try discriminate; f_equal; lia. } subst Y.
    destruct (IH _ _ _ _ HS0 C2) as (pre & s1 & ss1 & ts1 & vals1 & w1 & u1 & -> & -> & -> & L1 & L2 & D & HS & CC).
    exists (s :: pre), s1, ss1, (ts1 ++ [t]), vals1, w1, (u1 ++ u). cbn [app length]. rewrite rev_app_distr, app_length, app_assoc. cbn [rev app length].
    split; [reflexivity|]. split; [reflexivity|]. split; [reflexivity|]. split; [lia|]. split; [lia|].
    rewrite (firstn_S_nth _ _ _ EY). split; [|auto]. apply derives_all_snoc; assumption.
Qed.

Lemma state_checked s : s < length (k_kernel k) ->
  (forall t, t < k_terms k -> check_reduce s (action tb s t) = true /\ forall s', action tb s t = Ret (Shift s') -> check_back s (T t) s' = true) /\
  check_reduce s (eof_action tb s) = true /\
  (forall n m, In (n, m) (closure_at s) -> if n =? k_top k then s = 0 else
     check_back s (NT n) (goto tb s n) = true /\
     (null_of n = true -> forall n' m', In (n', m') (closure_at (goto tb s n)) -> null_of n' = false)).
Proof.
  intros L. destruct checked as (_ & _ & _ & _ & _ & _ & _ & _ & C). specialize (C s L). unfold check_state in C.
  apply andb_true_iff in C as [C C5]. apply andb_true_iff in C as [C C4]. apply andb_true_iff in C as [C C3]. split; [|split].
  - intros t Lt. rewrite forallb_forall in C3. specialize (C3 t ltac:(apply in_seq; lia)). cbn in C3. apply andb_true_iff in C3 as [A1 A2].
    split; [exact A1|]. intros s' E. rewrite E in A2. exact A2.
  - exact C4.
  - intros n m I. rewrite forallb_forall in C5. specialize (C5 _ I). cbn in C5. destruct (n =? k_top k); [lia|].
    apply andb_true_iff in C5 as [A1 A2]. split; [exact A1|]. intros Z n' m' I'. rewrite Z in A2. cbn in A2.
    rewrite forallb_forall in A2. specialize (A2 _ I'). cbn in A2. now destruct (null_of n').
Qed.

(** What a reduction does to well-formed stacks. *)
Lemma stack_reduce s ss vals w p o : stack (s :: ss) vals w -> check_reduce s o = true -> o = Ret (Reduce p) ->
  if final tb p then exists t, vals = [t] /\ derives aug (NT start) t w
  else exists ss' vals', reduce tree (fun p ts => Ret (Node p ts)) tb p (s :: ss) vals = Ret (ss', vals') /\ stack ss' vals' w /\
         sum (map size vals') = S (sum (map size vals)).
Proof.
  intros H C ->. cbn in C. destruct (nth_error aug p) as [[lhs rhs]|] eqn:E; [|discriminate].
  assert (P : exists pre s0 ss0 ts vals0 w0 u, s :: ss = pre ++ s0 :: ss0 /\ vals = rev ts ++ vals0 /\ w = w0 ++ u /\
             length pre = length rhs /\ length ts = length rhs /\
             derives_all aug rhs ts u /\ stack (s0 :: ss0) vals0 w0 /\ in_closure s0 lhs 0 = true).
  { destruct rhs as [|x rhs].
    - exists [], s, ss, [], vals, w, []. rewrite app_nil_r. cbn. repeat (split; [reflexivity|]). split; [constructor|auto].
    - destruct (stack_pop p lhs (x :: rhs) E (length rhs) s ss vals w H C) as (pre & s0 & ss0 & ts & vals0 & w0 & u & P).
      exists pre, s0, ss0, ts, vals0, w0, u. change (S (length rhs)) with (length (x :: rhs)) in P. rewrite firstn_all in P. exact P. }
  destruct P as (pre & s0 & ss0 & ts & vals0 & w0 & u & P1 & -> & -> & L1 & L2 & D & HS & CC).
  apply in_closure_spec in CC as [m [I _]]. pose proof (stack_range _ _ _ _ HS) as R.
  destruct (state_checked s0 R) as (_ & _ & C3). specialize (C3 _ _ I). unfold final. rewrite reductions_length.
  destruct (p =? length g) eqn:F.
  - assert (p = length g) by lia. subst p. rewrite aug_last in E. injection E as <- <-. rewrite Nat.eqb_refl in C3. subst s0.
    destruct (stack_zero _ _ _ HS) as (-> & -> & ->). inversion D as [|? t1 w1 ? ? ? D1 D2]; subst. inversion D2; subst. cbn [app rev]. rewrite app_nil_r. exists t1. split; [reflexivity|exact D1].
  - assert (Lp : p < length g). { assert (Z : p < length aug) by (apply nth_error_Some; congruence). unfold aug in Z. rewrite app_length in Z. cbn in Z. lia. }
    assert (N : (lhs =? k_top k) = false).
    { destruct checked as (_ & _ & _ & _ & _ & _ & Z & _). rewrite forallb_forall in Z. unfold aug in E. rewrite nth_error_app1 in E by exact Lp.
      specialize (Z _ (nth_error_In _ _ E)). cbn in Z. lia. }
    rewrite N in C3. destruct C3 as [C3 C4].
    exists (goto tb s0 lhs :: s0 :: ss0), (Node p ts :: vals0). split.
    + unfold reduce. rewrite (reductions_aug _ _ _ E Lp). unfold bind. rewrite app_length, rev_length, L2.
      replace (length rhs <=? length rhs + length vals0) with true by lia.
      rewrite P1, app_length, L1. replace (length rhs <=? length rhs + length (s0 :: ss0)) with true by lia.
      rewrite skipn_app, <- L1, skipn_all, Nat.sub_diag. cbn [app skipn]. rewrite L1, <- L2, <- (rev_length ts).
      rewrite firstn_app, firstn_all, Nat.sub_diag, skipn_app, skipn_all, Nat.sub_diag. cbn [firstn skipn app]. now rewrite app_nil_r, rev_involutive.
    + split.
      * apply (stack_cons s0 ss0 vals0 w0 _ (NT lhs)); [exact HS|exact C3| |eauto| |].
        -- econstructor; eauto.
        -- exact C4.
        -- intros [= Z]. lia.
      * rewrite map_app. cbn [map sum fold_right size]. fold (sum (map size vals0)). fold (sum (map size ts)).
        assert (A : forall a b, sum (a ++ b) = sum a + sum b). { induction a; intros b; cbn [app sum fold_right]; [reflexivity|]. fold (sum (a0 ++ b)) (sum a0). rewrite IHa. lia. }
        assert (B : forall a, sum (rev a) = sum a). { induction a; cbn [rev]; [reflexivity|]. rewrite A, IHa. cbn [sum fold_right]. fold (sum a0). lia. }
        rewrite A, map_rev, B. lia.
Qed.

(** *** Sizes of trees *)

Lemma derives_nonempty :
  (forall X t w, derives aug X t w -> null_sym X = false -> w <> []) .
Proof.
  intros X t w D N W. pose proof (proj1 derives_first _ _ _ D) as F. destruct X as [a|n]; cbn in N.
  - destruct F as (tok & rest & -> & _). discriminate.
  - destruct F as [F _]. rewrite (F W) in N. discriminate.
Qed.

Lemma size_bound :
  (forall X t w, derives aug X t w -> (w = [] -> size t = 1) /\ (w <> [] -> size t + weight X <= k_unit k * length w)) /\
  (forall Xs ts w, derives_all aug Xs ts w ->
     (w = [] -> forallb null_sym Xs = true) /\
     sum (map size ts) + sum (map weight (filter (fun x => negb (null_sym x)) Xs)) <= k_unit k * length w + length (filter null_sym Xs)).
Proof.
  destruct checked as (_ & _ & U & _).
  apply (derives_both aug (fun X t w _ => (w = [] -> size t = 1) /\ (w <> [] -> size t + weight X <= k_unit k * length w))
    (fun Xs ts w _ => (w = [] -> forallb null_sym Xs = true) /\
     sum (map size ts) + sum (map weight (filter (fun x => negb (null_sym x)) Xs)) <= k_unit k * length w + length (filter null_sym Xs))).
  - intros t s. split; [discriminate|]. intros _. cbn [size weight length]. lia.
  - intros p lhs rhs ts w E D [I1 I2]. pose proof (production _ _ _ E) as C. cbn in C. apply andb_true_iff in C as [_ C].
    cbn [size]. destruct rhs as [|x rhs].
    + inversion D; subst. split; [reflexivity|congruence].
    + apply andb_true_iff in C as [C1 C2]. split.
      * intros W. rewrite (I1 W) in C1. discriminate.
      * intros W. apply Nat.leb_le in C2. cbn [weight] in *. lia.
  - cbn. split; [auto|lia].
  - intros X t w Xs ts ws D1 [A1 A2] D2 [B1 B2]. split.
    + intros W. apply app_eq_nil in W as [-> ->]. cbn [forallb]. rewrite (B1 eq_refl), andb_true_r. specialize (A1 eq_refl).
      destruct (null_sym X) eqn:N; [reflexivity|]. now pose proof (derives_nonempty _ _ _ D1 N).
    + rewrite app_length, Nat.mul_add_distr_l. cbn [map sum fold_right filter]. fold (sum (map size ts)).
      destruct (null_sym X) eqn:N; cbn [negb map sum fold_right length].
      * assert (Z : size t <= 1 + k_unit k * length w). { destruct w as [|a w]; [rewrite (A1 eq_refl); lia|]. specialize (A2 ltac:(discriminate)). lia. }
        fold (sum (map weight (filter (fun x => negb (null_sym x)) Xs))). lia.
      * specialize (A2 (derives_nonempty _ _ _ D1 N)). fold (sum (map weight (filter (fun x => negb (null_sym x)) Xs))). lia.
Qed.

Lemma stack_size ss vals w : stack ss vals w ->
  sum (map size vals) <= (k_unit k + 1) * length w + 1 /\
  match ss with
  | s :: _ => (exists n m, In (n, m) (closure_at s) /\ null_of n = true) -> sum (map size vals) <= (k_unit k + 1) * length w
  | [] => True
  end.
Proof.
  destruct checked as (_ & _ & U & _).
  induction 1 as [|s ss ts w s' X t u H [IH1 IH2] C D M N TT]; [cbn; split; [lia|intros _; lia]|].
  destruct (proj1 size_bound _ _ _ D) as [S1 S2]. rewrite app_length. cbn [map sum fold_right]. fold (sum (map size ts)).
  destruct (null_sym X) eqn:Z.
  - split.
    + destruct X as [a|n]; [discriminate|]. cbn in Z. destruct M as [m M]. specialize (IH2 ltac:(exists n, m; auto)).
      destruct u as [|a u]; [rewrite (S1 eq_refl); cbn [length]; lia|]. specialize (S2 ltac:(discriminate)).
      change (weight (NT n)) with (nth n (k_weight k) 0) in S2. nia.
    + intros (n & m & I & E). rewrite (N eq_refl _ _ I) in E. discriminate.
  - pose proof (derives_nonempty _ _ _ D Z) as W. specialize (S2 W). destruct u as [|a u]; [congruence|]. cbn [length] in *. split; [nia|]. intros _. nia.
Qed.

Local Ltac destruct_run IH :=
  revert IH; match goal with |- context [drive ?V ?l ?b ?t ?f ?a ?v ?w] => destruct (drive V l b t f a v w) as [[[]| |]|] end;
  intros IH; try exact IH.

Theorem lr_sound f : forall s ss vals (w toks : list token), stack (s :: ss) vals w -> Forall (fun t : token => fst t < k_terms k) toks ->
  match run f (s :: ss) vals toks with
  | None => f + sum (map size vals) <= (k_unit k + 1) * length (w ++ toks) + 1
  | Some (Ret (Accepted t)) => derives aug (NT start) t (w ++ toks)
  | Some (Ret _) => True
  | Some _ => False
  end.
Proof.
  induction f as [|f IH]; intros s ss vals w toks H V.
  - cbn [drive]. destruct (stack_size _ _ _ H) as [B _]. rewrite app_length. nia.
  - pose proof (stack_range _ _ _ _ H) as R. destruct (state_checked s R) as (C1 & C2 & _). cbn [drive].
    destruct toks as [|t toks].
    + destruct (eof_action tb s) as [[s'|p|]| |] eqn:A; try exact I; try discriminate.
      pose proof (stack_reduce _ _ _ _ p _ H C2 eq_refl) as P. destruct (final tb p).
      * destruct P as [t [-> D]]. rewrite app_nil_r. exact D.
      * destruct P as (ss' & vals' & -> & HS & E). destruct ss' as [|s1 ss']; [inversion HS|]. specialize (IH _ _ _ _ (@nil token) HS V).
        destruct_run IH. lia.
    + inversion V as [|? ? V1 V2]; subst. destruct (C1 _ V1) as [C3 C4]. destruct (action tb s (fst t)) as [[s'|p|]| |] eqn:A; try exact I; try discriminate.
      * assert (HS : stack (s' :: s :: ss) (Leaf t :: vals) (w ++ [t])).
        { apply (stack_cons s ss vals w s' (T (fst t))); auto. - destruct t; constructor. - discriminate. - discriminate. }
        specialize (IH _ _ _ _ toks HS V2). rewrite <- app_assoc in IH. cbn [app] in IH.
        destruct_run IH. cbn [map sum fold_right size] in IH. fold (sum (map size vals)) in IH. lia.
      * pose proof (stack_reduce _ _ _ _ p _ H C3 eq_refl) as P. destruct (final tb p).
        -- destruct P as [t' [-> _]]. exact I.
        -- destruct P as (ss' & vals' & -> & HS & E). destruct ss' as [|s1 ss']; [inversion HS|]. specialize (IH _ _ _ _ (@cons token t toks) HS V).
           destruct_run IH. lia.
Qed.

Lemma run_more f f' states values toks a : run f states values toks = Some a -> f <= f' -> run f' states values toks = Some a.
Proof.
  revert f' states values toks. induction f as [|f IH]; intros f' states values toks E L; [discriminate|]. destruct f' as [|f']; [lia|].
  cbn [drive] in *. destruct states as [|s states]; [exact E|]. destruct toks as [|t toks].
  - destruct (eof_action tb s) as [[s'|p|]| |]; try exact E. destruct (final tb p); [exact E|].
    destruct (reduce _ _ tb p (s :: states) values) as [[]| |]; try exact E. apply IH; [exact E|lia].
  - destruct (action tb s (fst t)) as [[s'|p|]| |]; try exact E; [apply IH; [exact E|lia]|]. destruct (final tb p); [exact E|].
    destruct (reduce _ _ tb p (s :: states) values) as [[]| |]; try exact E. apply IH; [exact E|lia].
Qed.

(** The machine ends within linearly many steps, does not panic, and accepts exactly the sentences of the grammar. *)
Theorem lr_correct (toks : list token) f : Forall (fun t : token => fst t < k_terms k) toks -> (k_unit k + 1) * length toks + 2 <= f ->
  exists a, run f [0] [] toks = Some (Ret a) /\ forall t, a = Accepted t <-> derives g (NT start) t toks.
Proof.
  intros V L. pose proof (lr_sound f 0 [] [] [] toks stack_nil V) as S. cbn [app map sum fold_right] in S.
  destruct (run f [0] [] toks) as [[a| |]|] eqn:E; try contradiction; [|lia]. exists a. split; [reflexivity|]. intros t. split.
  - intros ->. apply (proj1 aug_derives); [exact S|]. intros [= X]. now apply start_not_top.
  - intros D. pose proof (lr_complete t toks f D V) as C. apply (run_more f (size t + Datatypes.S f)) in E; [|lia]. congruence.
Qed.

Theorem lr_unambiguous (toks : list token) t t' : Forall (fun t : token => fst t < k_terms k) toks ->
  derives g (NT start) t toks -> derives g (NT start) t' toks -> t = t'.
Proof.
  intros V D D'. destruct (lr_correct toks _ V (le_n _)) as (a & _ & E). apply E in D, D'. congruence.
Qed.

(** ** Semantic actions *)

Section Values.
Variable V : Type.
Variable shift : token -> V.
Variable build : nat -> list V -> outcome V.

Fixpoint eval (t : tree) : outcome V :=
  match t with
  | Leaf tok => Ret (shift tok)
  | Node p ts =>
      vs <- (fix all (l : list tree) : outcome (list V) :=
               match l with
               | [] => Ret []
               | t' :: l' => v <- eval t' ;; vs <- all l' ;; Ret (v :: vs)
               end) ts ;;
      build p vs
  end.

Fixpoint eval_all (l : list tree) : outcome (list V) :=
  match l with
  | [] => Ret []
  | t' :: l' => v <- eval t' ;; vs <- eval_all l' ;; Ret (v :: vs)
  end.

Lemma eval_node p ts : eval (Node p ts) = (vs <- eval_all ts ;; build p vs).
Proof. cbn [eval]. f_equal; try reflexivity. Qed.

Lemma eval_all_Forall2 l vs : eval_all l = Ret vs <-> Forall2 (fun t v => eval t = Ret v) l vs.
Proof.
  revert vs. induction l as [|t l IH]; intros vs; cbn [eval_all].
  - split; [intros [= <-]; constructor|]. intros H. inversion H. reflexivity.
  - unfold bind. split.
    + destruct (eval t) as [v| |] eqn:E; try discriminate. destruct (eval_all l) as [vs'| |]; try discriminate. intros [= <-].
      constructor; [exact E|]. now apply IH.
    + intros H. inversion H as [|? v ? vs' E1 E2]; subst. rewrite E1. apply IH in E2. rewrite E2. reflexivity.
Qed.

Variable fine : token -> Prop.
Hypothesis Evals : forall X t w, derives g X t w -> Forall fine w -> exists v, eval t = Ret v.

Notation run_values := (drive V shift build tb).

Definition translate (o : option (outcome (answer tree))) : option (outcome (answer V)) :=
  match o with
  | Some (Ret (Accepted t)) => Some (v <- eval t ;; Ret (Accepted v))
  | Some (Ret (UnrecognizedToken t e)) => Some (Ret (UnrecognizedToken t e))
  | Some (Ret (UnrecognizedEof e)) => Some (Ret (UnrecognizedEof e))
  | Some (Ret (ExtraToken t)) => Some (Ret (ExtraToken t))
  | Some Panic => Some Panic
  | Some Undef => Some Undef
  | None => None
  end.

Lemma stack_values ss vals w : stack ss vals w -> Forall fine w -> exists vs, Forall2 (fun t v => eval t = Ret v) vals vs.
Proof.
  induction 1 as [|s ss ts w s' X t u H IH C D M N TT]; intros F; [exists []; constructor|].
  apply Forall_app in F as [F1 F2]. destruct (IH F1) as [vs IH']. destruct (Evals X t u) as [v E]; [now apply (proj1 aug_derives)|exact F2|].
  exists (v :: vs). constructor; assumption.
Qed.

Lemma Forall2_firstn {A B} (R : A -> B -> Prop) n l l' : Forall2 R l l' -> Forall2 R (firstn n l) (firstn n l').
Proof. intros H. revert n. induction H; intros [|n]; cbn; constructor; auto. Qed.
Lemma Forall2_skipn {A B} (R : A -> B -> Prop) n l l' : Forall2 R l l' -> Forall2 R (skipn n l) (skipn n l').
Proof. intros H. revert n. induction H; intros [|n]; cbn; try constructor; auto. Qed.
Lemma Forall2_rev {A B} (R : A -> B -> Prop) l l' : Forall2 R l l' -> Forall2 R (rev l) (rev l').
Proof. induction 1; cbn; [constructor|]. apply Forall2_app; auto. Qed.
Lemma Forall2_len {A B} (R : A -> B -> Prop) l l' : Forall2 R l l' -> length l = length l'.
Proof. induction 1; cbn; lia. Qed.

Lemma reduce_values p ss vals vs ss' vals' w : Forall2 (fun t v => eval t = Ret v) vals vs -> Forall fine w -> stack ss' vals' w ->
  reduce tree (fun p ts => Ret (Node p ts)) tb p ss vals = Ret (ss', vals') ->
  exists vs', reduce V build tb p ss vs = Ret (ss', vs') /\ Forall2 (fun t v => eval t = Ret v) vals' vs'.
Proof.
  intros F Fi HS. unfold reduce. destruct (nth_error (reductions tb) p) as [[n nt]|]; [|discriminate].
  rewrite <- (Forall2_len _ _ _ F). destruct (n <=? length vals); [|discriminate]. cbn [bind].
  destruct (n <=? length ss); [|discriminate]. destruct (skipn n ss) as [|s r]; [discriminate|]. intros [= <- <-].
  destruct (stack_values _ _ _ HS Fi) as [vs' F']. inversion F' as [|? v ? vs2 E1 E2]; subst. rewrite eval_node in E1.
  assert (EA : eval_all (rev (firstn n vals)) = Ret (rev (firstn n vs))) by (apply eval_all_Forall2, Forall2_rev, Forall2_firstn, F).
  rewrite EA in E1. cbn [bind] in E1. rewrite E1. cbn [bind]. eexists. split; [reflexivity|]. constructor; [rewrite eval_node, EA; exact E1|]. now apply Forall2_skipn.
Qed.

Theorem run_translates f : forall s ss vals vs (w toks : list token), stack (s :: ss) vals w -> Forall2 (fun t v => eval t = Ret v) vals vs ->
  Forall (fun t : token => fst t < k_terms k) toks -> Forall fine (w ++ toks) ->
  run_values f (s :: ss) vs toks = translate (run f (s :: ss) vals toks).
Proof.
  induction f as [|f IH]; intros s ss vals vs w toks H F V0 Fi; [reflexivity|].
  pose proof (stack_range _ _ _ _ H) as R. destruct (state_checked s R) as (C1 & C2 & _). cbn [drive].
  destruct toks as [|t toks].
  - destruct (eof_action tb s) as [[s'|p|]| |] eqn:A; try reflexivity.
    pose proof (stack_reduce _ _ _ _ p _ H C2 eq_refl) as P. destruct (final tb p).
    + destruct P as [t [-> D]]. inversion F as [|? v ? ? E1 E2]; subst. cbn [translate]. rewrite E1. reflexivity.
    + destruct P as (ss' & vals' & E & HS & _). rewrite app_nil_r in Fi. destruct (reduce_values p (s :: ss) vals vs ss' vals' w F Fi HS E) as (vs' & E' & F').
      rewrite E, E'. destruct ss' as [|s1 ss']; [inversion HS|]. apply (IH s1 ss' vals' vs' w (@nil token) HS F' V0). now rewrite app_nil_r.
  - inversion V0 as [|? ? V1 V2]; subst. destruct (C1 _ V1) as [C3 C4]. destruct (action tb s (fst t)) as [[s'|p|]| |] eqn:A; try reflexivity.
    + assert (HS : stack (s' :: s :: ss) (Leaf t :: vals) (w ++ [t])).
      { apply (stack_cons s ss vals w s' (T (fst t))); auto. - destruct t; constructor. - discriminate. - discriminate. }
      apply (IH s' (s :: ss) (Leaf t :: vals) (shift t :: vs) (w ++ [t]) toks HS); [constructor; [reflexivity|exact F]|exact V2|]. now rewrite <- app_assoc.
    + pose proof (stack_reduce _ _ _ _ p _ H C3 eq_refl) as P. destruct (final tb p).
      * destruct P as [t' [-> D]]. inversion F; subst. reflexivity.
      * destruct P as (ss' & vals' & E & HS & _). pose proof (proj1 (proj1 (Forall_app _ _ _) Fi)) as Fw. destruct (reduce_values p (s :: ss) vals vs ss' vals' w F Fw HS E) as (vs' & E' & F').
        rewrite E, E'. destruct ss' as [|s1 ss']; [inversion HS|]. apply (IH s1 ss' vals' vs' w (@cons token t toks) HS F' V0 Fi).
Qed.

(** The values computed are those of the parse tree. *)
Theorem lr_values (toks : list token) f : Forall (fun t : token => fst t < k_terms k) toks -> Forall fine toks ->
  (k_unit k + 1) * length toks + 2 <= f ->
  exists a, run_values f [0] [] toks = Some (Ret a) /\ forall v, a = Accepted v <-> exists t, derives g (NT start) t toks /\ eval t = Ret v.
Proof.
  intros V0 Fi L. destruct (lr_correct toks f V0 L) as (a & E & C).
  pose proof (run_translates f 0 [] [] [] [] toks stack_nil (Forall2_nil _) V0 Fi) as RT. rewrite E in RT. destruct a as [t|t e|e|t]; cbn [translate] in RT.
  - pose proof (proj1 (C t) eq_refl) as D. destruct (Evals _ _ _ D Fi) as [v Ev]. rewrite Ev in RT. cbn [bind] in RT. exists (Accepted v). split; [exact RT|].
    intros v'. split.
    + intros [= <-]. eauto.
    + intros (t' & D' & Ev'). apply C in D'. injection D' as <-. congruence.
  - exists (UnrecognizedToken t e). split; [exact RT|]. intros v. split; [discriminate|]. intros (t' & D' & _). apply C in D'. discriminate.
  - exists (UnrecognizedEof e). split; [exact RT|]. intros v. split; [discriminate|]. intros (t' & D' & _). apply C in D'. discriminate.
  - exists (ExtraToken t). split; [exact RT|]. intros v. split; [discriminate|]. intros (t' & D' & _). apply C in D'. discriminate.
Qed.

End Values.

End Checker.


(** ** The machine before an error of the lexer *)

Lemma drive_before_drive V shift build tb f : forall states values toks a,
  drive V shift build tb f states values toks = Some (Ret a) ->
  exists o, drive_before V shift build tb f states values toks = Some (Ret o) /\
    match o with Some (Accepted _) => False | _ => True end.
Proof.
  induction f as [|f IH]; intros states values toks a E; [discriminate|]. cbn [drive drive_before] in *.
  destruct states as [|s states]; [discriminate|]. destruct toks as [|t rest]; [exists None; auto|].
  destruct (action tb s (fst t)) as [[s'|p|]| |]; try discriminate.
  - exact (IH _ _ _ _ E).
  - destruct (final tb p).
    + destruct values; [discriminate|]. eexists. split; [reflexivity|exact I].
    + destruct (reduce V build tb p (s :: states) values) as [[st vs]| |]; try discriminate. exact (IH _ _ _ _ E).
  - eexists. split; [reflexivity|exact I].
Qed.
