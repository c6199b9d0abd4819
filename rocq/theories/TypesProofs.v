(** * Proofs about types and paths *)

From Coq Require Import ZifyBool ZifyNat ZifyN.
From Verif Require Import Base BaseFacts StrModel StrFacts TypesModel TypesSpec.

(** ** Order *)

Lemma path_cmp_cons i j p q :
  path_cmp (i :: p) (j :: q) = if i <? j then Lt else if j <? i then Gt else path_cmp p q.
Proof.
  unfold path_cmp. cbn [cmp_common length]. destruct (i <? j); [reflexivity|]. destruct (j <? i); reflexivity.
Qed.

Lemma path_cmp_eq p q : path_cmp p q = Eq <-> p = q.
Proof.
  revert q. induction p as [|i p IH]; intros [|j q].
  - split; reflexivity.
  - cbn. split; discriminate.
  - cbn. split; discriminate.
  - rewrite path_cmp_cons. destruct (i <? j) eqn:E1; [|destruct (j <? i) eqn:E2].
    + split; [discriminate|]. intros H. injection H as -> ->. lia.
    + split; [discriminate|]. intros H. injection H as -> ->. lia.
    + assert (i = j) by lia. subst. rewrite IH. split; [congruence|]. intros H. injection H as ->. reflexivity.
Qed.

Lemma path_cmp_opp p q : path_cmp q p = CompOpp (path_cmp p q).
Proof.
  revert q. induction p as [|i p IH]; intros [|j q]; try reflexivity.
  rewrite !path_cmp_cons. destruct (i <? j) eqn:E1; destruct (j <? i) eqn:E2; try reflexivity; [lia|apply IH].
Qed.

Lemma path_cmp_trans c p q r : path_cmp p q = c -> path_cmp q r = c -> path_cmp p r = c.
Proof.
  revert q r. induction p as [|i p IH]; intros [|j q] [|k r] H1 H2; try (cbn in *; congruence).
  rewrite path_cmp_cons in *.
  destruct (i <? j) eqn:E1; [|destruct (j <? i) eqn:E2];
  (destruct (j <? k) eqn:E3; [|destruct (k <? j) eqn:E4]);
  (destruct (i <? k) eqn:E5; [|destruct (k <? i) eqn:E6]); try congruence; try lia.
  eapply IH; eassumption.
Qed.

Lemma path_cmp_extends p s : s <> [] -> path_cmp p (p ++ s) = Lt.
Proof.
  intros Hs. induction p as [|i p IH].
  - destruct s; [congruence|reflexivity].
  - cbn [app]. rewrite path_cmp_cons. replace (i <? i) with false by lia. exact IH.
Qed.

Lemma path_cmp_between p q s :
  path_cmp p q <> Gt -> path_cmp q (p ++ s) <> Gt -> extends p q.
Proof.
  revert q. induction p as [|i p IH]; intros q H1 H2.
  - exists q. reflexivity.
  - destruct q as [|j q]; [cbn in H1; congruence|]. cbn [app] in H2. rewrite path_cmp_cons in *.
    destruct (i <? j) eqn:E1; [|destruct (j <? i) eqn:E2; [congruence|]].
    + destruct (j <? i) eqn:E2; [lia|]. congruence.
    + assert (i = j) by lia. subst j. destruct (IH q H1 H2) as [t ->]. exists t. reflexivity.
Qed.

Lemma path_cmp_lt p q : path_cmp p q = Lt <->
  strictly_extends p q \/
  exists c i j p' q', p = c ++ i :: p' /\ q = c ++ j :: q' /\ i < j.
Proof.
  split.
  - revert q. induction p as [|i p IH]; intros [|j q] H; try (cbn in H; discriminate).
    + left. exists (j :: q). split; [discriminate|reflexivity].
    + rewrite path_cmp_cons in H. destruct (i <? j) eqn:E1; [|destruct (j <? i) eqn:E2; [discriminate|]].
      * right. exists [], i, j, p, q. repeat split. lia.
      * assert (i = j) by lia. subst j. destruct (IH _ H) as [[s [Hs ->]]|(c & a & b & p' & q' & -> & -> & Hab)].
        -- left. exists s. split; [exact Hs|reflexivity].
        -- right. exists (i :: c), a, b, p', q'. repeat split. exact Hab.
  - intros [[s [Hs ->]]|(c & i & j & p' & q' & -> & -> & Hij)].
    + apply path_cmp_extends. exact Hs.
    + induction c as [|a c IH]; cbn [app]; rewrite path_cmp_cons.
      * replace (i <? j) with true by lia. reflexivity.
      * replace (a <? a) with false by lia. exact IH.
Qed.

(** ** Prefixes *)

Lemma path_eqb_eq p q : path_eqb p q = true <-> p = q.
Proof.
  revert q. induction p as [|i p IH]; intros [|j q]; cbn [path_eqb]; split; intros H; try reflexivity; try discriminate.
  - apply andb_true_iff in H as [H1 H2]. apply Nat.eqb_eq in H1. apply IH in H2. congruence.
  - injection H as -> ->. rewrite Nat.eqb_refl. apply IH. reflexivity.
Qed.

Lemma is_prefix_of_iff p q : is_prefix_of p q = true <-> extends p q.
Proof.
  unfold is_prefix_of, extends. destruct (length q <? length p) eqn:E.
  - split; [discriminate|]. intros [s ->]. rewrite app_length in E. lia.
  - rewrite path_eqb_eq. split.
    + intros H. exists (skipn (length p) q). rewrite H at 1. symmetry. apply firstn_skipn.
    + intros [s ->]. rewrite firstn_app, firstn_all, Nat.sub_diag. cbn [firstn]. symmetry. apply app_nil_r.
Qed.

Lemma is_proper_prefix_of_false p q : is_proper_prefix_of p q = false.
Proof. unfold is_proper_prefix_of. rewrite Nat.eqb_refl. reflexivity. Qed.

(** ** Qualified names *)

Lemma find_label_from_spec k ms l :
  match find_label_from k ms l with
  | Some i => exists t, k <= i /\ first_labelled ms l (i - k) t
  | None => forall j t, nth_error ms j <> Some (l, t)
  end.
Proof.
  revert k. induction ms as [|[l0 t0] ms IH]; intros k; cbn [find_label_from].
  - intros j t H. destruct j; discriminate.
  - destruct (str_eqb l0 l) eqn:E.
    + apply str_eqb_eq in E as ->. exists t0. split; [lia|]. rewrite Nat.sub_diag. split; [reflexivity|]. intros; lia.
    + apply str_eqb_neq in E. specialize (IH (S k)). destruct (find_label_from (S k) ms l) as [i|].
      * destruct IH as (t & Hk & Hn & Hf). exists t. split; [lia|].
        replace (i - k) with (S (i - S k)) by lia. split; [exact Hn|].
        intros [|j] t' Hj; cbn [nth_error]; [congruence|apply Hf; lia].
      * intros [|j] t; cbn [nth_error]; [congruence|apply IH].
Qed.

Lemma find_label_spec ms l :
  match find_label ms l with
  | Some i => exists t, first_labelled ms l i t
  | None => forall j t, nth_error ms j <> Some (l, t)
  end.
Proof.
  unfold find_label. pose proof (find_label_from_spec 0 ms l) as H. destruct (find_label_from 0 ms l) as [i|]; [|exact H].
  destruct H as (t & _ & H). exists t. rewrite Nat.sub_0_r in H. exact H.
Qed.

Lemma first_labelled_fun ms l i j t u : first_labelled ms l i t -> first_labelled ms l j u -> i = j /\ t = u.
Proof.
  intros [H1 H2] [H3 H4]. destruct (Nat.lt_trichotomy i j) as [H|[->|H]].
  - exfalso. exact (H4 _ _ H H1).
  - split; [reflexivity|congruence].
  - exfalso. exact (H2 _ _ H H3).
Qed.

Lemma find_label_first ms l i t : first_labelled ms l i t -> find_label ms l = Some i.
Proof.
  intros H. pose proof (find_label_spec ms l) as Hs. destruct (find_label ms l) as [j|].
  - destruct Hs as [u Hu]. destruct (first_labelled_fun _ _ _ _ _ _ H Hu) as [-> _]. reflexivity.
  - destruct H as [H _]. exfalso. exact (Hs _ _ H).
Qed.

Lemma decimal_iff s z : decimal s z <-> s <> [] /\ forallb is_digit s = true /\ digits_value s = z.
Proof.
  split.
  - induction 1 as [d Hd|s n d _ (H1 & H2 & H3) Hd].
    + split; [discriminate|]. cbn [forallb]. unfold is_digit, digits_value. cbn [fold_left]. split; lia.
    + split; [destruct s; discriminate|]. rewrite forallb_app, H2. unfold digits_value in *. rewrite fold_left_app, H3.
      cbn [forallb fold_left]. unfold is_digit. split; lia.
  - revert z. induction s as [|c s IH] using rev_ind; intros z (H1 & H2 & H3); [contradiction|]. clear H1.
    rewrite forallb_app in H2. cbn [forallb] in H2. unfold is_digit in H2 at 2.
    assert (Hc : (0 <= c - 48 <= 9)%Z) by lia. replace c with (48 + (c - 48))%Z by lia.
    unfold digits_value in H3. rewrite fold_left_app in H3. cbn [fold_left] in H3. subst z.
    destruct s as [|c' s].
    + cbn [app fold_left]. replace (10 * 0 + (c - 48))%Z with (c - 48)%Z by lia. constructor. exact Hc.
    + constructor; [|exact Hc]. apply IH. split; [discriminate|]. split; [|reflexivity]. apply andb_true_iff in H2. exact (proj1 H2).
Qed.

Lemma index_text_iff c i : parse_usize c = Some i <-> index_text c i.
Proof.
  unfold parse_usize, index_text. split.
  - destruct (parse_int 0 (2 ^ 64 - 1) c) as [z|] eqn:E; [|discriminate]. cbn [option_map]. intros H. injection H as <-.
    apply parse_int_sound in E as [R (ds & N & D & [[C ->]|(_ & C & _)])]; [|lia].
    rewrite Z2Nat.id by lia. split; [lia|]. exists ds. split; [exact C|]. apply decimal_iff. auto.
  - intros (R & ds & C & D). apply decimal_iff in D as (N & D & V).
    assert (E : parse_int 0 (2 ^ 64 - 1) c = Some (Z.of_nat i)); [|rewrite E; cbn [option_map]; rewrite Nat2Z.id; reflexivity].
    unfold parse_int. destruct ds as [|d ds]; [contradiction|].
    destruct C as [-> | ->].
    + assert (Hd : is_digit d = true) by (cbn [forallb] in D; apply andb_true_iff in D; exact (proj1 D)). unfold is_digit in Hd.
      replace (d =? 43)%Z with false by lia. change (0 <? 0)%Z with false. rewrite andb_false_r, D, V.
      replace ((0 <=? Z.of_nat i) && (Z.of_nat i <=? 2 ^ 64 - 1))%Z with true by lia. reflexivity.
    + change (43 =? 43)%Z with true. cbv iota. rewrite D, V.
      replace ((0 <=? Z.of_nat i) && (Z.of_nat i <=? 2 ^ 64 - 1))%Z with true by lia. reflexivity.
Qed.

Lemma resolve_spells t cs acc r :
  resolve_components t cs acc = Ok r <-> exists p, r = acc ++ p /\ spells t cs p.
Proof.
  revert t acc. induction cs as [|c cs IH]; intros t acc; cbn [resolve_components].
  - split.
    + intros H. injection H as <-. exists []. split; [symmetry; apply app_nil_r|constructor].
    + intros [p [-> H]]. inversion H; subst. rewrite app_nil_r. reflexivity.
  - destruct t as [|pr| |ts|fs|vs]; try (split; [discriminate|intros [p [_ H]]; inversion H]).
    + destruct (parse_usize c) as [i|] eqn:Ep.
      2:{ split; [discriminate|intros [p [_ H]]; inversion H as [|? ? ? ? ? ? Hi _ _| |]; subst].
          apply index_text_iff in Hi. congruence. }
      destruct (nth_error ts i) as [t'|] eqn:En.
      2:{ split; [discriminate|intros [p [_ H]]; inversion H as [|? ? ? ? ? ? Hi Hn _| |]; subst].
          apply index_text_iff in Hi. congruence. }
      rewrite IH. split; intros [p [-> H]].
      * exists (i :: p). split; [rewrite <- app_assoc; reflexivity|]. apply index_text_iff in Ep. econstructor; eassumption.
      * inversion H as [|? ? j u ? q Hj Hu Hq| |]; subst. apply index_text_iff in Hj.
        assert (j = i) by congruence. subst j. assert (u = t') by congruence. subst u.
        exists q. split; [rewrite <- app_assoc; reflexivity|exact Hq].
    + pose proof (find_label_spec fs c) as Hf. destruct (find_label fs c) as [i|].
      2:{ split; [discriminate|]. intros [p [_ H]]. inversion H; subst.
          match goal with HH : first_labelled _ _ _ _ |- _ => destruct HH as [Hn _] end. exfalso. exact (Hf _ _ Hn). }
      destruct Hf as [t' Hf]. pose proof (proj1 Hf) as En. rewrite En. rewrite IH. split; intros [p [-> H]].
      * exists (i :: p). split; [rewrite <- app_assoc; reflexivity|]. econstructor; eassumption.
      * inversion H as [| |? ? j u ? q Hj Hq|]; subst.
        destruct (first_labelled_fun _ _ _ _ _ _ Hf Hj) as [-> ->].
        exists q. split; [rewrite <- app_assoc; reflexivity|exact Hq].
    + pose proof (find_label_spec vs c) as Hf. destruct (find_label vs c) as [i|].
      2:{ split; [discriminate|]. intros [p [_ H]]. inversion H; subst.
          match goal with HH : first_labelled _ _ _ _ |- _ => destruct HH as [Hn _] end. exfalso. exact (Hf _ _ Hn). }
      destruct Hf as [t' Hf]. pose proof (proj1 Hf) as En. rewrite En. rewrite IH. split; intros [p [-> H]].
      * exists (i :: p). split; [rewrite <- app_assoc; reflexivity|]. econstructor; eassumption.
      * inversion H as [| | |? ? j u ? q Hj Hq]; subst.
        destruct (first_labelled_fun _ _ _ _ _ _ Hf Hj) as [-> ->].
        exists q. split; [rewrite <- app_assoc; reflexivity|exact Hq].
Qed.

Lemma resolve_name_spells t name p : resolve_qualified_name t name = Ok p <-> spells t (split_dot name) p.
Proof.
  unfold resolve_qualified_name. rewrite resolve_spells. split.
  - intros [q [-> H]]. exact H.
  - intros H. exists p. split; [reflexivity|exact H].
Qed.

Lemma dotted_iff cs s : dotted cs s <-> split_dot s = cs.
Proof.
  split.
  - induction 1 as [c H|c cs s H _ IH]; [apply split_dot_single; exact H|]. rewrite split_dot_app by exact H. rewrite IH. reflexivity.
  - revert cs. induction s as [|c s IH]; intros cs E; cbn [split_dot] in E.
    + subst cs. constructor. intros [].
    + destruct (Z.eqb_spec c 46) as [-> |N].
      * subst cs. apply (dot_more [] _ s); [intros []|]. apply IH. reflexivity.
      * destruct (split_dot s) as [|q qs] eqn:Q; [exfalso; exact (split_dot_nonempty s Q)|]. subst cs.
        specialize (IH _ eq_refl). inversion IH as [c' H|c' cs' s' H D]; subst.
        -- constructor. intros [X|X]; [congruence|exact (H X)].
        -- apply (dot_more (c :: q)); [|exact D]. intros [X|X]; [congruence|exact (H X)].
Qed.

Lemma resolve_name_iff t name p : resolve_qualified_name t name = Ok p <-> exists cs, dotted cs name /\ spells t cs p.
Proof.
  rewrite resolve_name_spells. split.
  - intros H. exists (split_dot name). split; [apply dotted_iff; reflexivity|exact H].
  - intros (cs & D & H). apply dotted_iff in D. rewrite D. exact H.
Qed.

Lemma find_label_none ms c : find_label ms c = None <-> ~ In c (map fst ms).
Proof.
  pose proof (find_label_spec ms c) as H. destruct (find_label ms c) as [i|]; split; intros X; try discriminate; try reflexivity.
  - destruct H as [t [H _]]. exfalso. apply X. apply nth_error_In in H. apply (in_map fst) in H. exact H.
  - intros Y. apply in_map_iff in Y as ((l & t) & E & Y). cbn [fst] in E. subst l. apply In_nth_error in Y as [i Y].
    exact (H _ _ Y).
Qed.

Lemma resolve_components_error cs : forall t acc e, resolve_components t cs acc = Err e <->
  exists cs1 c cs2 p u, cs = cs1 ++ c :: cs2 /\ spells t cs1 p /\ at_path t p u /\ refused u c e.
Proof.
  induction cs as [|c cs IH]; intros t acc e; cbn [resolve_components].
  { split; [discriminate|]. intros (cs1 & c & cs2 & p & u & E & _). destruct cs1; discriminate. }
  assert (Here : refused t c e -> exists cs1 c0 cs2 p u, c :: cs = cs1 ++ c0 :: cs2 /\ spells t cs1 p /\ at_path t p u /\ refused u c0 e).
  { intros R. exists [], c, cs, [], t. split; [reflexivity|]. split; [constructor|]. split; [constructor|exact R]. }
  assert (Split : forall cs1 c0 cs2 p u, c :: cs = cs1 ++ c0 :: cs2 -> spells t cs1 p -> at_path t p u -> refused u c0 e ->
            refused t c e \/ exists cs1', cs1 = c :: cs1' /\ cs = cs1' ++ c0 :: cs2).
  { intros cs1 c0 cs2 p u E S1 A R. destruct cs1 as [|c1 cs1]; cbn [app] in E; injection E as <- E.
    - left. inversion S1; subst. inversion A; subst. exact R.
    - right. exists cs1. split; [reflexivity|exact E]. }
  assert (Leaf : match t with TUnit | TPrim _ | TString => True | _ => False end ->
            (Err NotIndexable = @Err path _ e <-> exists cs1 c0 cs2 p u, c :: cs = cs1 ++ c0 :: cs2 /\ spells t cs1 p /\ at_path t p u /\ refused u c0 e)).
  { intros L. split.
    - intros H. injection H as <-. apply Here. destruct t; try contradiction; exact Logic.I.
    - intros (cs1 & c0 & cs2 & p & u & E & S1 & A & R). destruct (Split _ _ _ _ _ E S1 A R) as [X|(cs1' & -> & _)].
      + destruct t; try contradiction; destruct e; try contradiction; reflexivity.
      + inversion S1; subst; contradiction. }
  assert (Step : forall i t', (forall cs1 p, spells t (c :: cs1) p <-> exists p', p = i :: p' /\ spells t' cs1 p') ->
            (forall p u, at_path t (i :: p) u <-> at_path t' p u) -> ~ refused t c e ->
            (resolve_components t' cs (acc ++ [i]) = Err e <->
             exists cs1 c0 cs2 p u, c :: cs = cs1 ++ c0 :: cs2 /\ spells t cs1 p /\ at_path t p u /\ refused u c0 e)).
  { intros i t' Hs Ha Hr. rewrite IH. split.
    - intros (cs1 & c0 & cs2 & p & u & E & S1 & A & R). exists (c :: cs1), c0, cs2, (i :: p), u.
      split; [cbn [app]; rewrite E; reflexivity|]. split; [apply Hs; eauto|]. split; [apply Ha; exact A|exact R].
    - intros (cs1 & c0 & cs2 & p & u & E & S1 & A & R). destruct (Split _ _ _ _ _ E S1 A R) as [X|(cs1' & -> & E')]; [contradiction|].
      apply Hs in S1 as (p' & -> & S1). apply Ha in A. exists cs1', c0, cs2, p', u. auto. }
  destruct t as [|pr| |ts|fs|vs]; try (apply Leaf; exact Logic.I); clear Leaf.
  - destruct (parse_usize c) as [i|] eqn:P; [destruct (nth_error ts i) as [t'|] eqn:N|].
    + apply index_text_iff in P. apply Step.
      * intros cs1 p. split.
        -- intros H. inversion H as [|? ? j t2 ? q Hj Hn Hq| |]; subst. apply index_text_iff in P, Hj.
           assert (j = i) by congruence. subst j. assert (t2 = t') by congruence. subst t2. eauto.
        -- intros (p' & -> & H). econstructor; eassumption.
      * intros p u. split.
        -- intros H. inversion H as [|? ? t2 ? ? Hn Hq| |]; subst. assert (t2 = t') by congruence. subst t2. exact Hq.
        -- intros H. econstructor; eassumption.
      * intros R. unfold refused in R. destruct e; try contradiction. destruct R as [_ R]. specialize (R _ P).
        apply nth_error_None in R. congruence.
    + split.
      * intros H. injection H as <-. apply Here. split; [reflexivity|]. intros j Hj. apply index_text_iff in Hj.
        assert (j = i) by congruence. subst j. apply nth_error_None. exact N.
      * intros (cs1 & c0 & cs2 & p & u & E & S1 & A & R). destruct (Split _ _ _ _ _ E S1 A R) as [X|(cs1' & -> & _)].
        -- unfold refused in X. destruct e; try contradiction. destruct X as [-> _]. reflexivity.
        -- inversion S1 as [|? ? j t2 ? q Hj Hn Hq| |]; subst. apply index_text_iff in Hj. congruence.
    + split.
      * intros H. injection H as <-. apply Here. split; [reflexivity|]. intros j Hj. apply index_text_iff in Hj. congruence.
      * intros (cs1 & c0 & cs2 & p & u & E & S1 & A & R). destruct (Split _ _ _ _ _ E S1 A R) as [X|(cs1' & -> & _)].
        -- unfold refused in X. destruct e; try contradiction. destruct X as [-> _]. reflexivity.
        -- inversion S1 as [|? ? j t2 ? q Hj Hn Hq| |]; subst. apply index_text_iff in Hj. congruence.
  - pose proof (find_label_spec fs c) as Hf. pose proof (find_label_none fs c) as Hn. destruct (find_label fs c) as [i|].
    + destruct Hf as [t' Hf]. pose proof (proj1 Hf) as En. rewrite En. apply Step.
      * intros cs1 p. split.
        -- intros H. inversion H as [| |? ? j u ? q Hj Hq|]; subst. destruct (first_labelled_fun _ _ _ _ _ _ Hf Hj) as [-> ->]. eauto.
        -- intros (p' & -> & H). econstructor; eassumption.
      * intros p u. split.
        -- intros H. inversion H as [| |? ? l t2 ? ? Hn2 Hq|]; subst. assert (t2 = t') by congruence. subst t2. exact Hq.
        -- intros H. econstructor; eassumption.
      * intros R. unfold refused in R. destruct e; try contradiction. destruct R as [_ R]. apply Hn in R. discriminate.
    + split.
      * intros H. injection H as <-. apply Here. split; [reflexivity|]. apply Hn. reflexivity.
      * intros (cs1 & c0 & cs2 & p & u & E & S1 & A & R). destruct (Split _ _ _ _ _ E S1 A R) as [X|(cs1' & -> & _)].
        -- unfold refused in X. destruct e; try contradiction. destruct X as [-> _]. reflexivity.
        -- inversion S1 as [| |? ? j u' ? q [Hj _] Hq|]; subst. exfalso. exact (Hf _ _ Hj).
  - pose proof (find_label_spec vs c) as Hf. pose proof (find_label_none vs c) as Hn. destruct (find_label vs c) as [i|].
    + destruct Hf as [t' Hf]. pose proof (proj1 Hf) as En. rewrite En. apply Step.
      * intros cs1 p. split.
        -- intros H. inversion H as [| | |? ? j u ? q Hj Hq]; subst. destruct (first_labelled_fun _ _ _ _ _ _ Hf Hj) as [-> ->]. eauto.
        -- intros (p' & -> & H). econstructor; eassumption.
      * intros p u. split.
        -- intros H. inversion H as [| | |? ? l t2 ? ? Hn2 Hq]; subst. assert (t2 = t') by congruence. subst t2. exact Hq.
        -- intros H. econstructor; eassumption.
      * intros R. unfold refused in R. destruct e; try contradiction. destruct R as [_ R]. apply Hn in R. discriminate.
    + split.
      * intros H. injection H as <-. apply Here. split; [reflexivity|]. apply Hn. reflexivity.
      * intros (cs1 & c0 & cs2 & p & u & E & S1 & A & R). destruct (Split _ _ _ _ _ E S1 A R) as [X|(cs1' & -> & _)].
        -- unfold refused in X. destruct e; try contradiction. destruct X as [-> _]. reflexivity.
        -- inversion S1 as [| | |? ? j u' ? q [Hj _] Hq]; subst. exfalso. exact (Hf _ _ Hj).
Qed.

Lemma resolve_error_iff t name e : resolve_qualified_name t name = Err e <->
  exists cs1 c cs2 p u, dotted (cs1 ++ c :: cs2) name /\ spells t cs1 p /\ at_path t p u /\ refused u c e.
Proof.
  unfold resolve_qualified_name. rewrite resolve_components_error. split.
  - intros (cs1 & c & cs2 & p & u & E & H). exists cs1, c, cs2, p, u. split; [apply dotted_iff; exact E|exact H].
  - intros (cs1 & c & cs2 & p & u & D & H). exists cs1, c, cs2, p, u. split; [apply dotted_iff; exact D|exact H].
Qed.

Lemma extract_at t p u : extract t p = Ret u <-> at_path t p u.
Proof.
  revert t. induction p as [|i p IH]; intros t; cbn [extract].
  - split; intros H; [injection H as <-; constructor|inversion H; reflexivity].
  - split.
    + intros H. inv_bind H. rename H into Hrest.
      destruct t as [|pr| |ts|fs|vs]; cbn [child] in *; try discriminate.
      * destruct (nth_error ts i) eqn:En; [|discriminate]. econstructor; [eassumption|]. apply IH. congruence.
      * destruct (nth_error fs i) as [[l t']|] eqn:En; [|discriminate]. econstructor; [eassumption|]. apply IH. congruence.
      * destruct (nth_error vs i) as [[l t']|] eqn:En; [|discriminate]. econstructor; [eassumption|]. apply IH. congruence.
    + intros H. inversion H; subst; cbn [child];
        match goal with HH : nth_error _ _ = Some _ |- _ => rewrite HH end; cbn [bind]; apply IH; assumption.
Qed.

Lemma extract_not_undef t p : extract t p <> Undef.
Proof.
  revert t. induction p as [|i p IH]; intros t; cbn [extract]; [discriminate|].
  destruct t as [|pr| |ts|fs|vs]; cbn [child]; try discriminate.
  - destruct (nth_error ts i); [apply IH|discriminate].
  - destruct (nth_error fs i) as [[l t']|]; [apply IH|discriminate].
  - destruct (nth_error vs i) as [[l t']|]; [apply IH|discriminate].
Qed.

Lemma spells_extract t cs p : spells t cs p -> exists u, extract t p = Ret u.
Proof.
  induction 1 as [t|ts c i t' cs p Hc Hn H [u IH]|fs c i t' cs p [Hn _] H [u IH]|fs c i t' cs p [Hn _] H [u IH]];
    [exists t; reflexivity| | |]; exists u; cbn [extract child]; rewrite Hn; exact IH.
Qed.

Lemma resolve_extract t name p : resolve_qualified_name t name = Ok p -> exists u, extract t p = Ret u.
Proof. intros H. apply resolve_name_spells in H. eapply spells_extract. exact H. Qed.

Lemma nodup_first (ms : list (str * ty)) i l t :
  NoDup (map fst ms) -> nth_error ms i = Some (l, t) -> first_labelled ms l i t.
Proof.
  intros Hnd Hn. split; [exact Hn|]. intros j t' Hj Hn'.
  rewrite NoDup_nth_error in Hnd.
  assert (j = i); [|lia]. apply Hnd.
  - rewrite map_length. apply nth_error_Some. congruence.
  - rewrite !nth_error_map, Hn, Hn'. reflexivity.
Qed.

Lemma name_spells t p u :
  good_labels t -> at_path t p u -> Forall (fun i => (Z.of_nat i < 2 ^ 64)%Z) p ->
  spells t (name_components t p) p /\ Forall dotless (name_components t p) /\
  length (name_components t p) = length p.
Proof.
  intros Hg Hat HF. revert Hg. induction Hat as [t|ts i t' p u Hn Hat IH|fs i l t' p u Hn Hat IH|cs i l t' p u Hn Hat IH];
    intros Hg; cbn [name_components].
  - repeat split; constructor.
  - inversion HF as [|? ? Hi HF']; subst. inversion Hg as [| | |? Hts| |]; subst. rewrite Hn.
    assert (Hg' : good_labels t') by (rewrite Forall_forall in Hts; apply Hts; eapply nth_error_In; eassumption).
    destruct (IH HF' Hg') as (H1 & H3 & H4). split; [|split].
    + econstructor; [apply index_text_iff, parse_usize_show; exact Hi|exact Hn|exact H1].
    + constructor; [apply show_int_dotless|exact H3].
    + cbn [length]. congruence.
  - inversion HF as [|? ? Hi HF']; subst. inversion Hg as [| | | |? Hnd Hdl Hts|]; subst. rewrite Hn.
    rewrite Forall_forall in Hts, Hdl. pose proof (nth_error_In _ _ Hn) as Hin.
    destruct (IH HF' (Hts _ Hin)) as (H1 & H3 & H4). split; [|split].
    + econstructor; [apply nodup_first; eassumption|exact H1].
    + constructor; [exact (Hdl _ Hin)|exact H3].
    + cbn [length]. congruence.
  - inversion HF as [|? ? Hi HF']; subst. inversion Hg as [| | | | |? Hnd Hdl Hts]; subst. rewrite Hn.
    rewrite Forall_forall in Hts, Hdl. pose proof (nth_error_In _ _ Hn) as Hin.
    destruct (IH HF' (Hts _ Hin)) as (H1 & H3 & H4). split; [|split].
    + econstructor; [apply nodup_first; eassumption|exact H1].
    + constructor; [exact (Hdl _ Hin)|exact H3].
    + cbn [length]. congruence.
Qed.

Lemma name_resolves t p u :
  good_labels t -> p <> [] -> at_path t p u -> Forall (fun i => (Z.of_nat i < 2 ^ 64)%Z) p ->
  resolve_qualified_name t (join_dot (name_components t p)) = Ok p.
Proof.
  intros Hg Hp Hat HF. destruct (name_spells t p u Hg Hat HF) as (H1 & H2 & H3).
  apply resolve_name_spells. rewrite split_join; [exact H1| |exact H2].
  intros E. rewrite E in H3. destruct p; [congruence|discriminate].
Qed.

(** The empty path has no name: the empty string is one (empty) component. *)
Lemma resolve_never_empty t name p : resolve_qualified_name t name = Ok p -> p <> [].
Proof.
  intros H. apply resolve_name_spells in H. pose proof (split_dot_nonempty name).
  intros ->. inversion H. congruence.
Qed.
