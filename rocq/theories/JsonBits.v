(** * The bit set of visited fields, the label maps, sequencing *)

From Coq Require Import ZifyBool ZifyNat ZifyN.
From Verif Require Import Base BaseFacts StrModel StrFacts TypesModel MarshalModel JsonModel JsonData.
Ltac Zify.zify_post_hook ::= Z.div_mod_to_equations.
Local Open Scope Z_scope.

(** ** Sequencing *)

Lemma andthen_assoc x k h : andthen (andthen x k) h = andthen x (fun st d => andthen (k st d) h).
Proof. destruct x as [[d [st|e]]| |]; reflexivity. Qed.

Lemma andthen_ret d st k : andthen (Ret (d, Ok st)) k = k st d.
Proof. reflexivity. Qed.

Lemma andthen_err d e k : andthen (Ret (d, Err e)) k = Ret (d, Err e).
Proof. reflexivity. Qed.

Lemma andthen_ext x k h : (forall st d, k st d = h st d) -> andthen x k = andthen x h.
Proof. intros H. destruct x as [[d [st|e]]| |]; cbn; auto. Qed.

(** ** Bit sets *)

Lemma shl_1 pf i : (i < 64)%nat -> wshl pf 64 1 (Z.of_nat i) = Ret (2 ^ Z.of_nat i).
Proof.
  intros H. unfold wshl. replace (Z.of_nat i <? 64) with true by lia.
  rewrite Z.shiftl_1_l, Z.mod_small; [reflexivity|]. split; [lia|]. apply Z.pow_lt_mono_r; lia.
Qed.

Lemma bits_new_small pf n : (n < 64)%nat -> bits_new pf n = Ret (2 ^ Z.of_nat n - 1).
Proof.
  intros H. unfold bits_new. replace (n <=? 64)%nat with true by lia. cbn [bind]. rewrite shl_1 by exact H. cbn [bind].
  unfold wsub. replace (1 <=? 2 ^ Z.of_nat n) with true by lia. reflexivity.
Qed.

Lemma bits_has_small pf v i : (i < 64)%nat -> bits_has pf v i = Ret (Z.testbit v (Z.of_nat i)).
Proof.
  intros H. unfold bits_has. rewrite shl_1 by exact H. cbn [bind]. f_equal.
  destruct (Z.eqb_spec (Z.land v (2 ^ Z.of_nat i)) 0) as [E|E]; cbn [negb].
  - symmetry. apply (f_equal (fun z => Z.testbit z (Z.of_nat i))) in E.
    rewrite Z.land_spec, Z.pow2_bits_true, andb_true_r, Z.bits_0 in E by lia. exact E.
  - destruct (Z.testbit v (Z.of_nat i)) eqn:B; [reflexivity|]. exfalso. apply E. apply Z.bits_inj'. intros n Hn.
    rewrite Z.land_spec, Z.bits_0. destruct (Z.eq_dec n (Z.of_nat i)) as [->|N]; [rewrite B; reflexivity|].
    rewrite Z.pow2_bits_false by lia. apply andb_false_r.
Qed.

Lemma unot_bits i n : (i < 64)%nat -> 0 <= n < 64 -> Z.testbit (unot 64 (2 ^ Z.of_nat i)) n = negb (n =? Z.of_nat i).
Proof.
  intros Hi Hn. unfold unot, umax.
  replace (2 ^ 64 - 1 - 2 ^ Z.of_nat i) with (Z.ldiff (Z.ones 64) (2 ^ Z.of_nat i)).
  - rewrite Z.ldiff_spec, Z.ones_spec_low by lia. cbn [andb]. f_equal.
    destruct (Z.eqb_spec n (Z.of_nat i)) as [->|N]; [apply Z.pow2_bits_true; lia|apply Z.pow2_bits_false; lia].
  - rewrite <- Z.sub_nocarry_ldiff; [reflexivity|]. apply Z.bits_inj'. intros m Hm. rewrite Z.ldiff_spec, Z.bits_0.
    destruct (Z.eq_dec m (Z.of_nat i)) as [->|N]; [rewrite Z.ones_spec_low by lia; apply andb_false_r|].
    rewrite Z.pow2_bits_false by lia. reflexivity.
Qed.

Lemma bits_clear_small pf v i : (i < 64)%nat -> exists v', bits_clear pf v i = Ret v' /\
  (0 <= v < 2 ^ 64 -> 0 <= v' < 2 ^ 64 /\ forall n, 0 <= n < 64 -> Z.testbit v' n = Z.testbit v n && negb (n =? Z.of_nat i)).
Proof.
  intros H. unfold bits_clear. rewrite shl_1 by exact H. cbn [bind]. eexists. split; [reflexivity|]. intros Hv.
  split; [|intros n Hn; rewrite Z.land_spec, unot_bits by assumption; reflexivity].
  assert (N : 0 <= Z.land v (unot 64 (2 ^ Z.of_nat i))) by (apply Z.land_nonneg; lia). split; [exact N|].
  destruct (Z.eq_dec (Z.land v (unot 64 (2 ^ Z.of_nat i))) 0) as [->|NZ]; [lia|].
  apply Z.log2_lt_pow2; [lia|]. destruct (Z.lt_ge_cases (Z.log2 (Z.land v (unot 64 (2 ^ Z.of_nat i)))) 64) as [L|L]; [exact L|]. exfalso.
  assert (B : Z.testbit (Z.land v (unot 64 (2 ^ Z.of_nat i))) (Z.log2 (Z.land v (unot 64 (2 ^ Z.of_nat i)))) = true) by (apply Z.bit_log2; lia).
  rewrite Z.land_spec in B. apply andb_true_iff in B. destruct B as [B _].
  destruct (Z.eq_dec v 0) as [->|Nv]; [rewrite Z.bits_0 in B; discriminate|].
  assert (LL : Z.log2 v < 64) by (apply Z.log2_lt_pow2; lia). rewrite Z.bits_above_log2 in B by lia. discriminate.
Qed.

(** The set of the indices in [s]. *)
Definition is_set (v : Z) (s : list nat) : Prop :=
  0 <= v < 2 ^ 64 /\ Forall (fun i => (i < 64)%nat) s /\
  forall i, (i < 64)%nat -> (Z.testbit v (Z.of_nat i) = true <-> In i s).

Lemma is_set_empty v s : is_set v s -> (v =? 0) = match s with [] => true | _ => false end.
Proof.
  intros (R & F & H). destruct s as [|i s].
  - apply Z.eqb_eq. apply Z.bits_inj'. intros n Hn. rewrite Z.bits_0. destruct (Z.testbit v n) eqn:B; [|reflexivity]. exfalso.
    destruct (Z.lt_ge_cases n 64) as [L|L].
    + apply (H (Z.to_nat n)); [lia|]. rewrite Z2Nat.id by lia. exact B.
    + destruct (Z.eq_dec v 0) as [->|Nv]; [rewrite Z.bits_0 in B; discriminate|].
      assert (LL : Z.log2 v < 64) by (apply Z.log2_lt_pow2; lia). rewrite Z.bits_above_log2 in B by lia. discriminate.
  - apply Z.eqb_neq. intros ->. inversion F; subst. specialize (H i). rewrite Z.bits_0 in H.
    assert (X : false = true) by (apply H; [assumption|left; reflexivity]). discriminate.
Qed.

Lemma is_set_new n : (n < 64)%nat -> is_set (2 ^ Z.of_nat n - 1) (seq 0 n).
Proof.
  intros Hn. assert (2 ^ Z.of_nat n < 2 ^ 64) by (apply Z.pow_lt_mono_r; lia). split; [lia|]. split.
  - apply Forall_forall. intros i Hi. apply in_seq in Hi. lia.
  - intros i Hi. rewrite in_seq. replace (2 ^ Z.of_nat n - 1) with (Z.ones (Z.of_nat n)) by (rewrite Z.ones_equiv; lia).
    destruct (Nat.lt_ge_cases i n); [rewrite Z.ones_spec_low by lia|rewrite Z.ones_spec_high by lia]; split; intros; try lia; try discriminate.
Qed.

Lemma is_set_clear pf v i s1 s2 : is_set v (s1 ++ i :: s2) -> ~ In i (s1 ++ s2) ->
  exists v', bits_clear pf v i = Ret v' /\ is_set v' (s1 ++ s2).
Proof.
  intros (R & F & H) Hi. assert (Li : (i < 64)%nat) by (rewrite Forall_forall in F; apply F; apply in_or_app; right; left; reflexivity).
  destruct (bits_clear_small pf v i Li) as (v' & E & P). destruct (P R) as [R' B]. exists v'. split; [exact E|]. split; [exact R'|]. split.
  - apply Forall_app in F. destruct F as [F1 F2]. inversion F2; subst. apply Forall_app. split; assumption.
  - intros j Hj. rewrite B by lia. rewrite andb_true_iff, H by exact Hj. rewrite !in_app_iff. cbn [In].
    destruct (Z.eqb_spec (Z.of_nat j) (Z.of_nat i)) as [E'|N]; cbn [negb].
    + assert (j = i) by lia. subst j. rewrite in_app_iff in Hi. split; [intros [_ X]; discriminate|intros X; contradiction].
    + assert (i <> j) by lia. split; [intros [[X|[X|X]] _]; tauto|intros [X|X]; tauto].
Qed.

(** ** Label maps *)

Lemma last_index_notin {A} (l : list (str * A)) lab : forall k, ~ In lab (map fst l) -> last_index l k lab = None.
Proof.
  induction l as [|[x a] l IH]; intros k H; [reflexivity|]. cbn [last_index map fst In] in *. rewrite IH by tauto.
  destruct (str_eqb x lab) eqn:E; [|reflexivity]. apply str_eqb_eq in E. exfalso. apply H. left. exact E.
Qed.

Lemma last_index_some {A} (l : list (str * A)) lab : forall k i, last_index l k lab = Some i ->
  (k <= i)%nat /\ exists a, nth_error l (i - k) = Some (lab, a).
Proof.
  induction l as [|[x a] l IH]; intros k i H; [discriminate|]. cbn [last_index] in H.
  destruct (last_index l (S k) lab) as [j|] eqn:E.
  - injection H as <-. destruct (IH _ _ E) as (L & b & Hb). split; [lia|]. exists b. replace (j - k)%nat with (S (j - S k)) by lia. exact Hb.
  - destruct (str_eqb x lab) eqn:Ex; [|discriminate]. injection H as <-. apply str_eqb_eq in Ex. subst. split; [lia|]. exists a.
    rewrite Nat.sub_diag. reflexivity.
Qed.

Lemma last_index_nth {A} (l : list (str * A)) lab a : NoDup (map fst l) -> forall i k, nth_error l i = Some (lab, a) -> last_index l k lab = Some (k + i)%nat.
Proof.
  induction l as [|[x b] l IH]; intros ND i k H; [destruct i; discriminate|]. cbn [map fst] in ND. inversion ND as [|? ? N1 N2]; subst.
  destruct i as [|i]; cbn [nth_error] in H; cbn [last_index].
  - injection H as -> ->. rewrite last_index_notin by exact N1. rewrite str_eqb_refl. f_equal. lia.
  - rewrite (IH N2 i (S k) H). f_equal. lia.
Qed.

Lemma select_nth {A B} (f : A -> outcome B) l i a : nth_error l i = Some a -> select f l i = f a.
Proof. revert i; induction l as [|x l IH]; intros [|i] H; try discriminate; cbn in *; [injection H as ->; reflexivity|apply IH; exact H]. Qed.
