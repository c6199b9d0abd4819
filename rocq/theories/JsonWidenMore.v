(** * Widening is a preorder, and says what the new value is *)

From Coq Require Import Strings.String.
From Verif Require Import Base StrModel Utf8Model TypesModel MarshalModel MarshalSpec LayoutProofs TypeGrammar JsonModel JsonSpec JsonWidenSpec JsonWidenProofs.
Local Open Scope list_scope.

Lemma widens_same t : no_repeats t -> widens t t.
Proof.
  induction t using ty_ind'; intros N.
  - apply wd_unit.
  - apply wd_prim.
  - apply wd_string.
  - apply wd_tuple. inversion N as [| | |ts0 F| |]; subst. clear N. induction H as [|t ts Ht Hts IH]; [constructor|]. inversion F; subst. constructor; auto.
  - inversion N as [| | | |fs0 Nd F|]; subst. apply wd_struct; [reflexivity|exact Nd|]. rewrite Forall_forall in F, H. intros l t I. exists t. split; [exact I|].
    exact (H _ I (F _ I)).
  - inversion N as [| | | | |cs0 Nd F]; subst. apply wd_enum. rewrite Forall_forall in F, H. intros k l t (E & Last). exists k, t. split; [split; assumption|].
    apply nth_error_In in E. exact (H _ E (F _ E)).
Qed.

Lemma widens_compose t : forall t' t'', widens t t' -> widens t' t'' -> widens t t''.
Proof.
  induction t using ty_ind'; intros t1 t2 W W'.
  - inversion W; subst. exact W'.
  - inversion W as [|p0|p0 p1 I I1 G| | | | |]; subst.
    + exact W'.
    + inversion W' as [|p2|p2 p3 I2 I3 G2| | | | |]; subst; [exact W|apply wd_integer; auto|exfalso; apply I1; cbn; tauto].
    + inversion W'; subst. apply wd_char.
  - inversion W; subst. exact W'.
  - inversion W as [| | | | |a b F| |]; subst. inversion W' as [| | | | |c d F'| |]; subst. apply wd_tuple. clear W W'. revert b d F F'.
    induction H as [|t ts Ht Hts IH]; intros b d F F'; inversion F; subst; inversion F'; subst; constructor; [eapply Ht; eassumption|eapply IH; eassumption].
  - inversion W as [| | | | | |a b L N G|]; subst. inversion W' as [| | | | | |c d L' N' G'|]; subst. apply wd_struct; [congruence|exact N'|].
    rewrite Forall_forall in H. intros l t I. destruct (G _ _ I) as (t1 & I1 & V1). destruct (G' _ _ I1) as (t2 & I2 & V2). exists t2. split; [exact I2|].
    exact (H _ I _ _ V1 V2).
  - inversion W as [| | | | | | |a b G]; subst. inversion W' as [| | | | | | |c d G']; subst. apply wd_enum.
    rewrite Forall_forall in H. intros k l t C. destruct (G _ _ _ C) as (k1 & t1 & C1 & V1). destruct (G' _ _ _ C1) as (k2 & t2 & C2 & V2). exists k2, t2. split; [exact C2|].
    destruct C as (E & _). exact (H _ (nth_error_In _ _ E) _ _ V1 V2).
Qed.

Lemma labels_once (fs : list (str * ty)) i j l t t' : NoDup (map fst fs) -> nth_error fs i = Some (l, t) -> nth_error fs j = Some (l, t') -> i = j /\ t = t'.
Proof.
  intros N E E'. assert (i = j).
  { apply (proj1 (NoDup_nth_error _) N); [rewrite map_length; apply nth_error_Some; congruence|].
    rewrite (map_nth_error fst _ _ E), (map_nth_error fst _ _ E'). reflexivity. }
  subst j. split; congruence.
Qed.

Lemma decoded_list_nth ts vs : decoded_list ts vs -> List.length vs = List.length ts /\ forall i t, nth_error ts i = Some t -> exists v, nth_error vs i = Some v /\ decoded t v.
Proof.
  intros H. induction H as [|t ts v vs D H (L & IH)]; [split; [reflexivity|intros [|i] t E; discriminate E]|]. split; [cbn; congruence|].
  intros [|i] u E; cbn in *; [injection E as <-; eauto|auto].
Qed.

Lemma nth_ext' {A : Type} (l : list A) : forall l', (forall i, nth_error l i = nth_error l' i) -> l = l'.
Proof.
  induction l as [|a l IH]; intros [|b l'] H; [reflexivity|discriminate (H 0%nat)|discriminate (H 0%nat)|].
  pose proof (H 0%nat) as E. cbn in E. injection E as ->. f_equal. apply IH. intros i. exact (H (S i)).
Qed.

Lemma carried_once t : forall t' v v1 v2, no_repeats t -> widens t t' -> decoded t v -> carried t v t' v1 -> carried t v t' v2 -> v1 = v2.
Proof.
  induction t using ty_ind'; intros t' v v1 v2 N W D C1 C2.
  - inversion C1; subst. inversion C2; subst. reflexivity.
  - inversion C1; subst; inversion C2; subst; reflexivity.
  - inversion C1; subst; inversion C2; subst; reflexivity.
  - inversion N as [| | |ts0 Fn| |]; subst. inversion W as [| | | | |a b F| |]; subst. inversion D as [| | |ts1 vs Dl| |]; subst.
    destruct (decoded_list_nth _ _ Dl) as (Lv & Dn).
    inversion C1 as [| | | | |ts1 vs1 ts2 w1 L1 M1 G1| |]; subst. inversion C2 as [| | | | |ts3 vs3 ts4 w2 L2 M2 G2| |]; subst. f_equal. apply nth_ext'. intros i.
    destruct (nth_error ts i) as [t|] eqn:E.
    + destruct (Dn _ _ E) as (v & Ev & Dv). destruct (G1 _ _ _ E Ev) as (u1 & x1 & U1 & X1 & Y1). destruct (G2 _ _ _ E Ev) as (u2 & x2 & U2 & X2 & Y2).
      rewrite X1, X2. f_equal. rewrite U1 in U2. injection U2 as <-. destruct (Forall2_nth _ _ _ _ _ F E) as (u & U & V). rewrite U1 in U. injection U as <-.
      rewrite Forall_forall in H, Fn. pose proof (nth_error_In _ _ E) as I. exact (H _ I _ _ _ _ (Fn _ I) V Dv Y1 Y2).
    + apply nth_error_None in E. rewrite !(proj2 (nth_error_None _ _)) by lia. reflexivity.
  - inversion N as [| | | |fs0 Nd Fn|]; subst. inversion W as [| | | | | |a b L Nd' G|]; subst. inversion D as [| | | |fs1 vs Dl|]; subst.
    destruct (decoded_list_nth _ _ Dl) as (Lv & Dn). rewrite map_length in Lv.
    inversion C1 as [| | | | | |fs1 vs1 fs2 w1 L1 M1 G1|]; subst. inversion C2 as [| | | | | |fs3 vs3 fs4 w2 L2 M2 G2|]; subst. f_equal. apply nth_ext'. intros j.
    destruct (nth_error b j) as [(l, t')|] eqn:E.
    + assert (I : In l (map fst fs)).
      { assert (In2 : incl (map fst b) (map fst fs)).
        { apply NoDup_length_incl; [exact Nd|rewrite !map_length; lia|]. intros x Hx. apply in_map_iff in Hx. destruct Hx as ((x0, y) & <- & Hx). destruct (G _ _ Hx) as (t1 & I1 & _).
          apply in_map_iff. exists (x0, t1). auto. }
        apply In2. apply in_map_iff. exists (l, t'). split; [reflexivity|exact (nth_error_In _ _ E)]. }
      apply in_map_iff in I. destruct I as ((l0, t) & El & I). cbn in El. subst l0. destruct (In_nth_error _ _ I) as (i & Ei).
      destruct (Dn i t) as (v & Ev & Dv); [exact (map_nth_error snd _ _ Ei)|].
      destruct (G1 _ _ _ _ Ei Ev) as (j1 & t1 & x1 & U1 & X1 & Y1). destruct (G2 _ _ _ _ Ei Ev) as (j2 & t2 & x2 & U2 & X2 & Y2).
      destruct (labels_once _ _ _ _ _ _ Nd' U1 E) as (-> & ->). destruct (labels_once _ _ _ _ _ _ Nd' U2 E) as (-> & ->).
      rewrite X1, X2. f_equal. destruct (G _ _ I) as (t3 & I3 & V). destruct (In_nth_error _ _ I3) as (j3 & U3). destruct (labels_once _ _ _ _ _ _ Nd' U3 E) as (_ & ->).
      rewrite Forall_forall in H, Fn. exact (H _ I _ _ _ _ (Fn _ I) V Dv Y1 Y2).
    + apply nth_error_None in E. rewrite !(proj2 (nth_error_None _ _)) by lia. reflexivity.
  - inversion N as [| | | | |cs0 Nd Fn]; subst. inversion W as [| | | | | | |a b G]; subst.
    inversion C1 as [| | | | | | |a1 k1 x1 b1 j1 y1 l1 t1 u1 A1 B1 Y1]; subst. inversion C2 as [| | | | | | |a2 k2 x2 b2 j2 y2 l2 t2 u2 A2 B2 Y2]; subst.
    inversion D as [| | | | |cs1 k l t v Ek Dv]; subst. destruct A1 as (A1 & A1'). destruct A2 as (A2 & A2'). rewrite A1 in A2. injection A2 as <- <-.
    rewrite A1 in Ek. injection Ek as <- <-.
    assert (U : forall k k' t t', last_case b k l1 t -> last_case b k' l1 t' -> k = k' /\ t = t').
    { intros k k' t t' (P & Q) (P' & Q'). pose proof (Q _ _ P'). pose proof (Q' _ _ P). assert (k = k') by lia. subst k'. split; congruence. }
    destruct (U _ _ _ _ B1 B2) as (-> & ->). f_equal. destruct (G _ _ _ (conj A1 A1')) as (k3 & t3 & C3 & V). destruct (U _ _ _ _ C3 B2) as (-> & ->).
    rewrite Forall_forall in H, Fn. pose proof (nth_error_In _ _ A1) as I. exact (H _ I _ _ _ _ (Fn _ I) V Dv Y1 Y2).
Qed.
