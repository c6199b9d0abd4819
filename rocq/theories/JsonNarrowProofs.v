(** * Proofs about JSON texts read with a narrower type (C108) *)

From Coq Require Import Strings.String Sorting.Permutation.
From Verif Require Import Base StrModel Utf8Model TypesModel MarshalModel MarshalSpec LayoutProofs JsonModel JsonSpec WhiteSpec JsonDocSpec JsonDocProofs JsonRewriteSpec TypeGrammar.
From Verif Require Import JsonWidenSpec JsonWidenProofs JsonWidenMore JsonMigrate JsonNarrowSpec.
Local Open Scope list_scope.
Local Open Scope Z_scope.

Lemma stretches_widens t : forall t', stretches t t' -> widens t t'.
Proof.
  induction t using ty_ind'; intros t' S; inversion S; subst.
  - constructor.
  - constructor.
  - now constructor.
  - constructor.
  - constructor. match goal with F : Forall2 stretches _ _ |- _ => clear - H F; induction F as [|t t' ts ts' St F IH] end; constructor; inversion H; subst; auto.
  - match goal with L : List.length _ = _, N : NoDup _, G : forall l t, In _ _ -> _ |- _ => apply wd_struct; [exact L|exact N|]; intros l t I; destruct (G l t I) as (t' & I' & S'); exists t'; split; [exact I'|] end.
    rewrite Forall_forall in H. exact (H _ I _ S').
  - match goal with G : forall k l t, last_case _ _ _ _ -> _ |- _ => apply wd_enum; intros k l t L; destruct (G k l t L) as (k' & t' & L' & S'); exists k', t'; split; [exact L'|] end.
    rewrite Forall_forall in H. destruct L as (L & _). exact (H _ (nth_error_In _ _ L) _ S').
Qed.

Lemma last_once cs k l t k' t' : last_case cs k l t -> last_case cs k' l t' -> k = k' /\ t = t'.
Proof. intros (N & M) (N' & M'). assert (k = k') by (pose proof (M _ _ N'); pose proof (M' _ _ N); lia). subst. split; congruence. Qed.

Lemma in_combine_nth {A B : Type} (l : list A) (l' : list B) a b : In (a, b) (combine l l') -> exists i, nth_error l i = Some a /\ nth_error l' i = Some b.
Proof.
  revert l'. induction l as [|x l IH]; intros [|y l'] H; try destruct H.
  - injection H as -> ->. exists 0%nat. auto.
  - destruct (IH _ H) as (i & E). exists (S i). exact E.
Qed.

Section Narrow.
Context (alnum : Z -> bool) (fl : floats).

Let document := document alnum fl.
Let elements := elements alnum fl.
Let members := members alnum fl.

Definition shrinks (m m' : str * ty * val) : Prop :=
  fst (fst m) = fst (fst m') /\ stretches (snd (fst m)) (snd (fst m')) /\ no_repeats (snd (fst m)) /\ typed (snd (fst m)) (snd m) /\
  carried (snd (fst m)) (snd m) (snd (fst m')) (snd m').

Lemma narrow_document t' s v' r : document t' s v' r -> forall t v, stretches t t' -> no_repeats t -> typed t v -> carried t v t' v' -> document t s v r.
Proof.
  intros D.
  apply (document_mind alnum fl
    (fun t' s v' r => forall t v, stretches t t' -> no_repeats t -> typed t v -> carried t v t' v' -> document t s v r)
    (fun b ts' s vs' r => forall ts vs, Forall2 stretches ts ts' -> Forall no_repeats ts -> typed_list ts vs ->
      (forall i t v, nth_error ts i = Some t -> nth_error vs i = Some v -> exists t' v', nth_error ts' i = Some t' /\ nth_error vs' i = Some v' /\ carried t v t' v') ->
      elements b ts s vs r)
    (fun b ms' s r => forall ms, Forall2 shrinks ms ms' -> members b ms s r)); try exact D; clear D t' s v' r.
  - intros s r R t v W N T C. inversion W; subst. inversion T; subst. now apply dc_unit.
  - intros s r R t v W N T C. inversion W as [|p|p p' Ip Ip' G Sg| | | |]; subst; [|destruct Ip'; cbn; tauto].
    inversion C as [|p z|p p' z Ip Ip'| | | | |]; subst; [|destruct Ip; cbn; tauto]. now apply dc_true.
  - intros s r R t v W N T C. inversion W as [|p|p p' Ip Ip' G Sg| | | |]; subst; [|destruct Ip'; cbn; tauto].
    inversion C as [|p z|p p' z Ip Ip'| | | | |]; subst; [|destruct Ip; cbn; tauto]. now apply dc_false.
  - intros s c r R t v W N T C. inversion W as [|p|p p' Ip Ip' G Sg| | | |]; subst; [|destruct Ip'; cbn; tauto].
    inversion C as [|p z|p p' z Ip Ip'| | | | |]; subst; [|destruct Ip; cbn; tauto]. now apply dc_char.
  - intros p s x z r I R Nm G t v W N T C. inversion W as [|p0|p0 p' Ip Ip' Gr Sg| | | |]; subst; inversion C; subst; inversion T; subst;
      (apply (dc_integer alnum fl _ _ x); [assumption|exact R| |assumption]); try exact Nm; rewrite <- Sg; exact Nm.
  - intros p s x z r P R Nm t v W N T C. inversion W as [|p0|p0 p' Ip Ip' Gr Sg| | | |]; subst; [|destruct Ip'; destruct P; subst; cbn; tauto].
    inversion C as [|p0 z0|p0 p' z0 Ip Ip'| | | | |]; subst; [|destruct Ip; destruct P; subst; cbn; tauto]. exact (dc_float alnum fl _ _ _ _ _ P R Nm).
  - intros s x r R t v W N T C. inversion W; subst. inversion C; subst. now apply dc_string.
  - intros ts' vs' s s1 s2 r R1 _ IH R2 t v W N T C. inversion W as [| | | |ts ts0 F| |]; subst. inversion N as [| | |ts1 Fn| |]; subst. inversion T as [| | |ts1 vs Tl| |]; subst.
    inversion C as [| | | | |ts1 vs1 ts2 w1 L1 M1 G1| |]; subst. eapply dc_tuple; [exact R1| |exact R2]. apply IH; assumption.
  - intros fs' vs' ms' s s1 s2 r Nd' Lv' Pm R1 _ IH R2 t v W N T C. inversion W as [| | | | |fs fs0 Lf _ G|]; subst. inversion N as [| | | |fs1 Nd Fn|]; subst. inversion T as [| | | |fs1 vs Tl|]; subst.
    destruct (typed_list_nth _ _ Tl) as (Lv & Tn). rewrite map_length in Lv. inversion C as [| | | | | |fs1 vs1 fs2 w1 L1 M1 G1|]; subst.
    assert (Inc : incl (map fst fs') (map fst fs)).
    { apply NoDup_length_incl; [exact Nd|rewrite !map_length; lia|]. intros x Hx. apply in_map_iff in Hx. destruct Hx as ((x0, y) & <- & Hx). destruct (G _ _ Hx) as (t1 & I1 & _).
      apply in_map_iff. exists (x0, t1). auto. }
    destruct (pick (fun m' m => In m (combine fs vs) /\ shrinks m m') ms') as (ms & F).
    { intros ((l, t'), v') Hm. apply (Permutation_in _ Pm) in Hm. destruct (in_combine_nth _ _ _ _ Hm) as (j & Ej & Vj).
      assert (I : In l (map fst fs)) by (apply Inc, in_map_iff; exists (l, t'); split; [reflexivity|exact (nth_error_In _ _ Ej)]).
      apply in_map_iff in I. destruct I as ((l0, t) & El & I). cbn in El. subst l0. destruct (In_nth_error _ _ I) as (i & Ei).
      destruct (Tn i t) as (v & Ev & Tv); [exact (map_nth_error snd _ _ Ei)|].
      destruct (G1 _ _ _ _ Ei Ev) as (j1 & t1 & x1 & U1 & X1 & Y1). destruct (labels_once _ _ _ _ _ _ Nd' U1 Ej) as (-> & ->). rewrite Vj in X1. injection X1 as <-.
      destruct (G _ _ I) as (t3 & I3 & S3). destruct (In_nth_error _ _ I3) as (j3 & U3). destruct (labels_once _ _ _ _ _ _ Nd' U3 Ej) as (_ & ->).
      exists (l, t, v). split; [exact (nth_combine _ _ _ _ _ Ei Ev)|]. rewrite Forall_forall in Fn. repeat split; cbn [fst snd]; try assumption. exact (Fn _ I). }
    assert (Fm : Forall2 shrinks ms ms') by (clear - F; induction F as [|m' m ms' ms [_ H] F IHF]; constructor; assumption).
    assert (Inm : incl ms (combine fs vs)) by (clear - F; induction F as [|m' m ms' ms [H _] F IHF]; [intros x []|]; intros x [<-|E]; [exact H|exact (IHF _ E)]).
    assert (Ef : map fst (map fst ms) = map fst (map fst ms')) by (clear - Fm; induction Fm as [|m m' ms ms' [H _] F IHF]; [reflexivity|]; cbn; now rewrite IHF, H).
    assert (Lb : map fst (combine fs' vs') = fs').
    { clear - Lv'. revert vs' Lv'. induction fs' as [|f fs IHf]; intros [|v vs] L; try discriminate L; cbn; [reflexivity|]. f_equal. apply IHf. now injection L. }
    assert (Pl : Permutation (map fst (map fst ms')) (map fst fs')) by (rewrite <- Lb at 1; apply Permutation_map, Permutation_map, Pm).
    eapply (dc_struct alnum fl _ _ ms); [exact Nd|exact Lv| |exact R1|exact (IH ms Fm)|exact R2].
    apply NoDup_Permutation_bis; [|rewrite combine_length, Lv, Nat.min_id, (F2_length _ _ _ Fm); apply Permutation_length in Pl; rewrite !map_length in Pl; lia|exact Inm].
    apply (NoDup_map_inv fst), (NoDup_map_inv fst). rewrite Ef. exact (Permutation_NoDup (Permutation_sym Pl) Nd').
  - intros cs' k' l' t' v' s s1 s2 s3 s4 s5 s6 s7 s8 r Nk' Last' R0 R1 R2 R3 R4 R5 R6 _ IH R8 t v W N T C. inversion W as [| | | | | |cs cs0 G]; subst.
    inversion N as [| | | | |cs1 Nd Fn]; subst. inversion C as [| | | | | | |a1 k x1 b1 j1 y1 l t1 u1 A1 B1 Y1]; subst. inversion T as [| | | | |cs1 k0 l0 t0 v0 Ek Tv]; subst.
    pose proof A1 as (A & Last). pose proof B1 as (B & _). rewrite A in Ek. injection Ek as <- <-. rewrite Nk' in B. injection B as <- <-.
    destruct (G _ _ _ A1) as (k3 & t3 & L3 & S3). destruct (last_once _ _ _ _ _ _ B1 L3) as (<- & <-).
    rewrite Forall_forall in Fn. eapply (dc_enum alnum fl cs k l'); try eassumption. apply IH; try assumption. exact (Fn _ (nth_error_In _ _ A)).
  - intros b s ts vs F N T C. inversion F; subst. inversion T; subst. apply el_nil.
  - intros b t' ts' v' vs' s s0 s1 r S _ IH _ IH2 ts vs F N T C. inversion F as [|t t0 ts0 ts1 W F']; subst. inversion T as [|t1 ts1 v vs1 Tv Tl]; subst. inversion N as [|? ? Nt Ns]; subst.
    destruct (C 0%nat t v eq_refl eq_refl) as (u & w & U & X & Cv). cbn in U, X. injection U as <-. injection X as <-.
    eapply el_cons; [exact S|exact (IH t v W Nt Tv Cv)|]. apply IH2; try assumption. intros i a b0. exact (C (Datatypes.S i) a b0).
  - intros b s ms F. inversion F; subst. apply mb_nil.
  - intros b l t' v' ms' s s0 s1 s2 s3 r S R1 R2 _ IH _ IH2 ms F. inversion F as [|((l0, t), v) m0 ms0 ms1 (E & W & N & T & C) F']; subst. cbn [fst snd] in *. subst l0.
    eapply mb_cons; [exact S|exact R1|exact R2|exact (IH t v W N T C)|exact (IH2 _ F')].
Qed.

Lemma narrow_stands pf t t' text v v' : all_structs (fun n => (n < 64)%nat) t -> all_structs (fun n => (n < 64)%nat) t' -> no_repeats t -> stretches t t' ->
  typed t v -> carried t v t' v' -> stands_for alnum fl pf t' text v' -> stands_for alnum fl pf t text v.
Proof.
  intros A A' N W T C S. apply (decode_exact alnum fl pf t' text [] v' A') in S. destruct S as (r & x & r0 & D & R).
  apply (decode_exact alnum fl pf t text [] v A). exists r, x, r0. split; [|exact R]. exact (narrow_document _ _ _ _ D t v W N T C).
Qed.

End Narrow.
