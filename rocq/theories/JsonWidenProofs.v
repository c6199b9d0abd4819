(** * Proofs about JSON texts read with another type *)

From Coq Require Import Strings.String Sorting.Permutation.
From Verif Require Import Base StrModel Utf8Model TypesModel MarshalModel MarshalSpec JsonModel JsonSpec WhiteSpec JsonDocSpec JsonDocProofs JsonRewriteSpec JsonWidenSpec.
Local Open Scope list_scope.
Local Open Scope Z_scope.

Section Widen.
Context (alnum : Z -> bool) (fl : floats).

Let document := document alnum fl.
Let elements := elements alnum fl.
Let members := members alnum fl.

Definition carries (m m' : str * ty * val) : Prop :=
  fst (fst m) = fst (fst m') /\ carried (snd (fst m)) (snd m) (snd (fst m')) (snd m').

Lemma sign_kept p p' : integer_prim p -> integer_prim p' -> (forall z, in_range p z -> in_range p' z) -> signed_prim p = true -> signed_prim p' = true.
Proof.
  intros I I' H S. destruct (signed_prim p') eqn:S'; [reflexivity|exfalso].
  assert (A : in_range p (-1)) by (destruct p; try discriminate S; unfold in_range; cbn; lia).
  specialize (H _ A). destruct p'; try discriminate S'; cbn in H; try (apply I'; cbn; tauto); unfold in_range in H; cbn in H; lia.
Qed.

Lemma pick {A B : Type} (P : A -> B -> Prop) l : (forall a, In a l -> exists b, P a b) -> exists l', Forall2 P l l'.
Proof.
  induction l as [|a l IH]; intros H; [exists []; constructor|]. destruct (H a (or_introl eq_refl)) as (b & Hb).
  destruct IH as (l' & Hl); [intros; apply H; now right|]. exists (b :: l'). now constructor.
Qed.

Lemma F2_length {A B : Type} (P : A -> B -> Prop) l l' : Forall2 P l l' -> List.length l = List.length l'.
Proof. intros F. induction F; cbn; congruence. Qed.

Lemma Forall2_nth {A B : Type} (P : A -> B -> Prop) l l' i a : Forall2 P l l' -> nth_error l i = Some a -> exists b, nth_error l' i = Some b /\ P a b.
Proof.
  intros F. revert i. induction F as [|x y l l' H F IH]; intros [|i] E; try discriminate E; cbn in *.
  - injection E as <-. eauto.
  - apply IH, E.
Qed.

Lemma combine_maps {A B : Type} (l : list (A * B)) : combine (map fst l) (map snd l) = l.
Proof. induction l as [|(a, b) l IH]; [reflexivity|]. cbn. now rewrite IH. Qed.

Lemma nth_combine {A B : Type} (l : list A) (l' : list B) i a b : nth_error l i = Some a -> nth_error l' i = Some b -> In (a, b) (combine l l').
Proof.
  revert l' i. induction l as [|x l IH]; intros [|y l'] [|i] E E'; try discriminate; cbn in *.
  - left. congruence.
  - right. eapply IH; eassumption.
Qed.

Lemma wide_document t s v r : document t s v r -> forall t', widens t t' -> exists v', carried t v t' v' /\ document t' s v' r.
Proof.
  intros D.
  apply (document_mind alnum fl
    (fun t s v r => forall t', widens t t' -> exists v', carried t v t' v' /\ document t' s v' r)
    (fun b ts s vs r => forall ts', Forall2 widens ts ts' -> exists vs', List.length vs' = List.length ts /\
      (forall i t v, nth_error ts i = Some t -> nth_error vs i = Some v -> exists t' v', nth_error ts' i = Some t' /\ nth_error vs' i = Some v' /\ carried t v t' v') /\
      elements b ts' s vs' r)
    (fun b ms s r => forall ts', Forall2 (fun m t' => widens (snd (fst m)) t') ms ts' -> exists ms', Forall2 carries ms ms' /\
      map (fun m => snd (fst m)) ms' = ts' /\ members b ms' s r)); try exact D; clear D t s v r.
  - intros s r R t' W. inversion W; subst. exists VUnit. split; [constructor|now apply dc_unit].
  - intros s r R t' W. inversion W as [|p| p p' Ip Ip' G| | | | |]; subst; [|destruct Ip; cbn; tauto]. exists (VPrim 1). split; [constructor|now apply dc_true].
  - intros s r R t' W. inversion W as [|p| p p' Ip Ip' G| | | | |]; subst; [|destruct Ip; cbn; tauto]. exists (VPrim 0). split; [constructor|now apply dc_false].
  - intros s c r R t' W. inversion W as [|p| p p' Ip Ip' G| | | | |]; subst; [|destruct Ip; cbn; tauto|].
    + exists (VPrim c). split; [constructor|now apply dc_char].
    + exists (VStr (utf8_encode [c])). split; [constructor|now apply dc_string].
  - intros p s x z r I R N G t' W. inversion W as [|p0| p0 p' Ip Ip' Gr| | | | |]; subst; [..|destruct I; cbn; tauto].
    + exists (VPrim z). split; [constructor|]. exact (dc_integer alnum fl _ _ _ _ _ I R N G).
    + exists (VPrim z). split; [now constructor|]. apply (dc_integer alnum fl _ _ x _ _ Ip' R); [|now apply Gr].
      destruct N as (ds & Nd & Ad & [N|(Sg & N)]); exists ds; (split; [exact Nd|]); (split; [exact Ad|]); [left; exact N|right].
      split; [exact (sign_kept _ _ Ip Ip' Gr Sg)|exact N].
  - intros p s x z r P R N t' W. inversion W as [|p0| p0 p' Ip Ip' Gr| | | | |]; subst; [|destruct Ip; cbn; intuition|destruct P; discriminate].
    exists (VPrim z). split; [constructor|]. exact (dc_float alnum fl _ _ _ _ _ P R N).
  - intros s x r R t' W. inversion W; subst. exists (VStr (utf8_encode x)). split; [constructor|now apply dc_string].
  - intros ts vs s s1 s2 r R1 _ IH R2 t' W. inversion W as [| | | | |ts0 ts' F| |]; subst. destruct (IH _ F) as (vs' & L & C & E).
    exists (VTuple vs'). split; [|eapply dc_tuple; eassumption]. apply ca_tuple; [symmetry; exact (F2_length _ _ _ F)|exact L|exact C].
  - intros fs vs ms s s1 s2 r Nd Lv Pm R1 _ IH R2 t' W. inversion W as [| | | | | |fs0 fs' Lf Nd' G|]; subst.
    assert (Lb : map fst (combine fs vs) = fs).
    { clear - Lv. revert vs Lv. induction fs as [|f fs IHf]; intros [|v vs] L; try discriminate L; cbn; [reflexivity|]. f_equal. apply IHf. now injection L. }
    destruct (pick (fun (m : str * ty * val) t' => In (fst (fst m), t') fs' /\ widens (snd (fst m)) t') ms) as (ts' & F).
    { intros ((l, t), v) Hm. cbn. apply G. rewrite <- Lb. apply (in_map fst _ (l, t, v)). exact (Permutation_in _ Pm Hm). }
    destruct (IH ts') as (ms' & Fm & Et & M). { clear - F. induction F as [|m t' ms ts' [_ H] F IH]; constructor; assumption. }
    assert (Ef : map fst (map fst ms') = map fst (map fst ms)).
    { clear - Fm. induction Fm as [|m m' ms ms' [H _] F IH]; [reflexivity|]. cbn. now rewrite IH, H. }
    assert (In' : incl (map fst ms') fs').
    { clear - F Fm Et. subst ts'. intros f Hf. apply in_map_iff in Hf. destruct Hf as (m' & <- & Hm'). destruct (In_nth_error _ _ Hm') as (i & Hi).
      assert (Hi2 : nth_error (map (fun m => snd (fst m)) ms') i = Some (snd (fst m'))) by (exact (map_nth_error (fun m => snd (fst m)) i ms' Hi)).
      destruct (nth_error ms i) as [m|] eqn:Em.
      - destruct (Forall2_nth _ _ _ _ _ F Em) as (t1 & E1 & (I1 & _)). destruct (Forall2_nth _ _ _ _ _ Fm Em) as (m2 & E2 & (L2 & _)).
        rewrite Hi in E2. injection E2 as <-. rewrite Hi2 in E1. injection E1 as <-. rewrite L2 in I1. destruct m' as ((l, t), v). exact I1.
      - apply nth_error_None in Em. rewrite (F2_length _ _ _ Fm) in Em. apply nth_error_None in Em. congruence. }
    assert (Pl : Permutation (map fst (map fst ms)) (map fst fs)).
    { rewrite <- Lb at 1. apply Permutation_map, Permutation_map, Pm. }
    assert (Pf : Permutation (map fst ms') fs').
    { apply NoDup_Permutation_bis.
      - apply (NoDup_map_inv fst). rewrite Ef. apply (Permutation_NoDup (Permutation_sym Pl)). exact Nd.
      - rewrite map_length, <- (F2_length _ _ _ Fm), Lf. apply Permutation_length in Pl. rewrite !map_length in Pl. lia.
      - exact In'. }
    destruct (Permutation_map_inv _ _ (Permutation_sym Pf)) as (ms2 & Ems & P2).
    exists (VStruct (map snd ms2)). split.
    + apply ca_struct; [exact Lf|rewrite Ems, !map_length; reflexivity|].
      intros i l t v Hf Hv. pose proof (nth_combine _ _ _ _ _ Hf Hv) as Hc. apply (Permutation_in _ (Permutation_sym Pm)) in Hc.
      destruct (In_nth_error _ _ Hc) as (j & Hj). destruct (Forall2_nth _ _ _ _ _ Fm Hj) as (m' & Hj' & (L' & C')).
      apply nth_error_In in Hj'. apply (Permutation_in _ P2) in Hj'. destruct (In_nth_error _ _ Hj') as (n & Hn).
      destruct m' as ((l', t'), v'). cbn in L', C'. subst l'. exists n, t', v'. rewrite Ems. split; [exact (map_nth_error fst _ _ Hn)|]. split; [exact (map_nth_error snd _ _ Hn)|exact C'].
    + eapply (dc_struct alnum fl _ _ ms'); [exact Nd'|rewrite Ems, !map_length; reflexivity| |exact R1|exact M|exact R2].
      rewrite Ems, combine_maps. exact P2.
  - intros cs k l t v s s1 s2 s3 s4 s5 s6 s7 s8 r Nk Last R0 R1 R2 R3 R4 R5 R6 _ IH R8 t' W. inversion W as [| | | | | | |cs0 cs' G]; subst.
    destruct (G k l t (conj Nk Last)) as (k' & t2 & (Nk' & Last') & Wt). destruct (IH _ Wt) as (v' & C & D).
    exists (VCase k' v'). split; [exact (ca_case _ _ _ _ _ _ _ _ _ (conj Nk Last) (conj Nk' Last') C)|].
    eapply (dc_enum alnum fl cs' k' l t2 v'); eassumption.
  - intros b s ts' F. inversion F; subst. exists []. split; [reflexivity|]. split; [intros [|i] t v E; discriminate E|apply el_nil].
  - intros b t ts v vs s s0 s1 r S _ IH _ IH2 ts' F. inversion F as [|t0 t' ts0 ts1 W F']; subst. destruct (IH _ W) as (v' & C & D).
    destruct (IH2 _ F') as (vs' & L & Cs & E). exists (v' :: vs'). split; [cbn; congruence|]. split.
    + intros [|i] t1 v1 E1 E2; cbn in *; [|exact (Cs i t1 v1 E1 E2)]. injection E1 as <-. injection E2 as <-. eauto.
    + eapply el_cons; eassumption.
  - intros b s ts' F. inversion F; subst. exists []. split; [constructor|]. split; [reflexivity|apply mb_nil].
  - intros b l t v ms s s0 s1 s2 s3 r S R1 R2 _ IH _ IH2 ts' F. inversion F as [|m0 t' ms0 ts1 W F']; subst. cbn in W. destruct (IH _ W) as (v' & C & D).
    destruct (IH2 _ F') as (ms' & Fm & E & M). exists ((l, t', v') :: ms'). split; [constructor; [split; [reflexivity|exact C]|exact Fm]|]. split; [cbn; congruence|].
    eapply mb_cons; eassumption.
Qed.

Lemma wide_stands pf t t' text v : all_structs (fun n => (n < 64)%nat) t -> all_structs (fun n => (n < 64)%nat) t' -> widens t t' ->
  stands_for alnum fl pf t text v -> exists v', carried t v t' v' /\ stands_for alnum fl pf t' text v'.
Proof.
  intros A A' W S. apply (decode_exact alnum fl pf t text [] v A) in S. destruct S as (r & x & r0 & D & R).
  destruct (wide_document _ _ _ _ D _ W) as (v' & C & D'). exists v'. split; [exact C|].
  apply (decode_exact alnum fl pf t' text [] v' A'). exists r, x, r0. auto.
Qed.

End Widen.
