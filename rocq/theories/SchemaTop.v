(** * Records under a changed type: reading and writing *)

From Coq Require Import Permutation ZifyBool ZifyNat ZifyN.
From Verif Require Import Base BaseFacts UtilModel UtilProofs StrModel TypesModel TypesSpec TypesProofs.
From Verif Require Import MarshalModel MarshalSpec ListFacts LayoutProofs LayoutCover FieldProofs MarshalMore MarshalLimits MarshalTop ValSource.
From Verif Require Import FormatSpec FormatLayout RecordCanonSpec RecordCanon RecordSpec SchemaSpec SchemaProofs SchemaGrown.

(** ** Values of the old type in the new one *)

Lemma extended_nth ts ts' k t : extended_list ts ts' -> nth_error ts k = Some t -> exists t', nth_error ts' k = Some t' /\ extended t t'.
Proof.
  intros H. revert k. induction H as [|a a' ts ts' Ha H IH]; intros [|k] E; cbn [nth_error] in *; try discriminate.
  - injection E as <-. eauto.
  - eauto.
Qed.

Lemma extended_nth_r ts ts' k t' : extended_list ts ts' -> nth_error ts' k = Some t' -> exists t, nth_error ts k = Some t /\ extended t t'.
Proof.
  intros H. revert k. induction H as [|a a' ts ts' Ha H IH]; intros [|k] E; cbn [nth_error] in *; try discriminate.
  - injection E as <-. eauto.
  - eauto.
Qed.

Lemma extended_length ts ts' : extended_list ts ts' -> length ts' = length ts.
Proof. induction 1; cbn [length]; congruence. Qed.

Lemma case_of (cs : list (str * ty)) k t : nth_error (map snd cs) k = Some t -> exists lb, nth_error cs k = Some (lb, t).
Proof. rewrite nth_error_map. destruct (nth_error cs k) as [[lb u]|]; [|discriminate]. intros [= <-]. eauto. Qed.

Lemma new_case (cs cs' more : list (str * ty)) k lb t : extended_list (map snd cs) (map snd cs') -> nth_error cs k = Some (lb, t) ->
  exists lb' t', nth_error (cs' ++ more) k = Some (lb', t') /\ extended t t'.
Proof.
  intros H E. assert (E1 : nth_error (map snd cs) k = Some t) by (rewrite nth_error_map, E; reflexivity).
  destruct (extended_nth _ _ _ _ H E1) as (t' & E2 & Ht). destruct (case_of _ _ _ E2) as [lb' E3]. exists lb', t'. split; [|exact Ht].
  rewrite nth_error_app1; [exact E3|]. apply nth_error_Some. congruence.
Qed.

Lemma extended_typed t v : typed t v -> forall t', extended t t' -> typed t' v.
Proof.
  revert t v. apply (typed_mind (fun t v => forall t', extended t t' -> typed t' v)
    (fun ts vs => forall ts', extended_list ts ts' -> typed_list ts' vs)).
  - intros t' H. inversion H; subst. constructor.
  - intros p z Hz t' H. inversion H; subst. constructor. exact Hz.
  - intros bs Hb t' H. inversion H; subst. constructor. exact Hb.
  - intros ts vs _ IH t' H. inversion H; subst. constructor. apply IH. assumption.
  - intros fs vs _ IH t' H. inversion H; subst. constructor. apply IH. assumption.
  - intros cs k lb t v E _ IH t' H. inversion H; subst. destruct (new_case _ _ more _ _ _ H1 E) as (lb' & t' & E' & Ht).
    econstructor; [exact E'|apply IH; exact Ht].
  - intros ts' H. inversion H; subst. constructor.
  - intros t ts v vs _ IH _ IHs ts' H. inversion H; subst. constructor; auto.
Qed.

Lemma extended_presents s t q v : presents s t q v -> forall t', extended t t' -> presents s t' q v.
Proof.
  revert t q v. apply (presents_mind s (fun t q v => forall t', extended t t' -> presents s t' q v)
    (fun ts q k vs => forall ts', extended_list ts ts' -> presents_list s ts' q k vs)).
  - intros q t' H. inversion H; subst. constructor.
  - intros p q z Hz t' H. inversion H; subst. constructor. exact Hz.
  - intros q bs H1 H2 t' H. inversion H; subst. constructor; assumption.
  - intros ts q vs _ IH t' H. inversion H; subst. constructor. apply IH. assumption.
  - intros fs q vs _ IH t' H. inversion H; subst. constructor. apply IH. assumption.
  - intros cs q k lb t v Ht E _ IH t' H. inversion H; subst. destruct (new_case _ _ more _ _ _ H1 E) as (lb' & t' & E' & He).
    econstructor; [exact Ht|exact E'|apply IH; exact He].
  - intros q k ts' H. inversion H; subst. constructor.
  - intros t ts q k v vs _ IH _ IHs ts' H. inversion H; subst. constructor; auto.
Qed.

(** The other way for values of the old type. *)
Lemma presents_back s t v : typed t v -> forall t' q, extended t t' -> presents s t' q v -> presents s t q v.
Proof.
  revert t v. apply (typed_mind (fun t v => forall t' q, extended t t' -> presents s t' q v -> presents s t q v)
    (fun ts vs => forall ts' q k, extended_list ts ts' -> presents_list s ts' q k vs -> presents_list s ts q k vs)).
  - intros t' q H P. constructor.
  - intros p z Hz t' q H P. inversion H; subst. exact P.
  - intros bs Hb t' q H P. inversion H; subst. exact P.
  - intros ts vs _ IH t' q H P. inversion H; subst. inversion P; subst. constructor. eapply IH; eassumption.
  - intros fs vs _ IH t' q H P. inversion H; subst. inversion P; subst. constructor. eapply IH; eassumption.
  - intros cs k lb t v E _ IH t' q H P. inversion H as [| | | | |? ? more H1 H2 H3]; subst.
    destruct (new_case _ _ more _ _ _ H1 E) as (lb' & t' & E' & Ht). inversion P as [| | | | |? ? ? lb1 t1 v1 P1 P2 P3]; subst.
    rewrite E' in P2. injection P2 as <- <-. econstructor; [exact P1|exact E|eapply IH; eassumption].
  - intros ts' q k H P. constructor.
  - intros t ts v vs _ IH _ IHs ts' q k H P. inversion H; subst. inversion P; subst. constructor; eauto.
Qed.

Lemma extended_small t t' : extended t t' -> small t' -> small t.
Proof.
  intros H. assert (E : ty_size t <= ty_size t'); [|unfold small; lia]. revert t t' H.
  apply (extended_mind (fun t t' => ty_size t <= ty_size t') (fun ts ts' => list_sum (map ty_size ts) <= list_sum (map ty_size ts')));
    try (cbn; lia).
  - intros fs fs' _ IH. rewrite !map_map in IH. apply le_n_S. exact IH.
  - intros cs cs' more _ IH _ _. rewrite !map_map in IH. change (S (list_sum (map (fun c => ty_size (snd c)) cs)) <= S (list_sum (map (fun c => ty_size (snd c)) (cs' ++ more)))).
    rewrite map_app, list_sum_app. apply le_n_S. eapply Nat.le_trans; [exact IH|apply Nat.le_add_r].
  - intros t t' ts ts' _ IH _ IHs. cbn [map list_sum fold_right]. fold (list_sum (map ty_size ts)) (list_sum (map ty_size ts')). lia.
Qed.

Lemma grown_marshallable pf l l' : grown l l' -> marshallable pf l' -> marshallable pf l.
Proof.
  revert l l'. apply (grown_induction (fun l l' => marshallable pf l' -> marshallable pf l)).
  intros a o ix fx vs vs' _ HV H. inversion H as [? H1 H2]; subst. cbn [l_vars l_fixed] in *. constructor; [exact H1|].
  intros v cases c Hv Hk Hc. apply In_nth_error in Hv as [i Hv]. destruct (Forall2_nth_l _ _ _ _ _ HV Hv) as (v' & Hv' & (_ & _ & K)).
  rewrite Hk in K. destruct (v_kind v') as [|ls'] eqn:Hk'; [contradiction|]. destruct K as (pre & more & -> & HF).
  apply In_nth_error in Hc as [j Hc]. destruct (Forall2_nth_l _ _ _ _ _ HF Hc) as (c' & Hc' & IH). apply IH.
  eapply H2; [eapply nth_error_In; exact Hv'|exact Hk'|]. apply in_or_app. left. eapply nth_error_In. exact Hc'.
Qed.

(** ** Sizes in the old layout *)

Lemma presents_nth s ts : forall q k vs i t, presents_list s ts q k vs -> nth_error ts i = Some t -> exists v, presents s t (q ++ [k + i]) v.
Proof.
  induction ts as [|t0 ts IH]; intros q k vs i t H E; [destruct i; discriminate|]. inversion H as [|? ? ? ? ? vs0 P0 Ps]; subst. destruct i as [|i]; cbn [nth_error] in E.
  - injection E as <-. rewrite Nat.add_0_r. eauto.
  - destruct (IH _ _ _ _ _ Ps E) as [v' Hv]. exists v'. rewrite Nat.add_succ_r. exact Hv.
Qed.

Lemma presents_reaches s t r u : reaches t r u -> forall q v, presents s t q v -> exists w, presents s u (q ++ r) w.
Proof.
  induction 1 as [t|ts k t r u E H IH|fs k f r u E H IH]; intros q v P.
  - exists v. rewrite app_nil_r. exact P.
  - inversion P as [| | |? ? ? Ps| |]; subst. destruct (presents_nth _ _ _ _ _ _ _ Ps E) as [w Hw]. destruct (IH _ _ Hw) as [w' Hw'].
    exists w'. rewrite <- app_assoc in Hw'. exact Hw'.
  - inversion P as [| | | |? ? ? Ps|]; subst. assert (E' : nth_error (map snd fs) k = Some (snd f)) by (rewrite nth_error_map, E; reflexivity).
    destruct (presents_nth _ _ _ _ _ _ _ Ps E') as [w Hw]. destruct (IH _ _ Hw) as [w' Hw'].
    exists w'. rewrite <- app_assoc in Hw'. exact Hw'.
Qed.

Lemma pick_nth {A B} (f : A -> outcome B) l i a : nth_error l i = Some a -> pick f l i = f a.
Proof. revert i. induction l as [|x l IH]; intros [|i] E; cbn in *; try discriminate; [injection E as ->; reflexivity|auto]. Qed.

Lemma size_back src l l' : grown l l' -> forall t q v n, calculate_layout t q = Ret l -> presents src t q v ->
  encoding_size_with_source src l' = Ret n -> encoding_size_with_source src l = Ret n.
Proof.
  revert l l'. apply (grown_induction (fun l l' => forall t q v n, calculate_layout t q = Ret l -> presents src t q v ->
    encoding_size_with_source src l' = Ret n -> encoding_size_with_source src l = Ret n)).
  intros a o ix fx vs vs' _ HV t q v n Hl P H. cbn [encoding_size_with_source] in *. inv_bind H.
  assert (E : size_loop src (encoding_size_with_source src) vs o = Ret a0); [|rewrite E; exact H]. clear H.
  destruct (layout_vars _ _ _ Hl) as (_ & L & _). cbn [l_vars] in L. clear Hl.
  revert o Ha L. induction HV as [|w w' vs vs' (E1 & E2 & HK) HV IH]; intros o H L; cbn [size_loop] in *; [exact H|].
  rewrite E1 in H. specialize (L w (or_introl eq_refl)) as Lw.
  destruct (v_kind w) as [|ls], (v_kind w') as [|ls']; try contradiction.
  - inv_bind H. rewrite Ha. cbn [bind]. apply IH; [exact H|]. intros x Hx. apply L. right. exact Hx.
  - destruct HK as (pre & more & -> & HF). destruct Lw as (r & Er & [[_ Lw]|(cs & ls0 & Hr & Lw & Hlen & Hc)]); [discriminate|].
    injection Lw as <-. destruct (presents_reaches _ _ _ _ Hr _ _ P) as [x Px]. inversion Px as [| | | | |? ? k lb u y Pt En Pu]; subst.
    rewrite <- Er in *. rewrite Pt in *. cbn [bind] in *. inv_bind H.
    assert (exists c, nth_error ls k = Some c) as [c Ec].
    { destruct (nth_error ls k) eqn:E; [eauto|]. apply nth_error_None in E. assert (nth_error cs k <> None) by congruence.
      apply nth_error_Some in H0. lia. }
    destruct (Forall2_nth_l _ _ _ _ _ HF Ec) as (c' & Ec' & Hcc). destruct (Hc _ _ Ec) as (lb' & u' & En' & Hcl).
    rewrite En in En'. injection En' as <- <-.
    rewrite (pick_nth _ _ _ _ Ec). rewrite (pick_nth _ _ _ c') in Ha by (rewrite nth_error_app1; [exact Ec'|apply nth_error_Some; congruence]).
    rewrite (Hcc _ _ _ _ Hcl Pu Ha). cbn [bind]. apply IH; [exact H|]. intros z Hz. apply L. right. exact Hz.
Qed.

(** ** Top level *)

Section Change.
Context (pf : profile) (t t' : ty) (l l' : layout) (He : extended t t') (Hl : layout_new t = Ret l) (Hl' : layout_new t' = Ret l').

Lemma change_grown : grown l l'.
Proof. exact (layouts_grown t t' [] l l' He Hl Hl'). Qed.

Lemma change_writes src :
  (forall n, encoding_size_with_source src l = Ret n -> encoding_size_with_source src l' = Ret n) /\
  (forall buf r, encode_with_source pf src l buf = Ret r -> encode_with_source pf src l' buf = Ret r).
Proof. split; [apply size_grown, change_grown|apply encode_grown, change_grown]. Qed.

Lemma change_reads data :
  (forall n, encoding_size pf l data = Ret n -> encoding_size pf l' data = Ret n) /\
  (forall p q z, get_primitive pf l data p q = Ret z -> get_primitive pf l' data p q = Ret z) /\
  (forall q k, get_case_tag pf l data q = Ret k -> get_case_tag pf l' data q = Ret k) /\
  (forall q n, get_length pf l data q = Ret n -> get_length pf l' data q = Ret n) /\
  (forall q bs, get_bytes pf l data q = Ret bs -> get_bytes pf l' data q = Ret bs).
Proof.
  pose proof change_grown as G. split; [apply read_size_grown; exact G|]. repeat split; intros *.
  - apply get_primitive_grown. exact G.
  - apply get_case_tag_grown. exact G.
  - apply get_length_grown. exact G.
  - apply get_bytes_grown. exact G.
Qed.

Lemma answers_presents s s' u q v :
  (forall p q z, src_prim s p q = Ret z -> src_prim s' p q = Ret z) ->
  (forall q k, src_tag s q = Ret k -> src_tag s' q = Ret k) ->
  (forall q n, src_len s q = Ret n -> src_len s' q = Ret n) ->
  (forall q bs, src_bytes s q = Ret bs -> src_bytes s' q = Ret bs) ->
  presents s u q v -> presents s' u q v.
Proof.
  intros H1 H2 H3 H4. revert u q v. apply (presents_mind s (presents s') (presents_list s')); intros; try (econstructor; eauto; fail).
Qed.

Lemma change_presents data v : presents (marshaller_source pf l data) t [] v -> presents (marshaller_source pf l' data) t' [] v.
Proof.
  intros P. destruct (change_reads data) as (_ & H1 & H2 & H3 & H4).
  eapply extended_presents; [|exact He]. eapply answers_presents; [..|exact P]; assumption.
Qed.

Lemma change_size_back src v n : typed t v -> presents src t' [] v ->
  encoding_size_with_source src l' = Ret n -> encoding_size_with_source src l = Ret n.
Proof. intros T P. eapply size_back; [exact change_grown|exact Hl|]. eapply presents_back; eassumption. Qed.

Lemma change_encode_back src v n buf buf' : small t' -> marshallable pf l' -> typed t v -> presents src t' [] v ->
  encoding_size_with_source src l' = Ret n -> n <= length buf -> encode_with_source pf src l' buf = Ret (buf', n) ->
  encode_with_source pf src l buf = Ret (buf', n).
Proof.
  intros Hs Hm T P Hn Hb H. pose proof (presents_back _ _ _ T _ _ He P) as P0.
  destruct (round_trip pf src t l v n buf (extended_small _ _ He Hs) Hl (grown_marshallable _ _ _ change_grown Hm) P0 T
              (change_size_back _ _ _ T P Hn) Hb) as (buf1 & H1 & _).
  pose proof (proj2 (change_writes src) _ _ H1). congruence.
Qed.

Lemma change_record v row : small t' -> marshallable pf l' -> typed t v -> (record_of pf t l v row <-> record_of pf t' l' v row).
Proof.
  intros Hs Hm T. split; intros (src & n & buf & buf' & P & T' & Hn & Hb & H & ->).
  - exists src, n, buf, buf'. split; [eapply extended_presents; [exact P|exact He]|]. split; [eapply extended_typed; [exact T|exact He]|].
    split; [apply (proj1 (change_writes src)); exact Hn|]. split; [exact Hb|]. split; [apply (proj2 (change_writes src)); exact H|reflexivity].
  - exists src, n, buf, buf'. split; [eapply presents_back; eassumption|]. split; [exact T|].
    split; [eapply change_size_back; eassumption|]. split; [exact Hb|]. split; [|reflexivity]. eapply change_encode_back; eassumption.
Qed.

Lemma change_back data n v : small t' -> marshallable pf l' -> whole_record pf l' data n -> typed t v ->
  presents (marshaller_source pf l' data) t' [] v ->
  whole_record pf l data n /\ presents (marshaller_source pf l data) t [] v.
Proof.
  intros Hs Hm Hw T P. pose proof (extended_small _ _ He Hs) as Hs0. pose proof (grown_marshallable _ _ _ change_grown Hm) as Hm0.
  apply (proj2 (readable_encoded pf t l data n v Hs0 Hl Hm0)). split; [exact T|].
  destruct (proj1 (readable_encoded pf t' l' data n v Hs Hl' Hm) (conj Hw P)) as (_ & src & buf & P1 & Hn & Hb & H).
  exists src, buf. split; [eapply presents_back; eassumption|]. split; [eapply change_size_back; eassumption|]. split; [exact Hb|].
  eapply change_encode_back; eassumption.
Qed.
End Change.

(** ** Structs and tuples *)

Lemma members_of_map {A B C} (f : B -> path -> outcome C) (g : A -> B) l : forall q k,
  members f (map g l) q k = members (fun a q => f (g a) q) l q k.
Proof. induction l as [|a l IH]; intros q k; cbn [map members]; [reflexivity|]. destruct (f (g a) (q ++ [k])); cbn [bind]; [|reflexivity|reflexivity]. rewrite IH. reflexivity. Qed.

Lemma struct_tuple fs : layout_new (TStruct fs) = layout_new (TTuple (map snd fs)).
Proof.
  unfold layout_new, calculate_layout. cbn [unroll_type]. rewrite map_length.
  destruct (0 <? length fs); [|reflexivity]. rewrite (members_of_map unroll_type snd). reflexivity.
Qed.
