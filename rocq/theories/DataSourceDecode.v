(** * What a data source holds after decoding *)

From Coq Require Import Strings.String Sorting.Permutation ZifyBool ZifyNat ZifyN.
From Verif Require Import Base BaseFacts StrModel StrFacts Utf8Model TypesModel TypesSpec MarshalModel MarshalSpec LayoutProofs PresentsFacts JsonModel JsonSpec JsonData JsonBits JsonTok JsonRead JsonSound JsonTop JsonDocProofs DataSourceSpec.
Local Open Scope list_scope.
Local Open Scope Z_scope.

(** The places of the value that the source holds, found by following its tags. *)
Inductive spot (d : ds) : ty -> path -> path -> Prop :=
| so_prim p q : spot d (TPrim p) q q
| so_string q : spot d TString q q
| so_tag cs q : spot d (TEnum cs) q q
| so_case cs k l t q p : ds_get d q = Some (JTag k) -> nth_error cs k = Some (l, t) -> spot d t (q ++ [k]) p -> spot d (TEnum cs) q p
| so_tuple ts i t q p : nth_error ts i = Some t -> spot d t (q ++ [i]) p -> spot d (TTuple ts) q p
| so_struct fs i l t q p : nth_error fs i = Some (l, t) -> spot d t (q ++ [i]) p -> spot d (TStruct fs) q p.

Lemma spot_same d d' t q p : spot d t q p -> (forall r, extends q r -> ds_get d' r = ds_get d r) -> spot d' t q p.
Proof.
  induction 1 as [| | |cs k l t q p G N S IH|ts i t q p N S IH|fs i l t q p N S IH]; intros H; try constructor.
  - eapply so_case; [rewrite H by apply extends_refl; exact G|exact N|]. apply IH. intros r Hr. apply H. eapply extends_below; exact Hr.
  - eapply so_tuple; [exact N|]. apply IH. intros r Hr. apply H. eapply extends_below; exact Hr.
  - eapply so_struct; [exact N|]. apply IH. intros r Hr. apply H. eapply extends_below; exact Hr.
Qed.

Lemma spot_keep d d' t q j p : spot d t (q ++ [j]) p -> frame d d' (fun p => exists i, i <> j /\ extends (q ++ [i]) p) -> spot d' t (q ++ [j]) p.
Proof. intros S F. eapply spot_same; [exact S|]. intros r Hr. apply F. intros (i & N & Hi). apply N. eapply extends_snoc_inj; eassumption. Qed.

Lemma get_add_other d q v p : ds_get (ds_add d q v) p <> None -> ds_get d p <> None \/ p = q.
Proof.
  unfold ds_add. cbn [ds_get]. destruct (path_eqb q p) eqn:E; [|auto]. apply path_eqb_eq in E. auto.
Qed.

Section Told.
Context (alnum : Z -> bool) (fl : floats) (pf : profile).
Notation parse := (JsonModel.parse alnum fl pf).

Definition told (t : ty) : Prop := forall q st d d' st', parse t q st d = Ret (d', Ok st') ->
  frame d d' (extends q) /\ forall p, ds_get d' p <> None -> ds_get d p <> None \/ spot d' t q p.

Lemma step_same st d d' st' : JsonModel.step alnum st d = Ret (d', Ok st') -> d' = d.
Proof. intros H. apply step_ok in H. tauto. Qed.

Lemma must_same k w st d d' st' : must_be alnum k w st d = Ret (d', Ok st') -> d' = d.
Proof. intros H. apply must_ok in H. tauto. Qed.

Lemma named_same n w st d d' st' : named_field alnum n w st d = Ret (d', Ok st') -> d' = d.
Proof. intros H. apply named_ok in H. tauto. Qed.

Ltac ok H := let d1 := fresh "d" in let st1 := fresh "st" in let E := fresh "E" in apply andthen_ok in H; destruct H as (d1 & st1 & E & H).

Lemma added t q v d : (forall d', spot d' t q q) ->
  frame d (ds_add d q v) (extends q) /\ forall p, ds_get (ds_add d q v) p <> None -> ds_get d p <> None \/ spot (ds_add d q v) t q p.
Proof. intros S. split; [apply frame_add|]. intros p Hp. destruct (get_add_other _ _ _ _ Hp) as [H| ->]; auto. Qed.

Lemma prim_told p : told (TPrim p).
Proof.
  intros q st d d' st' H. cbn [JsonModel.parse] in H.
  assert (G : exists z, d' = ds_add d q (JPrim p z)).
  { unfold parse_prim in H. destruct p;
    try (match type of H with (if ?c then _ else _) = _ => destruct c; [discriminate|] end;
         match type of H with match ?c with _ => _ end = _ => destruct c as [z|]; [|discriminate] end; apply step_same in H; eauto).
    - destruct (t_token st); try discriminate; apply step_same in H; eauto.
    - destruct (token_eqb (t_token st) KString); [|discriminate].
      destruct (tok_value st) as [|c [|c' b]]; try (apply andthen_ok in H; destruct H as (? & ? & _ & H); discriminate). apply step_same in H. eauto. }
  destruct G as [z ->]. apply added. constructor.
Qed.

Lemma tuple_told ts : Forall told ts -> forall q k st d d' st', tuple_loop alnum parse ts q k st d = Ret (d', Ok st') ->
  frame d d' (fun p => exists i, (k <= i)%nat /\ extends (q ++ [i]) p) /\
  forall p, ds_get d' p <> None -> ds_get d p <> None \/ exists i t, nth_error ts i = Some t /\ spot d' t (q ++ [(k + i)%nat]) p.
Proof.
  induction 1 as [|t ts Ht F IH]; intros q k st d d' st' H; cbn [tuple_loop] in H.
  - injection H as <- <-. split; [apply frame_refl|auto].
  - ok H. assert (d0 = d) as -> by (destruct (k =? 0)%nat; [injection E as <- <-; reflexivity|apply must_same in E; exact E]).
    ok H. unfold with_component in E0. destruct (Ht _ _ _ _ _ E0) as [Fr Sp]. destruct (IH _ _ _ _ _ _ H) as [Fr2 Sp2]. split.
    + eapply frame_trans; [exact Fr|exact Fr2| |].
      * intros p Hp. exists k. split; [lia|exact Hp].
      * intros p (i & Li & Hi). exists i. split; [lia|exact Hi].
    + intros p Hp. destruct (Sp2 p Hp) as [H1|(i & t' & N & Sx)].
      * destruct (Sp p H1) as [H2|Sx]; [auto|]. right. exists 0%nat, t. split; [reflexivity|]. rewrite Nat.add_0_r.
        eapply spot_keep; [exact Sx|]. eapply frame_trans; [apply frame_refl with (i := fun _ => False)|exact Fr2|intros ? []|].
        intros p' (i & Li & Hi). exists i. split; [lia|exact Hi].
      * right. exists (S i), t'. split; [exact N|]. replace (k + S i)%nat with (S k + i)%nat by lia. exact Sx.
Qed.

Lemma struct_told fs q : (List.length fs < 64)%nat -> Forall (fun f => told (snd f)) fs ->
  forall f set v b st d d' st', is_set v set -> NoDup set -> Forall (fun i => (i < List.length fs)%nat) set ->
  struct_loop alnum pf (last_index fs 0) (fun i st d => select (fun f : str * ty => parse (snd f) (with_component q i) st d) fs i) f v b st d = Ret (d', Ok st') ->
  frame d d' (fun p => exists i, In i set /\ extends (q ++ [i]) p) /\
  forall p, ds_get d' p <> None -> ds_get d p <> None \/ exists i l t, nth_error fs i = Some (l, t) /\ spot d' t (q ++ [i]) p.
Proof.
  intros few HF f. induction f as [|f IH]; intros set v b st d d' st' Hset ND HL H; cbn [struct_loop] in H;
    pose proof (is_set_empty _ _ Hset) as Z0; rewrite Z0 in H; (destruct set as [|i0 set0];
      [injection H as <- <-; split; [apply frame_refl|auto]|]); [discriminate|].
  set (set := i0 :: set0) in *. clearbody set. clear Z0.
  ok H. assert (d0 = d) as -> by (destruct b; [injection E as <- <-; reflexivity|apply must_same in E; exact E]).
  clear E. destruct (token_eqb (t_token st0) KString) eqn:K; [|discriminate].
  destruct (last_index fs 0 (tok_value st0)) as [i|] eqn:Ei; [|discriminate].
  destruct (last_index_some fs _ _ _ Ei) as (_ & t & Hn). rewrite Nat.sub_0_r in Hn.
  assert (Li : (i < List.length fs)%nat) by (apply nth_error_Some; rewrite Hn; discriminate).
  rewrite bits_has_small in H by lia. cbn [bind] in H. destruct (Z.testbit v (Z.of_nat i)) eqn:B; [|discriminate].
  assert (Hi : In i set). { destruct Hset as (_ & _ & Hset). apply Hset; [lia|exact B]. }
  destruct (in_split _ _ Hi) as (set1 & set2 & ->). apply NoDup_remove in ND. destruct ND as [ND Ni].
  destruct (is_set_clear pf v i set1 set2 Hset Ni) as (v' & Ec & Hv').
  ok H. rewrite Ec in H. cbn [bind] in H. apply step_same in E. subst d0. ok H. apply must_same in E. subst d0.
  rewrite (select_nth _ _ _ _ Hn) in H. unfold with_component in H. ok H. cbn [snd] in E.
  rewrite Forall_forall in HF. destruct (HF _ (nth_error_In _ _ Hn) _ _ _ _ _ E) as [Fr Sp].
  destruct (IH _ _ _ _ _ _ _ Hv' ND ltac:(apply Forall_app in HL; destruct HL as [HL1 HL2]; inversion HL2; subst; apply Forall_app; split; assumption) H) as [Fr2 Sp2].
  split.
  - eapply frame_trans; [exact Fr|exact Fr2| |].
    + intros p Hp. exists i. split; [exact Hi|exact Hp].
    + intros p (j & Lj & Hj). exists j. split; [|exact Hj]. apply in_app_or in Lj. apply in_or_app. cbn [In]. tauto.
  - intros p Hp. destruct (Sp2 p Hp) as [H1|G]; [|right; exact G]. destruct (Sp p H1) as [H2|S]; [auto|]. right. exists i, (tok_value st0), t.
    split; [exact Hn|]. eapply spot_keep; [exact S|].
    eapply frame_trans; [apply frame_refl with (i := fun _ => False)|exact Fr2|intros ? []|]. intros p' (j & Lj & Hp'). exists j. split; [congruence|exact Hp'].
Qed.

Lemma parse_told t : all_structs (fun n => (n < 64)%nat) t -> told t.
Proof.
  induction t using ty_ind'; intros HA q st d d' st' H0; cbn [JsonModel.parse] in H0.
  - destruct (token_eqb (t_token st) KNull); [|discriminate]. apply step_same in H0. subst d'. split; [apply frame_refl|auto].
  - exact (prim_told p q st d d' st' H0).
  - destruct (token_eqb (t_token st) KString); [|discriminate]. apply step_same in H0. subst d'. apply added. constructor.
  - inversion HA as [| | |? HA'| |]; subst.
    assert (F : Forall told ts). { rewrite Forall_forall in *. auto. }
    ok H0. apply must_same in E. subst d0. ok H0. apply must_same in H0. subst d'. destruct (tuple_told ts F _ _ _ _ _ _ E) as [Fr Sp]. split.
    + eapply frame_trans; [apply frame_refl with (i := fun _ => False)|exact Fr|intros ? []|]. intros p (i & _ & Hi). eapply extends_below; exact Hi.
    + intros p Hp. destruct (Sp p Hp) as [G|(i & t & N & S)]; [auto|]. right. eapply so_tuple; [exact N|exact S].
  - inversion HA as [| | | |? few HA'|]; subst.
    assert (F : Forall (fun f => told (snd f)) fs). { rewrite Forall_forall in *. auto. }
    ok H0. apply must_same in E. subst d0. rewrite bits_new_small in H0 by exact few. cbn [bind] in H0. ok H0. apply must_same in H0. subst d'.
    destruct (struct_told fs q few F _ _ _ _ _ _ _ _ (is_set_new _ few) (seq_NoDup _ _) ltac:(apply Forall_forall; intros i Hi; apply in_seq in Hi; lia) E) as [Fr Sp]. split.
    + eapply frame_trans; [apply frame_refl with (i := fun _ => False)|exact Fr|intros ? []|]. intros p (i & _ & Hi). eapply extends_below; exact Hi.
    + intros p Hp. destruct (Sp p Hp) as [G|(i & l & t & N & S)]; [auto|]. right. eapply so_struct; [exact N|exact S].
  - inversion HA as [| | | | |? HA']; subst.
    ok H0. apply must_same in E. subst d0. ok H0. apply named_same in E. subst d0. ok H0. apply must_same in E. subst d0.
    destruct (token_eqb (t_token st2) KString); [|discriminate]. cbn [negb] in H0.
    destruct (last_index cs 0 (tok_value st2)) as [i|] eqn:Ei; [|discriminate].
    destruct (last_index_some cs _ _ _ Ei) as (_ & t & Hn). rewrite Nat.sub_0_r in Hn.
    ok H0. apply step_same in E. subst d0. ok H0. apply must_same in E. subst d0. ok H0. apply named_same in E. subst d0. ok H0. apply must_same in E. subst d0.
    ok H0. rewrite (select_nth _ _ _ _ Hn) in E. unfold with_component in E. cbn [snd] in E. apply must_same in H0. subst d'.
    rewrite Forall_forall in *. destruct (H _ (nth_error_In _ _ Hn) (HA' _ (nth_error_In _ _ Hn)) _ _ _ _ _ E) as [Fr Sp]. split.
    + eapply frame_trans; [apply frame_add|exact Fr|auto|]. intros p Hp. eapply extends_below; exact Hp.
    + intros p Hp. destruct (Sp p Hp) as [G|S].
      * destruct (get_add_other _ _ _ _ G) as [G'| ->]; [auto|]. right. apply so_tag.
      * right. eapply so_case; [|exact Hn|exact S]. rewrite Fr; [apply ds_get_add|].
        intros [r Er]. rewrite <- app_assoc in Er. assert (L : List.length q = List.length (q ++ [i] ++ r)) by (rewrite <- Er; reflexivity).
        rewrite app_length in L. cbn in L. lia.
Qed.

(** ** Places of a presented value *)

Lemma list_at s ts q k vs : presents_list s ts q k vs -> forall i t, nth_error ts i = Some t -> exists v, nth_error vs i = Some v /\ presents s t (q ++ [(k + i)%nat]) v.
Proof.
  induction 1 as [|t ts q k v vs P _ IH]; intros i t' N; [destruct i; discriminate|].
  destruct i as [|i]; cbn [nth_error] in *; [injection N as <-; exists v; rewrite Nat.add_0_r; auto|].
  destruct (IH i t' N) as (w & H1 & H2). exists w. split; [exact H1|]. replace (k + S i)%nat with (S k + i)%nat by lia. exact H2.
Qed.

Lemma spot_place d t q p : spot d t q p -> forall v, presents (ds_source d) t q v -> place t v q p.
Proof.
  induction 1 as [| | |cs k l t q p G N S IH|ts i t q p N S IH|fs i l t q p N S IH]; intros v P; inversion P; subst; try constructor.
  - match goal with H : src_tag _ _ = _ |- _ => cbn [ds_source src_tag] in H; rewrite G in H; injection H as -> end.
    match goal with H : nth_error cs _ = _ |- _ => rewrite H in N; injection N as -> -> end. eapply pc_case; [eassumption|]. apply IH. assumption.
  - match goal with H : presents_list _ _ _ _ _ |- _ => destruct (list_at _ _ _ _ _ H _ _ N) as (w & W1 & W2) end. eapply pc_tuple; [exact N|exact W1|]. apply IH. exact W2.
  - match goal with H : presents_list _ _ _ _ _ |- _ => destruct (list_at _ _ _ _ _ H i t) as (w & W1 & W2); [rewrite nth_error_map, N; reflexivity|] end.
    eapply pc_struct; [exact N|exact W1|]. apply IH. exact W2.
Qed.

Lemma place_speaks s t v q p : place t v q p -> presents s t q v -> speaks s p.
Proof.
  induction 1 as [| | |cs k l t v q p N S IH|ts vs i t v q p N V S IH|fs vs i l t v q p N V S IH]; intros P; inversion P; subst; unfold speaks.
  - left. eauto.
  - right. right. eauto.
  - right. left. eauto.
  - match goal with H : nth_error cs _ = _ |- _ => rewrite H in N; injection N as -> -> end. apply IH. assumption.
  - match goal with H : presents_list _ _ _ _ _ |- _ => destruct (list_at _ _ _ _ _ H _ _ N) as (w & W1 & W2) end. rewrite V in W1. injection W1 as <-. apply IH. exact W2.
  - match goal with H : presents_list _ _ _ _ _ |- _ => destruct (list_at _ _ _ _ _ H i t) as (w & W1 & W2); [rewrite nth_error_map, N; reflexivity|] end.
    rewrite V in W1. injection W1 as <-. apply IH. exact W2.
Qed.

Lemma speaks_get d p : speaks (ds_source d) p -> ds_get d p <> None.
Proof.
  intros [(t & z & H)|[(k & H)|(bs & H)]]; cbn [ds_source src_prim src_tag src_bytes] in H; destruct (ds_get d p); try discriminate.
Qed.

Lemma decode_places t input old d v p : all_structs (fun n => (n < 64)%nat) t -> json_decode alnum fl pf t input old = Ret (d, Ok tt) -> presents (ds_source d) t [] v ->
  (speaks (ds_source d) p <-> place t v [] p).
Proof.
  intros HA H P. split; intros G; [|eapply place_speaks; eassumption].
  unfold json_decode in H. destruct (tok_new alnum input) as [[st [[]|e]]| |]; try discriminate. cbn [bind] in H.
  destruct (parse t [] st []) as [[d1 [st1|e]]| |] eqn:E; try discriminate. cbn [bind] in H. injection H as <-.
  destruct (parse_told t HA _ _ _ _ _ E) as [_ Sp]. destruct (Sp p (speaks_get _ _ G)) as [X|X]; [exfalso; apply X; reflexivity|].
  eapply spot_place; eassumption.
Qed.
End Told.

Lemma decode_clears alnum fl pf t input : (exists x r, JsonDocSpec.reads alnum input x r) \/ (forall old, exists e, json_decode alnum fl pf t input old = Ret (old, Err e)) \/
  (forall old, json_decode alnum fl pf t input old = Panic).
Proof.
  unfold json_decode, tok_new. destruct (JsonModel.next alnum (tok_init input)) as [[st [[]|e]]| |] eqn:E.
  - left. apply next_reads in E. unfold stands in E. eauto.
  - right. left. intros old. exists e. reflexivity.
  - right. right. reflexivity.
  - exfalso. exact (next_total alnum (tok_init input) E).
Qed.

Lemma decode_forgets alnum fl pf t input old old' x r : JsonDocSpec.reads alnum input x r -> json_decode alnum fl pf t input old = json_decode alnum fl pf t input old'.
Proof.
  intros R. destruct (reads_next alnum _ _ _ R (tok_init input) eq_refl) as (st & E & _). unfold json_decode, tok_new. rewrite E. reflexivity.
Qed.
