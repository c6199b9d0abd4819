(** * Labels, starred columns and the catalog against the typing rules *)

From Coq Require Import Strings.String Sorting.Sorted Sorting.Permutation.
From Coq Require Import ZifyBool ZifyNat ZifyN.
From Verif Require Import Base StrModel StrFacts SqlNameModel SqlModel SqlNameProofs SqlTypeProofs SqlSpec SqlScope SqlEval
  SqlInd SqlSafeSpec SqlPanic SqlStmtSpec SqlStmt SqlColumnsSpec SqlColumns SqlFromSpec SqlFrom SqlRules SqlRulesBase.
Local Open Scope list_scope.

Local Arguments rbind : simpl never.

Section Names.
Context (up : Z -> list Z).
Notation same := (name_eqb up).
Notation nget := (nget up).

(** ** Labels *)

Lemma labels_fun ns : forall h gs gs', labels up h ns gs -> labels up h ns gs' -> gs = gs'.
Proof.
  induction ns as [|n ns IH]; intros h gs gs' H H'; inversion H; inversion H'; subst; try contradiction.
  - reflexivity.
  - f_equal. eapply IH; eassumption.
  - match goal with A : decimal _ ?s, B : decimal _ ?s' |- _ => pose proof (decimal_inj _ _ _ A B); subst s' end.
    f_equal. eapply IH; eassumption.
Qed.

Lemma attrs_ext (l : list attribute) : forall l', map a_name l = map a_name l' ->
  map (fun a => (a_type a, a_null a)) l = map (fun a => (a_type a, a_null a)) l' -> l = l'.
Proof.
  induction l as [|a l IH]; intros [|b l'] H H'; try discriminate; [reflexivity|]. cbn in H, H'.
  injection H as H1 H2. injection H' as H3 H4 H5. f_equal; [destruct a, b; cbn in *; congruence|auto].
Qed.

Lemma labelled_fun req g g' : labelled up req g -> labelled up req g' -> g = g'.
Proof.
  intros [A B] [A' B']. apply attrs_ext; [eapply labels_fun; eassumption|congruence].
Qed.

(** ** Starred columns *)

Lemma nput_keys {V} (m : nmap V) k0 v k : sorted up m ->
  (In k (map fst (nput up m k0 v)) <-> In k (map fst m) \/ k = k0 /\ nget m k0 = None).
Proof.
  induction 1 as [|k1 v1 m Hb Hs IH]; cbn [nput SqlNameModel.nget map fst].
  - cbn. intuition congruence.
  - destruct (name_cmp up k0 k1) eqn:E; cbn [map fst In].
    + intuition discriminate.
    + intuition congruence.
    + rewrite IH. tauto.
Qed.

Lemma ncollect_snoc {V} (l : list (name * V)) e : ncollect up (l ++ [e]) = nput up (ncollect up l) (fst e) (snd e).
Proof. unfold ncollect. apply fold_left_app. Qed.

Lemma nget_collect_none {V} (l : list (name * V)) k :
  nget (ncollect up l) k = None <-> Forall (fun m => same k m = false) (map fst l).
Proof.
  rewrite nget_ncollect. induction l as [|[k' v] l IH]; cbn; [split; auto|].
  destruct (last_entry up l k) eqn:E.
  - split; [discriminate|]. intros H. inversion H as [|? ? H1 H2]; subst. apply IH in H2. discriminate.
  - pose proof (proj1 IH eq_refl) as F. destruct (same k k') eqn:S.
    + split; [discriminate|]. intros H. inversion H; congruence.
    + split; [intros _; constructor; assumption|reflexivity].
Qed.

Lemma ncollect_keys {V} (l : list (name * V)) k : In k (map fst (ncollect up l)) <-> first_spelling up (map fst l) k.
Proof.
  induction l as [|e l IH] using rev_ind.
  - cbn. split; [intros []|]. intros ([|] & l2 & [=] & _).
  - rewrite ncollect_snoc, nput_keys by apply ncollect_sorted. rewrite map_app. cbn [map]. rewrite first_spelling_snoc, IH.
    split.
    + intros [H|[-> H]]; [auto|]. right. split; [reflexivity|]. apply nget_collect_none; exact H.
    + intros [H|[-> H]]; [auto|]. right. split; [reflexivity|]. apply nget_collect_none; exact H.
Qed.

Lemma in_sorted {V} (m : nmap V) k v : sorted up m -> (In (k, v) m <-> In k (map fst m) /\ nget m k = Some v).
Proof.
  intros Hs. split.
  - intros H. split; [apply in_map_iff; exists (k, v); auto|]. apply nget_in; [exact Hs|]. exists k. split; [exact H|apply name_eqb_refl].
  - intros [H1 H2]. apply in_map_iff in H1 as ([k' v'] & E & H1). cbn in E. subst k'.
    assert (E : nget m k = Some v') by (apply nget_in; [exact Hs|]; exists k; split; [exact H1|apply name_eqb_refl]).
    congruence.
Qed.

Lemma first_named_spelling attrs n : first_spelling up (map a_name attrs) n <->
  exists a, first_named up attrs (a_name a) a /\ a_name a = n.
Proof.
  unfold first_spelling, first_named. split.
  - intros (l1 & l2 & E & F). apply map_eq_app in E as (m1 & m2 & -> & <- & E).
    destruct m2 as [|a m2]; [discriminate|]. injection E as <- <-. exists a. split; [|reflexivity]. exists m1, m2.
    split; [reflexivity|]. split; [apply name_eqb_refl|]. rewrite Forall_map in F. revert F. apply Forall_impl.
    intros b Hb. rewrite name_eqb_sym. exact Hb.
  - intros (a & (l1 & l2 & -> & _ & F) & <-). exists (map a_name l1), (map a_name l2). rewrite map_app.
    split; [reflexivity|]. rewrite Forall_map. revert F. apply Forall_impl. intros b Hb. rewrite name_eqb_sym. exact Hb.
Qed.

Lemma rel_map_in attrs k t : In (k, t) (rel_map up attrs) <->
  exists first last, first_named up attrs (a_name first) first /\ last_named up attrs last /\
    same (a_name first) (a_name last) = true /\ k = a_name first /\ t = attr_type last.
Proof.
  unfold rel_map. rewrite in_sorted by apply ncollect_sorted. rewrite ncollect_keys, nget_ncollect, distinct_map_attr.
  rewrite first_named_spelling, last_entry_named. split.
  - intros [(a & Fa & <-) (b & Lb & Hk & ->)]. exists a, b. auto.
  - intros (a & b & Fa & Lb & Hk & -> & ->). split; [eauto|]. eauto.
Qed.

Lemma sorted_ext {A} (key : A -> name) (l1 : list A) : forall l2,
  StronglySorted (fun a b => name_cmp up (key a) (key b) = Lt) l1 ->
  StronglySorted (fun a b => name_cmp up (key a) (key b) = Lt) l2 -> (forall a, In a l1 <-> In a l2) -> l1 = l2.
Proof.
  induction l1 as [|a l1 IH]; intros [|b l2] S1 S2 H.
  - reflexivity.
  - destruct (proj2 (H b) (or_introl eq_refl)).
  - destruct (proj1 (H a) (or_introl eq_refl)).
  - inversion S1 as [|? ? S1' F1]; subst. inversion S2 as [|? ? S2' F2]; subst. rewrite Forall_forall in F1, F2.
    assert (irr : forall n, name_cmp up n n <> Lt) by (intros n; rewrite name_cmp_refl; discriminate).
    assert (E : a = b).
    { destruct (proj1 (H a) (or_introl eq_refl)) as [E|I1]; [congruence|].
      destruct (proj2 (H b) (or_introl eq_refl)) as [E|I2]; [congruence|]. exfalso.
      apply (irr (key a)). eapply name_cmp_trans; [exact (F1 b I2)|exact (F2 a I1)]. }
    subst b. f_equal. apply IH; try assumption. intros c. split; intros I.
    + destruct (proj1 (H c) (or_intror I)) as [<-|I']; [|exact I']. exfalso. exact (irr _ (F1 a I)).
    + destruct (proj2 (H c) (or_intror I)) as [<-|I']; [|exact I']. exfalso. exact (irr _ (F2 a I)).
Qed.

Lemma sorted_attrs l : StronglySorted (fun a b => name_cmp up (fst a) (fst b) = Lt) (map (fun a => (a_name a, attr_type a)) l) <->
  StronglySorted (fun a b => name_cmp up (a_name a) (a_name b) = Lt) l.
Proof.
  induction l as [|a l IH]; [split; constructor|]. cbn. split; intros H; inversion H as [|? ? H1 H2]; subst; constructor.
  - apply IH; exact H1.
  - rewrite Forall_map in H2. exact H2.
  - apply IH; exact H1.
  - rewrite Forall_map. exact H2.
Qed.

Lemma starred_ok attrs l : rel_map up attrs = map (fun a => (a_name a, attr_type a)) l <-> starred up attrs l.
Proof.
  assert (Hs := sorted_strong up _ (ncollect_sorted up (map (fun a => (a_name a, attr_type a)) attrs))). fold (rel_map up attrs) in Hs.
  unfold starred. split.
  - intros E. split; [apply sorted_attrs; rewrite <- E; exact Hs|]. intros b.
    assert (In b l <-> In (a_name b, attr_type b) (rel_map up attrs)) as ->.
    { rewrite E, in_map_iff. split; [eauto|]. intros (c & Ec & Ic). injection Ec as E1 E2 E3.
      assert (c = b) as <- by (destruct c, b; cbn in *; congruence). exact Ic. }
    rewrite rel_map_in. split.
    + intros (f & a & F & L & Hk & E1 & E2). exists f, a. injection E2 as E2 E3. destruct b; cbn in *. subst. auto.
    + intros (f & a & F & L & Hk & ->). exists f, a. auto.
  - intros [S H]. apply (sorted_ext fst); [exact Hs|apply sorted_attrs; exact S|]. intros [k t]. rewrite rel_map_in, in_map_iff. split.
    + intros (f & a & F & L & Hk & -> & ->). exists {| a_name := a_name f; a_type := a_type a; a_null := a_null a |}.
      split; [reflexivity|]. apply H. eauto 10.
    + intros (b & [= <- <-] & I). apply H in I as (f & a & F & L & Hk & ->). exists f, a. auto.
Qed.

Lemma star_ok rels x y r l : add_relations up [] rels = Ok y ->
  (requested up x y (RAllFrom r) l <-> exists n attrs, In (n, attrs) rels /\ same r n = true /\ starred up attrs l).
Proof.
  intros E. pose proof (add_relations_holds up rels [] [] (holds_nil up)) as H. rewrite E in H. destruct H as ([_ Hg] & Hn & _).
  cbn [app] in Hg. cbn [requested]. rewrite Hg. split.
  - intros (m & Em & H). destruct (find_rel up rels r) as [attrs|] eqn:F.
    + injection Em as <-. apply find_rel_in in F as (n & Hin & Hk); [|exact Hn]. exists n, attrs. split; [exact Hin|]. split; [exact Hk|].
      apply starred_ok. rewrite pairs_id in H. exact H.
    + destruct (enter_none_cases (named up r (flat_map snd rels))) as [E'|[[? E']|E']]; rewrite E' in Em; discriminate.
  - intros (n & attrs & Hin & Hk & H). assert (F : find_rel up rels r = Some attrs) by (apply find_rel_in; eauto). rewrite F.
    eexists. split; [reflexivity|]. rewrite pairs_id. apply starred_ok. exact H.
Qed.

(** ** The catalog *)

Lemma last_entry_distinct {V} (l : list (name * V)) k v : distinct up (map fst l) ->
  (last_entry up l k = Some v <-> exists k', In (k', v) l /\ same k k' = true).
Proof.
  induction l as [|[k1 v1] l IH]; cbn; intros Hd.
  - split; [discriminate|]. intros (k' & [] & _).
  - inversion Hd as [|? ? D1 D2]; subst. specialize (IH D2). rewrite Forall_forall in D1.
    destruct (same k k1) eqn:E.
    + assert (N : last_entry up l k = None).
      { destruct (last_entry up l k) as [w|] eqn:L; [|reflexivity]. exfalso.
        assert (L' : exists k', In (k', w) l /\ same k k' = true).
        { clear IH Hd D1 D2. induction l as [|[k2 v2] l IHl]; [discriminate|]. cbn in L. destruct (last_entry up l k) as [w'|].
          - injection L as ->. destruct IHl as (k' & I & S); [reflexivity|]. exists k'. cbn; auto.
          - destruct (same k k2) eqn:S; [|discriminate]. injection L as ->. exists k2. cbn; auto. }
        destruct L' as (k' & I & S). assert (F : same k1 k' = false) by (apply D1, in_map_iff; exists (k', w); auto).
        rewrite <- (name_eqb_congr_l up _ _ k' E) in F. congruence. }
      rewrite N. split.
      * intros [= <-]. exists k1. auto.
      * intros (k' & [[= <- <-]|I] & S); [reflexivity|]. exfalso.
        assert (F : same k1 k' = false) by (apply D1, in_map_iff; exists (k', v); auto).
        rewrite <- (name_eqb_congr_l up _ _ k' E) in F. congruence.
    + assert (X : match last_entry up l k with Some w => Some w | None => None end = last_entry up l k)
        by (destruct (last_entry up l k); reflexivity).
      rewrite X, IH. split.
      * intros (k' & I & S). exists k'. auto.
      * intros (k' & [[= <- <-]|I] & S); [congruence|]. exists k'. auto.
Qed.

Lemma map_fst_pairs {A B} (f : A -> B) (l : list (name * A)) : map fst (map (fun e => (fst e, f (snd e))) l) = map fst l.
Proof. rewrite map_map. reflexivity. Qed.

Lemma namespace_ok db s : well_named up db ->
  forall n t, (exists ns, nget (namespaces_of up db) s = Some ns /\ nget ns n = Some t) <->
    exists s' sc n' o, In (s', sc) db /\ same s s' = true /\ In (n', o) (s_objects sc) /\ same n n' = true /\ t = row_of_set (object_rows o).
Proof.
  intros [Hd Ho] n t. unfold namespaces_of. rewrite nget_ncollect. rewrite Forall_forall in Ho.
  assert (X : forall ns, last_entry up (map (fun e => (fst e, object_types up (snd e))) db) s = Some ns <->
              exists s' sc, In (s', sc) db /\ same s s' = true /\ ns = object_types up sc).
  { intros ns. rewrite last_entry_distinct by (rewrite map_fst_pairs; exact Hd). split.
    - intros (k' & I & S). apply in_map_iff in I as ([s' sc] & [= <- <-] & I). exists s', sc. auto.
    - intros (s' & sc & I & S & ->). exists s'. split; [|exact S]. apply in_map_iff. exists (s', sc). auto. }
  assert (Y : forall s' sc, In (s', sc) db -> (nget (object_types up sc) n = Some t <->
              exists n' o, In (n', o) (s_objects sc) /\ same n n' = true /\ t = row_of_set (object_rows o))).
  { intros s' sc I. unfold object_types. rewrite nget_ncollect.
    rewrite last_entry_distinct
      by (rewrite (map_fst_pairs (fun o => row_of_set (object_rows o)) (s_objects sc)); exact (Ho _ I)). split.
    - intros (k' & I' & S). apply in_map_iff in I' as ([n' o] & [= <- <-] & I'). exists n', o. auto.
    - intros (n' & o & I' & S & ->). exists n'. split; [|exact S]. apply in_map_iff. exists (n', o). auto. }
  split.
  - intros (ns & E & G). apply X in E as (s' & sc & I & S & ->). apply (Y _ _ I) in G as (n' & o & I' & S' & ->).
    exists s', sc, n', o. auto.
  - intros (s' & sc & n' & o & I & S & I' & S' & ->). exists (object_types up sc). split; [apply X; eauto|].
    apply (Y _ _ I). eauto.
Qed.

Lemma catalog_ok db dflt q attrs : well_named up db ->
  (exists r, resolve_table up (set_context_new up db dflt) q = ok r /\ r_attrs r = attrs) <-> catalog up db dflt q attrs.
Proof.
  intros W.
  assert (H : forall s n, (exists r, (exists ns, nget (namespaces_of up db) s = Some ns /\ nget ns n = Some r) /\ r_attrs r = attrs) <->
                          in_schema up db s n attrs).
  { intros s n. unfold in_schema. split.
    - intros (r & H & <-). apply (namespace_ok db s W) in H as (s' & sc & n' & o & I & S & I' & S' & ->). exists s', sc, n', o. auto 10.
    - intros (s' & sc & n' & o & I & S & I' & S' & ->). exists (row_of_set (object_rows o)).
      split; [apply (namespace_ok db s W); eauto 10|reflexivity]. }
  destruct q as [|a [|b [|c q]]]; cbn [resolve_table catalog set_context_new x_tables x_namespaces x_default SqlNameModel.nget].
  - split; [intros (r & [=] & _)|intros []].
  - rewrite <- H. split.
    + intros (r & E & A). exists r. split; [|exact A]. destruct (nget (namespaces_of up db) dflt) as [ns|]; [|discriminate].
      exists ns. split; [reflexivity|]. destruct (nget ns a); [apply ok_inj in E; congruence|discriminate].
    + intros (r & (ns & E & G) & A). exists r. split; [|exact A]. rewrite E. unfold ok_or. rewrite G. reflexivity.
  - rewrite <- H. split.
    + intros (r & E & A). exists r. split; [|exact A]. destruct (nget (namespaces_of up db) a) as [ns|]; [|discriminate].
      exists ns. split; [reflexivity|]. destruct (nget ns b); [apply ok_inj in E; congruence|discriminate].
    + intros (r & (ns & E & G) & A). exists r. split; [|exact A]. rewrite E. unfold ok_or. rewrite G. reflexivity.
  - split; [intros (r & [=] & _)|intros []].
Qed.

Lemma registered_ok db dflt : registered up (set_context_new up db dflt) <-> exists s sc, In (s, sc) db /\ same dflt s = true.
Proof.
  unfold registered. cbn. unfold namespaces_of. split.
  - intros H. destruct (nget _ dflt) as [ns|] eqn:E; [|contradiction]. apply nget_in in E as (k & I & S); [|apply ncollect_sorted].
    assert (K : In k (map fst (ncollect up (map (fun e => (fst e, object_types up (snd e))) db)))) by (apply in_map_iff; exists (k, ns); auto).
    apply ncollect_keys in K as (l1 & l2 & E & _). rewrite map_fst_pairs in E.
    assert (K : In k (map fst db)) by (rewrite E; apply in_or_app; cbn; auto).
    apply in_map_iff in K as ([k' sc] & Ek & K). cbn in Ek. subst k'. eauto.
  - intros (s & sc & I & S) N. apply nget_collect_none in N. rewrite map_fst_pairs, Forall_forall in N.
    rewrite (N s) in S; [discriminate|]. apply in_map_iff. exists (s, sc). auto.
Qed.

End Names.
