(** * FROM clauses and WITH contexts *)

From Coq Require Import Sorting.Permutation Sorting.Sorted.
From Coq Require Import ZifyBool ZifyNat ZifyN.
From Verif Require Import Base SqlNameModel SqlModel SqlNameProofs SqlTypeProofs SqlSpec SqlScope SqlEval SqlStmt SqlColumns SqlFromSpec.

Local Arguments rbind : simpl never.

Section From.
Context (up : Z -> list Z).
Notation same := (name_eqb up).
Notation nget := (nget up).

Lemma add_relations_app y r1 r2 :
  add_relations up y (r1 ++ r2) = match add_relations up y r1 with Ok y' => add_relations up y' r2 | Err e => Err e end.
Proof.
  revert y; induction r1 as [|[n attrs] r1 IH]; intros y; cbn; [reflexivity|].
  destruct (add_relation up y n attrs); [apply IH|reflexivity].
Qed.

Lemma resolved_last x q r : resolve_table up x q = ok r -> last_name q = Ret (last q []).
Proof. destruct q as [|a [|b [|c q]]]; cbn; try discriminate; reflexivity. Qed.

Lemma infer_table_ok x t : forall y y' attrs,
  infer_table up x y t = ok (y', attrs) <->
  exists rels, scope_of up x t rels attrs /\ add_relations up y rels = Ok y'.
Proof.
  induction t as [q alias|s alias|l IHl r IHr op c]; intros y y' attrs; cbn [infer_table].
  - rewrite rbind_ok. split.
    + intros (rt & Er & H).
      assert (E : (match alias with Some id => Ret id | None => last_name q end) = Ret (match alias with Some a => a | None => last q [] end))
        by (destruct alias; [reflexivity|exact (resolved_last _ _ _ Er)]).
      rewrite E in H. cbn [bind] in H. apply rbind_ok in H as (y1 & Ea & H). apply pure_ok in Ea. injection H as <- <-.
      eexists. split; [eapply so_named; [exact Er|reflexivity]|]. cbn. rewrite Ea. reflexivity.
    + intros (rels & H & Ha). inversion H as [q' alias' rt id Er E| |]; subst. exists rt. split; [exact Er|].
      assert (E : (match alias with Some id => Ret id | None => last_name q end) = Ret (match alias with Some a => a | None => last q [] end))
        by (destruct alias; [reflexivity|exact (resolved_last _ _ _ Er)]).
      rewrite E. cbn [bind]. apply rbind_ok. cbn in Ha. exists y'. split; [|reflexivity]. apply pure_ok.
      destruct (add_relation up y _ (r_attrs rt)); [exact Ha|discriminate].
  - rewrite rbind_ok. split.
    + intros (rt & Er & H). injection H as <- <-. exists []. split; [apply so_select; exact Er|reflexivity].
    + intros (rels & H & Ha). inversion H; subst. cbn in Ha. injection Ha as <-. eexists. split; [eassumption|reflexivity].
  - rewrite rbind_ok. split.
    + intros ([y1 a1] & E1 & H). apply rbind_ok in H as ([y2 a2] & E2 & H). injection H as <- <-.
      apply IHl in E1 as (r1 & S1 & A1). apply IHr in E2 as (r2 & S2 & A2).
      exists (r1 ++ r2). split; [apply so_join; assumption|]. rewrite add_relations_app, A1. exact A2.
    + intros (rels & H & Ha). inversion H as [| |? ? ? ? r1 r2 a1 a2 S1 S2]; subst. rewrite add_relations_app in Ha.
      destruct (add_relations up y r1) as [y1|] eqn:A1; [|discriminate].
      exists (y1, a1). split; [apply IHl; eauto|]. apply rbind_ok. exists (y', a2). split; [apply IHr; eauto|reflexivity].
Qed.

Lemma from_ok x from : forall y attrs y' attrs',
  fold_err (fun '(y, attrs) t => '(y', attrs') <-? infer_table up x y t ;; ok (y', attrs ++ attrs')) (y, attrs) from = ok (y', attrs') <->
  exists rels new, scopes_of up x from rels new /\ add_relations up y rels = Ok y' /\ attrs' = attrs ++ new.
Proof.
  induction from as [|t from IH]; intros y attrs y' attrs'; cbn [fold_err].
  - split.
    + intros H. injection H as <- <-. exists [], []. split; [constructor|]. rewrite app_nil_r. auto.
    + intros (rels & new & H & Ha & ->). inversion H; subst. cbn in Ha. injection Ha as <-. rewrite app_nil_r. reflexivity.
  - rewrite rbind_ok. split.
    + intros ([y1 attrs1] & E & H). apply rbind_ok in E as ([y2 a2] & E & E'). injection E' as -> <-.
      apply infer_table_ok in E as (r1 & S1 & A1). apply IH in H as (r2 & new & S2 & A2 & ->).
      exists (r1 ++ r2), (a2 ++ new). split; [constructor; assumption|]. rewrite add_relations_app, A1, app_assoc. auto.
    + intros (rels & new & H & Ha & ->). inversion H as [|? ? r1 r2 a1 a2 S1 S2]; subst. rewrite add_relations_app in Ha.
      destruct (add_relations up y r1) as [y1|] eqn:A1; [|discriminate].
      exists (y1, attrs ++ a1). split; [apply rbind_ok; exists (y1, a1); split; [apply infer_table_ok; eauto|reflexivity]|].
      apply IH. exists r2, a2. rewrite app_assoc. auto.
Qed.

Lemma condition_iff x y e :
  match e with None => ok tt | Some e => t <-? infer up x y e ;; pure (logical t) end = ok tt <-> condition up x y e.
Proof. apply filtered_iff. Qed.

Lemma group_exprs_ok x y es :
  fold_err (fun (_ : unit) e => _ <-? infer up x y e ;; ok tt) tt es = ok tt <-> Forall (fun e => exists t, infer up x y e = ok t) es.
Proof.
  induction es as [|e es IH]; cbn [fold_err]; [split; [constructor|reflexivity]|].
  rewrite rbind_ok. split.
  - intros ([] & E & H). apply rbind_ok in E as (t & E & _). constructor; [eauto|apply IH; exact H].
  - intros H. inversion H as [|? ? [t Et] Hes]; subst. exists tt. split; [apply rbind_ok; eauto|apply IH; exact Hes].
Qed.

Lemma query_iff x mode cols from wh group rt :
  infer_set up x (SQuery mode cols from wh group) = ok rt <->
  exists rels attrs y, scopes_of up x from rels attrs /\ add_relations up [] rels = Ok y /\
    condition up x y wh /\ grouping up x y group /\ infer_columns up x y attrs cols = ok rt.
Proof.
  cbn [infer_set]. rewrite rbind_ok. split.
  - intros ([y attrs] & E & H). apply from_ok in E as (rels & new & S & A & ->). cbn [app] in H.
    apply rbind_ok in H as ([] & Ew & H). apply condition_iff in Ew. apply rbind_ok in H as ([] & Eg & H).
    exists rels, new, y. split; [exact S|]. split; [exact A|]. split; [exact Ew|]. split; [|exact H].
    destruct group as [[es having]|]; [|exact I]. apply rbind_ok in Eg as ([] & Eg & Eh).
    split; [apply group_exprs_ok; exact Eg|apply condition_iff; exact Eh].
  - intros (rels & attrs & y & S & A & W & G & H). exists (y, attrs). split; [apply from_ok; exists rels, attrs; auto|].
    apply rbind_ok. exists tt. split; [apply condition_iff; exact W|]. apply rbind_ok. exists tt. split; [|exact H].
    destruct group as [[es having]|]; [|reflexivity]. destruct G as [G1 G2]. apply rbind_ok. exists tt.
    split; [apply group_exprs_ok; exact G1|apply condition_iff; exact G2].
Qed.

(** ** All columns of one relation *)

Lemma nput_fresh {V} (m : nmap V) k v : sorted up m -> nget m k = None -> Permutation ((k, v) :: m) (nput up m k v).
Proof.
  induction 1 as [|k0 v0 m Hb Hs IH]; intros E; cbn [nput SqlNameModel.nget] in *; [reflexivity|].
  destruct (name_cmp up k k0) eqn:C; [discriminate|reflexivity|].
  eapply perm_trans; [apply perm_swap|]. constructor. apply IH. exact E.
Qed.

Lemma ncollect_perm {V} (l : list (name * V)) : distinct up (map fst l) -> Permutation l (ncollect up l).
Proof.
  unfold ncollect.
  assert (H : forall m, sorted up m -> Forall (fun k => nget m k = None) (map fst l) -> distinct up (map fst l) ->
    Permutation (l ++ m) (fold_left (fun m e => nput up m (fst e) (snd e)) l m)).
  { induction l as [|[k v] l IH]; intros m Hs Hf Hd; cbn [fold_left map fst snd app] in *; [reflexivity|].
    inversion Hf as [|? ? F1 F2]; subst. inversion Hd as [|? ? D1 D2]; subst.
    eapply perm_trans; [|apply IH].
    - eapply perm_trans; [apply Permutation_middle|]. apply Permutation_app_head. apply nput_fresh; assumption.
    - apply nput_sorted; exact Hs.
    - rewrite Forall_forall in *. intros k' Hk'. rewrite nget_nput by exact Hs.
      rewrite name_eqb_sym, (D1 k' Hk'). apply F2. exact Hk'.
    - exact D2. }
  intros Hd. rewrite <- (app_nil_r l) at 1. apply H; [apply sorted_nil| |exact Hd]. apply Forall_forall. reflexivity.
Qed.

Lemma sorted_strong {V} (m : nmap V) : sorted up m -> StronglySorted (fun a b => name_cmp up (fst a) (fst b) = Lt) m.
Proof.
  induction 1 as [|k v m Hb Hs IH]; constructor; [exact IH|]. unfold below in Hb.
  rewrite Forall_forall in *. intros e He. apply Hb. exact He.
Qed.

Lemma distinct_map_attr attrs : map fst (map (fun a => (a_name a, attr_type a)) attrs) = map a_name attrs.
Proof. rewrite map_map. reflexivity. Qed.

Lemma attr_of_map l1 l2 : map (fun a => (a_name a, attr_type a)) l1 = map (fun a => (a_name a, attr_type a)) l2 -> l1 = l2.
Proof.
  revert l2; induction l1 as [|a l1 IH]; intros [|b l2] H; try discriminate; [reflexivity|]. cbn in H.
  injection H as H1 H2 H3 H4. f_equal; [destruct a, b; cbn in *; congruence|auto].
Qed.

Lemma pairs_id {A B} (m : list (A * B)) : map (fun e => (fst e, snd e)) m = m.
Proof. induction m as [|[a b] m IH]; cbn; congruence. Qed.

Lemma star_requested rels x y r l :
  add_relations up [] rels = Ok y -> Forall (fun e => distinct up (map a_name (snd e))) rels ->
  (requested up x y (RAllFrom r) l <-> exists n attrs, In (n, attrs) rels /\ same r n = true /\ by_name up attrs l).
Proof.
  intros E Hd. pose proof (add_relations_holds up rels [] [] (holds_nil up)) as H. rewrite E in H. destruct H as ([_ Hg] & Hn & _).
  cbn [app] in Hg. cbn [requested]. rewrite Hg.
  assert (Hmap : forall attrs, distinct up (map a_name attrs) ->
    (map (fun e => (fst e, snd e)) (rel_map up attrs) = map (fun a => (a_name a, attr_type a)) l <-> by_name up attrs l)).
  { intros attrs Ha. rewrite pairs_id. unfold rel_map.
    assert (P := ncollect_perm (map (fun a => (a_name a, attr_type a)) attrs) ltac:(rewrite distinct_map_attr; exact Ha)).
    assert (Hs := sorted_strong _ (ncollect_sorted up (map (fun a => (a_name a, attr_type a)) attrs))).
    assert (Hback : forall l', StronglySorted (fun a b => name_cmp up (fst a) (fst b) = Lt) (map (fun a => (a_name a, attr_type a)) l') <->
                    StronglySorted (fun a b => name_cmp up (a_name a) (a_name b) = Lt) l').
    { clear. intros l'. induction l' as [|a l' IH]; [split; constructor|]. cbn. split; intros H; inversion H as [|? ? H1 H2]; subst; constructor.
      - apply IH; exact H1.
      - rewrite Forall_map in H2. exact H2.
      - apply IH; exact H1.
      - rewrite Forall_map. exact H2. }
    split.
    - intros Em. rewrite Em in P, Hs. split; [|apply Hback; exact Hs].
      apply Permutation_map_inv in P as (l3 & E3 & P). apply attr_of_map in E3. subst l3. symmetry. exact P.
    - intros [P' S']. apply Hback in S'.
      assert (P'' : Permutation (ncollect up (map (fun a => (a_name a, attr_type a)) attrs)) (map (fun a => (a_name a, attr_type a)) l))
        by (eapply perm_trans; [symmetry; exact P|apply Permutation_map; exact P']).
      revert P'' Hs S'. generalize (ncollect up (map (fun a => (a_name a, attr_type a)) attrs)) (map (fun a => (a_name a, attr_type a)) l).
      clear. intros m1. induction m1 as [|[k v] m1 IH]; intros m2 P S1 S2.
      + apply Permutation_nil in P. congruence.
      + destruct m2 as [|[k' v'] m2]; [symmetry in P; apply Permutation_nil in P; discriminate|].
        inversion S1 as [|? ? S1' F1]; subst. inversion S2 as [|? ? S2' F2]; subst.
        assert (E : (k, v) = (k', v')).
        { assert (I1 : In (k, v) ((k', v') :: m2)) by (eapply Permutation_in; [exact P|left; reflexivity]).
          assert (I2 : In (k', v') ((k, v) :: m1)) by (eapply Permutation_in; [symmetry; exact P|left; reflexivity]).
          destruct I1 as [->|I1]; [reflexivity|]. destruct I2 as [->|I2]; [reflexivity|].
          rewrite Forall_forall in F1, F2. specialize (F2 _ I1). specialize (F1 _ I2). cbn [fst] in F1, F2.
          rewrite (name_cmp_antisym up), F1 in F2. discriminate. }
        injection E as <- <-. f_equal. apply IH; [|assumption|assumption]. eapply Permutation_cons_inv. exact P. }
  split.
  - intros (m & Em & H). destruct (find_rel up rels r) as [attrs|] eqn:F.
    + injection Em as <-. apply find_rel_in in F as (n & Hin & Hk); [|exact Hn]. exists n, attrs. split; [exact Hin|]. split; [exact Hk|].
      apply Hmap; [|exact H]. rewrite Forall_forall in Hd. exact (Hd _ Hin).
    + destruct (enter_none_cases (named up r (flat_map snd rels))) as [E'|[[? E']|E']]; rewrite E' in Em; discriminate.
  - intros (n & attrs & Hin & Hk & H). assert (F : find_rel up rels r = Some attrs) by (apply find_rel_in; eauto). rewrite F.
    eexists. split; [reflexivity|]. apply Hmap; [|exact H]. rewrite Forall_forall in Hd. exact (Hd _ Hin).
Qed.

(** ** The columns of a common table expression *)

Lemma find_column_iff attrs n a : find_column up attrs n = Some a <-> first_named up attrs n a.
Proof.
  unfold first_named. induction attrs as [|b attrs IH]; cbn [find_column].
  - split; [discriminate|]. intros ([|] & l2 & [=] & _).
  - destruct (same (a_name b) n) eqn:E.
    + split.
      * intros [= <-]. exists [], attrs. auto.
      * intros (l1 & l2 & El & Hn & F). destruct l1 as [|c l1]; injection El as <- ->; [reflexivity|]. inversion F; congruence.
    + rewrite IH. split.
      * intros (l1 & l2 & -> & Hn & F). exists (b :: l1), l2. auto.
      * intros (l1 & l2 & El & Hn & F). destruct l1 as [|c l1]; injection El as <- ->; [congruence|]. inversion F; subst. eauto.
Qed.

Lemma pick_iff attrs names : forall l, pick_columns up attrs names = Ok l <->
  Forall2 (fun n b => exists a, first_named up attrs n a /\ b = {| a_name := n; a_type := a_type a; a_null := a_null a |}) names l.
Proof.
  induction names as [|n names IH]; intros l; cbn [pick_columns].
  - split; [intros [= <-]; constructor|]. intros H. inversion H. reflexivity.
  - destruct (find_column up attrs n) as [a|] eqn:F.
    + pose proof (proj1 (find_column_iff _ _ _) F) as F'. destruct (pick_columns up attrs names) as [rest|[]] eqn:P.
      * split.
        -- intros [= <-]. constructor; [eauto|apply IH; reflexivity].
        -- intros H. inversion H as [|? ? ? rest' (a' & Fa & ->) Hr]; subst. apply find_column_iff in Fa.
           apply IH in Hr. congruence.
      * split; [discriminate|]. intros H. inversion H as [|? ? ? rest' _ Hr]; subst. apply IH in Hr. discriminate.
    + split; [discriminate|]. intros H. inversion H as [|? ? ? ? (a' & Fa & _)]; subst. apply find_column_iff in Fa. congruence.
Qed.

Lemma cte_columns x id names q rt :
  infer_cte up x (Cte id (Some names) q) = ok rt <->
  exists r attrs, infer_select up x q = ok r /\
    Forall2 (fun n b => exists a, first_named up (r_attrs r) n a /\ b = {| a_name := n; a_type := a_type a; a_null := a_null a |}) names attrs /\
    rt = {| r_attrs := attrs; r_primary := r_primary r; r_order := r_order r |}.
Proof.
  cbn [infer_cte]. rewrite rbind_ok. split.
  - intros (r & Er & H). apply rbind_ok in H as (attrs & Ea & H). apply pure_ok, pick_iff in Ea. apply ok_inj in H as <-. eauto.
  - intros (r & attrs & Er & Ha & ->). exists r. split; [exact Er|]. apply rbind_ok. exists attrs.
    split; [apply pure_ok, pick_iff; exact Ha|reflexivity].
Qed.

(** ** WITH contexts *)

Definition extends (db : database) (dflt : name) (ids : list name) (x : set_context) : Prop :=
  sorted up (x_tables x) /\ x_namespaces x = namespaces_of up db /\ x_default x = dflt /\
  forall n, nget (x_tables x) n = None <-> Forall (fun m => same n m = false) ids.

Lemma initialize_snoc db dflt l c x :
  initialize up db dflt (l ++ [c]) = ok x <->
  exists x1 t, initialize up db dflt l = ok x1 /\ infer_cte up x1 c = ok t /\ nget (x_tables x1) (cte_id c) = None /\
    x = {| x_namespaces := x_namespaces x1; x_default := x_default x1; x_tables := nput up (x_tables x1) (cte_id c) t |}.
Proof.
  unfold initialize. rewrite fold_err_app. rewrite rbind_ok. split.
  - intros (x1 & E & H). cbn [fold_err] in H. apply rbind_ok in H as (x2 & H & E2). apply ok_inj in E2 as <-.
    apply rbind_ok in H as (t & Et & H). unfold define_relation in H.
    destruct (nget (x_tables x1) (cte_id c)) eqn:G; [discriminate|]. apply ok_inj in H as <-. exists x1, t. auto.
  - intros (x1 & t & E & Et & G & ->). exists x1. split; [exact E|]. cbn [fold_err]. apply rbind_ok. eexists. split; [|reflexivity].
    apply rbind_ok. exists t. split; [exact Et|]. unfold define_relation. rewrite G. reflexivity.
Qed.

Lemma initialize_extends db dflt l : forall x, initialize up db dflt l = ok x ->
  extends db dflt (map cte_id l) x /\ distinct up (map cte_id l).
Proof.
  induction l as [|c l IH] using rev_ind; intros x H.
  - apply ok_inj in H as <-. split; [|constructor]. split; [apply sorted_nil|]. split; [reflexivity|]. split; [reflexivity|].
    intros n. split; [constructor|reflexivity].
  - apply initialize_snoc in H as (x1 & t & E & Et & G & ->). destruct (IH _ E) as [(H1 & H2 & H3 & H4) D]. rewrite map_app. cbn [map].
    split.
    + split; [apply nput_sorted; exact H1|]. split; [exact H2|]. split; [exact H3|]. intros n. cbn [x_tables].
      rewrite nget_nput by exact H1. rewrite Forall_app. destruct (same n (cte_id c)) eqn:S.
      * split; [discriminate|]. intros [_ F]. inversion F; congruence.
      * rewrite H4. split; [auto|tauto].
    + apply distinct_app. split; [exact D|]. split; [constructor; [constructor|constructor]|]. constructor; [|constructor].
      pose proof (proj1 (H4 _) G) as F. rewrite Forall_forall in *. intros m Hm. rewrite name_eqb_sym. apply F. exact Hm.
Qed.

Lemma initialize_iff db dflt l : (exists x, initialize up db dflt l = ok x) <->
  distinct up (map cte_id l) /\
  (forall l1 c l2, l = l1 ++ c :: l2 -> exists x1 t, initialize up db dflt l1 = ok x1 /\ infer_cte up x1 c = ok t).
Proof.
  split.
  - induction l as [|c l IH] using rev_ind; intros [x H].
    + split; [constructor|]. intros l1 d l2 E. destruct l1; discriminate.
    + split; [apply (initialize_extends _ _ _ _ H)|]. intros l1 d l2 E.
      apply initialize_snoc in H as (x1 & t & E1 & Et & _). destruct l2 as [|e l2 _] using rev_ind.
      * apply app_inj_tail in E as [-> ->]. eauto.
      * rewrite app_comm_cons, app_assoc in E. apply app_inj_tail in E as [E _].
        destruct IH as [_ IH]; [eauto|]. exact (IH _ _ _ E).
  - induction l as [|c l IH] using rev_ind; intros [D H]; [eexists; reflexivity|].
    destruct (H l c [] eq_refl) as (x1 & t & E & Et). rewrite map_app in D. apply distinct_app in D as (D1 & _ & D2).
    inversion D2 as [|? ? F _]; subst. eexists. apply initialize_snoc. exists x1, t. split; [exact E|]. split; [exact Et|].
    split; [|reflexivity]. apply (proj1 (initialize_extends _ _ _ _ E)). rewrite Forall_forall in *. intros m Hm.
    rewrite name_eqb_sym. apply F. exact Hm.
Qed.

Lemma initialize_prefix db dflt l1 l2 x : initialize up db dflt (l1 ++ l2) = ok x -> exists x1, initialize up db dflt l1 = ok x1.
Proof. unfold initialize. rewrite fold_err_app. intros H. apply rbind_ok in H as (x1 & E & _). eauto. Qed.

Lemma initialize_visible db dflt l1 c l2 x : initialize up db dflt (l1 ++ c :: l2) = ok x ->
  exists x1 t, initialize up db dflt l1 = ok x1 /\ infer_cte up x1 c = ok t /\ resolve_table up x [cte_id c] = ok t.
Proof.
  revert x. induction l2 as [|d l2 IH] using rev_ind; intros x H.
  - apply initialize_snoc in H as (x1 & t & E & Et & G & ->). destruct (initialize_extends _ _ _ _ E) as [(H1 & _) _].
    exists x1, t. split; [exact E|]. split; [exact Et|]. cbn [resolve_table x_tables]. rewrite nget_nput by exact H1.
    rewrite name_eqb_refl. reflexivity.
  - rewrite app_comm_cons, app_assoc in H. apply initialize_snoc in H as (x2 & t2 & E & Et & G & ->).
    destruct (IH _ E) as (x1 & t & E1 & Et1 & R). exists x1, t. split; [exact E1|]. split; [exact Et1|].
    destruct (initialize_extends _ _ _ _ E) as [(H1 & _ & _ & H4) _]. cbn [resolve_table x_tables] in *.
    rewrite nget_nput by exact H1. destruct (same (cte_id c) (cte_id d)) eqn:S.
    + exfalso. apply H4 in G. rewrite map_app, Forall_app in G. destruct G as [_ G]. inversion G as [|? ? G1 _]; subst.
      rewrite name_eqb_sym in S. congruence.
    + destruct (nget (x_tables x2) (cte_id c)) eqn:T; [exact R|].
      exfalso. apply H4 in T. rewrite map_app, Forall_app in T. destruct T as [_ T]. inversion T as [|? ? T1 _]; subst.
      rewrite name_eqb_refl in T1. discriminate.
Qed.

Lemma initialize_others db dflt l x n : initialize up db dflt l = ok x -> Forall (fun m => same n m = false) (map cte_id l) ->
  resolve_table up x [n] = resolve_table up (set_context_new up db dflt) [n] /\
  (forall t, resolve_table up x [n; t] = resolve_table up (set_context_new up db dflt) [n; t]).
Proof.
  intros E F. destruct (initialize_extends _ _ _ _ E) as [(H1 & H2 & H3 & H4) _]. apply H4 in F.
  cbn [resolve_table set_context_new x_tables x_namespaces x_default SqlNameModel.nget]. rewrite F, H2, H3. split; reflexivity.
Qed.

Lemma initialize_shadow db dflt l x s t : initialize up db dflt l = ok x -> Exists (fun m => same s m = true) (map cte_id l) ->
  resolve_table up x [s; t] = err.
Proof.
  intros E X. destruct (initialize_extends _ _ _ _ E) as [(H1 & H2 & H3 & H4) _]. cbn [resolve_table].
  destruct (nget (x_tables x) s) eqn:G; [reflexivity|]. apply H4 in G. rewrite Exists_exists in X. destruct X as (m & Hm & Hs).
  rewrite Forall_forall in G. rewrite (G m Hm) in Hs. discriminate.
Qed.

End From.
