(** * The SQL properties, as stated in Prop_Sql.v *)

From Coq Require Import Strings.String.
From Coq Require Import Sorting.Permutation Sorting.Sorted.
From Verif Require Import Base SqlNameModel SqlModel SqlNameProofs SqlTypeSpec SqlTypeProofs SqlSpec SqlScope SqlEval SqlSafeSpec SqlPanic
  SqlStmtSpec SqlStmt SqlColumnsSpec SqlColumns SqlFromSpec SqlFrom SqlExamples.
Local Open Scope list_scope.
Local Open Scope Z_scope.

(** ** C26 *)

Lemma names_equivalence_lemma up :
  (forall a, name_eqb up a a = true) /\ (forall a b, name_eqb up a b = true -> name_eqb up b a = true) /\
  (forall a b c, name_eqb up a b = true -> name_eqb up b c = true -> name_eqb up a c = true) /\
  (forall a b, Forall2 (fun c d => up c = up d) a b -> name_eqb up a b = true) /\
  (forall a b, name_eqb up a b = true <-> flat_map up a = flat_map up b).
Proof.
  split; [apply name_eqb_refl|]. split; [intros a b H; rewrite name_eqb_sym; exact H|].
  split; [intros a b c H1 H2; rewrite (name_eqb_congr_l up _ _ c H1); exact H2|]. split; [|apply name_eqb_upper].
  intros a b H. apply name_eqb_upper. unfold upper. induction H; cbn; congruence.
Qed.

Lemma names_order_lemma up :
  (forall a b, name_cmp up a b = Eq <-> name_eqb up a b = true) /\
  (forall a b, name_cmp up b a = CompOpp (name_cmp up a b)) /\
  (forall a b c, name_cmp up a b = Lt -> name_cmp up b c = Lt -> name_cmp up a c = Lt) /\
  (forall a b c, name_eqb up a b = true -> name_cmp up a c = name_cmp up b c).
Proof.
  split; [apply name_cmp_eqb|]. split; [apply name_cmp_antisym|]. split; [apply name_cmp_trans|].
  intros a b c H. apply name_cmp_upper_l, name_eqb_upper, H.
Qed.

Lemma last_entry_none {V} up (l : list (name * V)) k :
  Forall (fun e => name_eqb up k (fst e) = false) l -> last_entry up l k = None.
Proof. induction 1 as [|[k' v] l H Hl IH]; cbn; [reflexivity|]. cbn in H. rewrite IH, H. reflexivity. Qed.

Lemma last_entry_hit {V} up l1 k (v : V) l2 k' :
  Forall (fun e => name_eqb up k' (fst e) = false) l2 -> name_eqb up k' k = true -> last_entry up (l1 ++ (k, v) :: l2) k' = Some v.
Proof.
  intros H1 H2. induction l1 as [|[k0 v0] l1 IH]; cbn.
  - rewrite last_entry_none by exact H1. rewrite H2. reflexivity.
  - rewrite IH. reflexivity.
Qed.

Lemma names_as_keys_lemma (V : Type) up (l : list (name * V)) :
  distinct up (map fst (ncollect up l)) /\
  (forall k, Forall (fun e => name_eqb up k (fst e) = false) l -> nget up (ncollect up l) k = None) /\
  (forall l1 k v l2 k', l = l1 ++ (k, v) :: l2 -> Forall (fun e => name_eqb up k' (fst e) = false) l2 -> name_eqb up k' k = true ->
     nget up (ncollect up l) k' = Some v) /\
  (forall k k', nget up (nremove up (ncollect up l) k) k' = if name_eqb up k' k then None else nget up (ncollect up l) k').
Proof.
  split; [apply sorted_distinct, ncollect_sorted|]. split; [|split].
  - intros k H. rewrite nget_ncollect. apply last_entry_none. exact H.
  - intros l1 k v l2 k' -> H1 H2. rewrite nget_ncollect. apply last_entry_hit; assumption.
  - intros k k'. apply nget_nremove, ncollect_sorted.
Qed.

(** ** C27 *)

Lemma unify_laws_lemma a b c :
  unify a b = unify b a /\ unify a a = Ok a /\
  match unify a b with Ok x => unify x c | Err e => Err e end = match unify b c with Ok x => unify a x | Err e => Err e end.
Proof. split; [apply unify_comm_eq|]. split; [apply unify_idem_eq|]. apply (unify_assoc_eq a b c). Qed.

Lemma unify_meaning_lemma a b :
  (forall c, unify a b = Ok c <-> least_above a b c) /\ ((exists c, unify a b = Ok c) <-> joinable a b) /\
  ((exists n, is_compatible a b = Ok n) <-> joinable a b).
Proof.
  split; [apply unify_iff|]. split; [apply unify_ok_iff|]. rewrite compatible_unify. apply unify_ok_iff.
Qed.

Lemma nullability_lemma :
  (forall t n u m c, unify (TyScalar t n) (TyScalar u m) = Ok c <-> t = u /\ c = TyScalar t (n || m)) /\
  (forall t n u m r, is_compatible (TyScalar t n) (TyScalar u m) = Ok r <-> t = u /\ r = n || m) /\
  (forall l1 l2 r, is_compatible (TyTuple l1) (TyTuple l2) = Ok r -> r = false).
Proof.
  split; [|split; [apply compatible_scalar|apply compatible_tuple_false]].
  intros t n u m c. cbn. destruct (dt_eqb t u) eqn:E.
  - apply dt_eqb_eq in E. split; [intros [= <-]; auto|intros [_ ->]; reflexivity].
  - split; [discriminate|]. intros [-> _]. rewrite dt_eqb_refl in E. discriminate.
Qed.

(** ** C28 *)

Lemma evaluation_type_lemma up w x rels y en e t :
  add_relations up [] rels = Ok y -> conforms rels en -> Forall (fun r => distinct up (map a_name (snd r))) rels ->
  plain true e = true -> infer up x y e = ok t ->
  eval up w en e = Arithmetic \/ exists v, eval up w en e = Val v /\ of_stype v t.
Proof.
  intros Hy Hc Hd Hp Hi. destruct (eval_good up w true rels x y en e t Hy Hc Hd Hp Hi) as [(v & -> & Hv & _)|H]; [right; eauto|auto].
Qed.

Lemma evaluation_not_null_lemma up w x rels y en e t v :
  add_relations up [] rels = Ok y -> conforms rels en -> Forall (fun r => distinct up (map a_name (snd r))) rels ->
  plain false e = true -> infer up x y e = ok (TyScalar t false) -> eval up w en e = Val v -> v <> VNull.
Proof.
  intros Hy Hc Hd Hp Hi Hv. destruct (eval_good up w false rels x y en e _ Hy Hc Hd Hp Hi) as [(v' & E & Hv' & Hn)|H]; [|congruence].
  rewrite Hv in E. injection E as <-. eapply Hn; reflexivity.
Qed.

(** The nullability claim for row values: (NULL, 1) = (NULL, 1) is typed as never NULL. *)
Lemma row_comparison_null_lemma : exists up w x en e,
  plain true e = true /\ infer up x [] e = ok (TyScalar DLogical false) /\ eval up w en e = Val VNull.
Proof.
  exists sx_up, sx_world, sx_ctx, [],
    (ECompare CEqual (ETuple [ELiteral LNull; sx_num "1"]) (ETuple [ELiteral LNull; sx_num "1"])).
  vm_compute. auto.
Qed.

(** Outside the fragment: IS NULL, CASE and IN. *)
Lemma is_null_type_error_lemma : exists up w x en e t,
  infer up x [] e = ok t /\ eval up w en e = TypeError /\ e = EBinary BAdd (EUnary UIsNull (sx_num "1")) (sx_num "1").
Proof. exists sx_up, sx_world, sx_ctx, []. eexists _, _. split; [|split; [|reflexivity]]; vm_compute; reflexivity. Qed.

Lemma case_guard_type_error_lemma : exists up w x en e t,
  infer up x [] e = ok t /\ eval up w en e = TypeError /\ e = ECase None [(sx_num "1", sx_num "2")] None.
Proof. exists sx_up, sx_world, sx_ctx, []. eexists _, _. split; [|split; [|reflexivity]]; vm_compute; reflexivity. Qed.

Lemma in_null_lemma : exists up w x rels y en e,
  add_relations up [] rels = Ok y /\ conforms rels en /\
  infer up x y e = ok (TyScalar DLogical false) /\ eval up w en e = Val VNull /\
  e = EIn (sx_name "label") (SpList [sx_str "a"]).
Proof.
  exists sx_up, sx_world, sx_ctx, sx_rels. eexists. exists sx_env, (EIn (sx_name "label") (SpList [sx_str "a"])).
  split; [vm_compute; reflexivity|]. split; [exact sx_conforms|]. split; [vm_compute; reflexivity|]. split; [vm_compute|]; reflexivity.
Qed.

(** ** C31 *)

Lemma validation_panics_lemma up x y :
  (forall e t, infer up x y e = ok t -> infer up x y (EIn e (SpList [])) = Panic) /\
  infer_set up x (SValues []) = Panic /\
  (forall els, infer up x y (ECase None [] els) = Panic) /\
  (forall e t els, infer up x y e = ok t -> infer up x y (ECase (Some e) [] els) = Panic) /\
  (forall g r es t els, infer up x y g = Ret r -> infer up x y (ETuple es) = ok t ->
     infer up x y (ECase None [(g, ETuple es)] els) = Panic) /\
  (forall n, nget up (x_namespaces x) (x_default x) = None -> nget up (x_tables x) n = None -> resolve_table up x [n] = Panic).
Proof.
  split; [intros e t; apply empty_in_panics|]. split; [reflexivity|]. split; [reflexivity|].
  split; [intros e t els; apply empty_switch_panics|]. split; [intros; eapply row_case_panics; eassumption|].
  intros n; apply default_missing_panics.
Qed.

(** ** C32 *)

Lemma wanted_iff up x y rels c l :
  add_relations up [] rels = Ok y -> Forall (fun e => distinct up (map a_name (snd e))) rels ->
  (wanted up x y rels c l <-> requested up x y c l).
Proof. intros Hy Hd. destruct c as [n|e rename]; [symmetry; apply (star_requested up rels); assumption|reflexivity]. Qed.

Lemma select_list_lemma up x rels y attrs l rt :
  add_relations up [] rels = Ok y -> Forall (fun e => distinct up (map a_name (snd e))) rels ->
  infer_columns up x y attrs (RList l) = ok rt ->
  exists reqs, Forall2 (wanted up x y rels) l reqs /\
    labels up [] (map a_name (concat reqs)) (map a_name (r_attrs rt)) /\
    map (fun a => (a_type a, a_null a)) (r_attrs rt) = map (fun a => (a_type a, a_null a)) (concat reqs).
Proof.
  intros Hy Hd H. apply select_list in H as (reqs & H1 & H2). exists reqs. split; [|exact H2].
  eapply Forall2_weaken; [|exact H1]. intros c r. apply wanted_iff; assumption.
Qed.

Lemma select_list_accepted_lemma up x rels y attrs l :
  add_relations up [] rels = Ok y -> Forall (fun e => distinct up (map a_name (snd e))) rels ->
  ((exists rt, infer_columns up x y attrs (RList l) = ok rt) <-> exists reqs, Forall2 (wanted up x y rels) l reqs).
Proof.
  intros Hy Hd. rewrite select_list_total. split; intros (reqs & H); exists reqs.
  - eapply Forall2_weaken; [|exact H]. intros c r. apply wanted_iff; assumption.
  - eapply Forall2_weaken; [|exact H]. intros c r. apply wanted_iff; assumption.
Qed.

Lemma label_shape_lemma up ns gs : labels up [] ns gs ->
  Forall2 (fun n g => g = n \/ exists k s, decimal (S k) s /\ g = n ++ s) ns gs.
Proof. apply labels_suffix. Qed.

Lemma pairwise_kept_lemma up ns gs : labels up [] ns gs -> distinct up ns -> gs = ns.
Proof. intros H D. eapply labels_distinct; [exact H|exact D|]. apply Forall_forall. constructor. Qed.

Lemma colliding_labels_lemma : exists up x rt a b c,
  infer_columns up x [] [] (RList sx_labels) = ok rt /\ r_attrs rt = [a; b; c] /\ name_eqb up (a_name a) (a_name c) = true.
Proof. exists sx_up, sx_ctx. eexists _, _, _, _. split; [vm_compute; reflexivity|]. split; [cbn; reflexivity|]. vm_compute. reflexivity. Qed.

(** ** C33 *)

Lemma values_lemma up x rows rt : infer_set up x (SValues rows) = ok rt ->
  (exists r rest, rows = r :: rest /\ List.length (r_attrs rt) = fold_left Nat.min (map (@List.length expr) rest) (List.length r)) /\
  forall i b, nth_error (r_attrs rt) i = Some b ->
    (exists k, a_name b = lit "_col" ++ k /\ (k = lit "0" /\ i = 0%nat \/ decimal i k)) /\
    Forall (fun row => exists e n, nth_error row i = Some e /\ infer up x [] e = ok (TyScalar (a_type b) n) /\ (n = true -> a_null b = true)) rows /\
    (a_null b = true -> Exists (fun row => exists e, nth_error row i = Some e /\ infer up x [] e = ok (TyScalar (a_type b) true)) rows).
Proof.
  intros H. change (values_type (infer up x []) rows = ok rt) in H. apply (values_ok up) in H as [H1 H2]. split; [exact H1|]. intros i b Hb.
  destruct (H2 i b Hb) as (A & B & C). split; [|auto]. rewrite A. eexists. split; [reflexivity|].
  destruct i as [|i]; [left; split; reflexivity|right]. apply (show_decimal up). apply Nat.lt_0_succ.
Qed.

Lemma values_excess_lemma up x rows1 row extra rows2 :
  (exists r0, In r0 rows1 /\ (List.length r0 <= List.length row)%nat) ->
  infer_set up x (SValues (rows1 ++ (row ++ extra) :: rows2)) = infer_set up x (SValues (rows1 ++ row :: rows2)).
Proof. intros H. exact (values_excess up (infer up x []) rows1 row extra rows2 H). Qed.

(** ** C34 *)

Lemma delete_is_null_lemma up x q e :
  validate_delete up x {| d_table := q; d_where := Some (EUnary UIsNull e) |} = ok tt ->
  exists t y null, resolve_table up x q = ok t /\ add_relations up [] [(last q [], r_attrs t)] = Ok y /\
    infer up x y e = ok (TyScalar DLogical null).
Proof.
  intros H. apply delete_iff in H as (t & q' & id & y & R & E & A & F). cbn in R, E, F. destruct F as [null F].
  apply is_null_iff in F as (d & n & Hi & [= <- <-]). exists t, y, null. split; [exact R|]. split; [|exact Hi].
  rewrite E, last_last. exact A.
Qed.

(** ** C35 *)

Lemma with_same_lemma up x ctes ctes' e order order' lim lim' rt rt' :
  infer_select up x (Select ctes e order lim) = ok rt -> infer_select up x (Select ctes' e order' lim') = ok rt' -> rt = rt'.
Proof. intros H1 H2. apply with_ignored in H1, H2. rewrite H1 in H2. apply ok_inj in H2. exact H2. Qed.

(** ** C36 *)

Lemma schema_history_lemma up l : exists db rs,
  creates up database_new l = Ret (db, rs) /\ List.length rs = List.length l /\
  (forall l1 n l2, l = l1 ++ n :: l2 ->
     (nth_error rs (List.length l1) = Some (Ok tt) <-> Forall (fun m => name_eqb up n m = false) l1)) /\
  distinct up (map fst db) /\
  (forall k sc, In (k, sc) db <->
     (exists l1 l2, l = l1 ++ k :: l2 /\ Forall (fun m => name_eqb up k m = false) l1) /\ s_name sc = k /\ s_objects sc = []) /\
  (forall s o, describe up db s o = Err tt).
Proof.
  destruct (creates_spec up l [] database_new (catalog_nil up)) as (db & rs & E & C & L & H). exists db, rs.
  split; [exact E|]. split; [exact L|]. split; [exact H|]. split; [apply sorted_distinct, C|]. split.
  - intros k sc. rewrite (proj2 C). unfold first_spelling. cbn [app]. split.
    + intros [H1 ->]. auto.
    + intros (H1 & H2 & H3). split; [exact H1|]. destruct sc as [n o]. cbn in H2, H3. subst. reflexivity.
  - intros s o. eapply describe_fails. exact C.
Qed.

Lemma create_schema_step_lemma up l db rs n :
  creates up database_new l = Ret (db, rs) ->
  exists db' r, create_schema up db n = Ret (db', r) /\
    (forall m, name_eqb up n m = false -> nget up db' m = nget up db m) /\ (r = Err tt -> db' = db).
Proof.
  intros E. destruct (creates_spec up l [] database_new (catalog_nil up)) as (db1 & rs1 & E1 & C & _). rewrite E in E1.
  injection E1 as <- <-. destruct (create_schema_spec up _ _ n C) as (db' & r & E2 & _ & _ & H3 & H4).
  exists db', r. split; [exact E2|]. split; [exact H3|]. intros ->. apply H4. discriminate.
Qed.

(** ** C49 *)

Lemma with_context_lemma up db dflt l x : initialize up db dflt l = ok x ->
  distinct up (map cte_id l) /\
  (forall l1 c l2, l = l1 ++ c :: l2 ->
     exists x1 t, initialize up db dflt l1 = ok x1 /\ infer_cte up x1 c = ok t /\ resolve_table up x [cte_id c] = ok t) /\
  (forall n, Forall (fun c => name_eqb up n (cte_id c) = false) l ->
     resolve_table up x [n] = resolve_table up (set_context_new up db dflt) [n] /\
     forall t, resolve_table up x [n; t] = resolve_table up (set_context_new up db dflt) [n; t]) /\
  (forall s t, Exists (fun c => name_eqb up s (cte_id c) = true) l -> resolve_table up x [s; t] = err).
Proof.
  intros E. split; [apply (initialize_extends up _ _ _ _ E)|]. split; [|split].
  - intros l1 c l2 ->. eapply initialize_visible. exact E.
  - intros n H. eapply initialize_others; [exact E|]. rewrite Forall_map. exact H.
  - intros s t H. eapply initialize_shadow; [exact E|]. rewrite Exists_exists in *. destruct H as (c & Hc & Hs).
    exists (cte_id c). split; [apply in_map; exact Hc|exact Hs].
Qed.

(** ** C29 *)

Lemma assignable_lemma a c : is_assignable_to a c = true <-> takes c (a_type a) (a_null a).
Proof.
  unfold is_assignable_to, takes. rewrite andb_true_iff, orb_true_iff, negb_true_iff. destruct (a_type a), (a_type c); cbn;
    destruct (a_null a), (a_null c); cbn; intuition (auto; congruence).
Qed.

(** ** Guards *)

Lemma guards_reach f g l1 e r l2 : f e = Panic -> Forall (fun w => exists t u, f (fst w) = ok t /\ g t = Ok u) l1 ->
  guards f g (l1 ++ (e, r) :: l2) = Panic.
Proof.
  intros P. induction 1 as [|[w b] l (t & u & E & G) _ IH]; cbn [app guards fst] in *.
  - rewrite P. reflexivity.
  - rewrite E. cbn [rbind bind ok]. rewrite G. exact IH.
Qed.

Lemma guards_stop f g l1 s b l2 l2' : (f s = err \/ exists t, f s = ok t /\ g t = Err tt) ->
  guards f g (l1 ++ (s, b) :: l2) = guards f g (l1 ++ (s, b) :: l2').
Proof.
  intros H. induction l1 as [|[w c] l IH]; cbn [app guards].
  - destruct H as [-> |(t & -> & G)]; [reflexivity|]. cbn [rbind bind ok]. rewrite G. reflexivity.
  - destruct (f w) as [[t|]| |]; cbn [rbind bind]; try reflexivity. destruct (g t); [exact IH|reflexivity].
Qed.

Lemma bodies_rest_snd f l : forall l' acc, map snd l = map snd l' -> bodies_rest f acc l = bodies_rest f acc l'.
Proof.
  induction l as [|[a b] l IH]; intros [|[a' b'] l'] acc E; try discriminate; [reflexivity|]. cbn [map snd] in E. injection E as -> E.
  cbn [bodies_rest]. destruct (f b') as [[t|]| |]; cbn [rbind bind]; try reflexivity.
  destruct (case_step acc t); cbn [rbind bind pure]; [apply IH; exact E|reflexivity].
Qed.

Lemma bodies_snd f l l' : map snd l = map snd l' -> bodies f l = bodies f l'.
Proof.
  destruct l as [|[a b] l], l' as [|[a' b'] l']; intros E; try discriminate; [reflexivity|]. cbn [map snd] in E. injection E as -> E.
  cbn [bodies]. destruct (f b') as [[t|]| |]; cbn [rbind bind]; try reflexivity. apply bodies_rest_snd. exact E.
Qed.

Lemma guard_panics_lemma up x y whens1 g r whens2 els : infer up x y g = Panic ->
  (Forall (fun w => exists n, infer up x y (fst w) = ok (TyScalar DLogical n)) whens1 ->
   infer up x y (ECase None (whens1 ++ (g, r) :: whens2) els) = Panic) /\
  (forall e te, infer up x y e = ok te ->
   Forall (fun w => exists t, infer up x y (fst w) = ok t /\ is_compatible t te = Ok true) whens1 ->
   infer up x y (ECase (Some e) (whens1 ++ (g, r) :: whens2) els) = Panic).
Proof.
  intros P. split.
  - intros F. cbn [infer]. rewrite guards_reach; [reflexivity|exact P|]. eapply Forall_impl; [|exact F].
    intros w (n & E). exists (TyScalar DLogical n), tt. split; [exact E|reflexivity].
  - intros e te E F. cbn [infer]. rewrite E. cbn [rbind bind ok]. rewrite guards_reach; [reflexivity|exact P|]. eapply Forall_impl; [|exact F].
    intros w (t & Et & C). exists t, tt. split; [exact Et|]. rewrite C. reflexivity.
Qed.

Lemma guard_hides_lemma up x y whens1 s b rest rest' els : map snd rest = map snd rest' ->
  (infer up x y s = err \/ (exists t, infer up x y s = ok t /\ forall n, t <> TyScalar DLogical n) ->
   infer up x y (ECase None (whens1 ++ (s, b) :: rest) els) = infer up x y (ECase None (whens1 ++ (s, b) :: rest') els)) /\
  (forall e te, infer up x y e = ok te ->
   infer up x y s = err \/ (exists t, infer up x y s = ok t /\ is_compatible t te <> Ok true) ->
   infer up x y (ECase (Some e) (whens1 ++ (s, b) :: rest) els) = infer up x y (ECase (Some e) (whens1 ++ (s, b) :: rest') els)).
Proof.
  intros M. assert (M' : map snd (whens1 ++ (s, b) :: rest) = map snd (whens1 ++ (s, b) :: rest')).
  { rewrite !map_app. cbn [map]. rewrite M. reflexivity. }
  split.
  - intros H. cbn [infer]. rewrite (guards_stop _ _ whens1 s b rest rest'), (bodies_snd _ _ _ M'); [reflexivity|].
    destruct H as [H|(t & H & N)]; [left; exact H|right]. exists t. split; [exact H|].
    destruct t as [|[]]; try reflexivity. exfalso. eapply N. reflexivity.
  - intros e te E H. cbn [infer]. rewrite E. cbn [rbind bind ok].
    rewrite (guards_stop _ _ whens1 s b rest rest'), (bodies_snd _ _ _ M'); [reflexivity|].
    destruct H as [H|(t & H & N)]; [left; exact H|right]. exists t. split; [exact H|].
    destruct (is_compatible t te) as [[]|]; try reflexivity. exfalso. apply N. reflexivity.
Qed.
