(** * The complaints about INSERT, UPDATE and DELETE, and about tables *)

From Coq Require Import Strings.String.
From Verif Require Import Base StrModel SqlNameModel SqlModel SqlNameProofs SqlTypeProofs SqlSpec SqlScope SqlEval
  SqlInd SqlSafeSpec SqlPanic SqlStmtSpec SqlStmt SqlColumnsSpec SqlColumns SqlFromSpec SqlFrom SqlRules SqlRulesBase
  SqlRulesNames SqlRulesProofs SqlMessageModel SqlBlame SqlMessageDrop SqlMessageBase SqlMessageProofs.
Local Open Scope list_scope.

Local Arguments rbind : simpl never.
Local Arguments mbind : simpl never.
Local Arguments drop : simpl never.

Lemma fold_say_map {S A B} (f : S -> B -> mres S) (h : A -> B) l : forall s,
  fold_say f s (map h l) = fold_say (fun s a => f s (h a)) s l.
Proof.
  induction l as [|a l IH]; intros s; cbn [fold_say map]; [reflexivity|].
  destruct (f s (h a)) as [[s'|c]| |]; unfold mbind; cbn; auto.
Qed.

Section Targets.
Context (up : Z -> list Z).
Notation same := (name_eqb up).

(** ** A column that is to receive a value *)

Definition seen (given : list name) (n : name) : bool := existsb (same n) given.

Lemma seen_true given n : seen given n = true <-> Exists (fun m => same n m = true) given.
Proof. unfold seen. rewrite existsb_exists, Exists_exists. reflexivity. Qed.

Lemma seen_false given n : seen given n = false <-> Forall (fun m => same n m = false) given.
Proof.
  unfold seen. induction given as [|m given IH]; cbn; [split; auto|]. rewrite orb_false_iff, IH.
  split; [intros []; constructor; assumption|]. intros H; inversion H; auto.
Qed.

Lemma row_map_none t n : nget up (row_type_map up t) n = None <-> named up n (r_attrs t) = [].
Proof.
  unfold row_type_map. rewrite nget_collect_none, map_map, named_nil. cbn. rewrite Forall_map. reflexivity.
Qed.

Lemma target_cases t given n d null tw ab mf :
  let wrong := wrong_target up (r_attrs t) given n d null tw ab mf in
  let right := right_target up (r_attrs t) given n d null in
  if seen given n then (forall c, wrong c <-> c = tw) /\ ~ right else
  match nget up (row_type_map up t) n with
  | None => (forall c, wrong c <-> c = ab) /\ ~ right
  | Some (ct, cn) => if negb (dt_eqb ct d) || (null && negb cn) then (forall c, wrong c <-> c = mf) /\ ~ right
                     else (forall c, ~ wrong c) /\ right
  end.
Proof.
  cbn zeta. destruct (seen given n) eqn:Se.
  - apply seen_true in Se. assert (N : ~ Forall (fun m => same n m = false) given).
    { intros F. apply seen_false in F. apply seen_true in Se. congruence. }
    split; [|intros [F _]; exact (N F)]. intros c. split; [intros H; inversion H; subst; tauto|intros ->; constructor; exact Se].
  - assert (F := proj1 (seen_false _ _) Se). assert (N : ~ Exists (fun m => same n m = true) given).
    { intros E. apply seen_true in E. congruence. }
    destruct (nget up (row_type_map up t) n) as [[ct cn]|] eqn:G.
    + assert (Nn : named up n (r_attrs t) <> []) by (intros E; apply row_map_none in E; congruence).
      assert (U : forall a, column_of up (r_attrs t) n a -> ct = a_type a /\ cn = a_null a).
      { intros a Ha. assert (Some (a_type a, a_null a) = Some (ct, cn)) as [= -> ->]; [|auto].
        rewrite <- G. symmetry. apply row_map_get. eauto. }
      apply row_map_get in G as (a & Ha & [= -> ->]).
      assert (T : negb (dt_eqb (a_type a) d) || (null && negb (a_null a)) = false <-> takes a d null).
      { unfold takes. pose proof (dt_eqb_eq (a_type a) d) as E. destruct (dt_eqb (a_type a) d); cbn.
        - destruct null, (a_null a); cbn; intuition congruence.
        - split; [discriminate|]. intros [K _]. apply E in K. discriminate. }
      destruct (negb _ || _) eqn:X.
      * assert (NT : ~ takes a d null) by (intros H; apply T in H; congruence).
        split.
        -- intros c. split; [intros H; inversion H; subst; tauto|]. intros ->. econstructor; eassumption.
        -- intros (_ & b & Hb & Tb). destruct (U b Hb) as [E1 E2]. unfold takes in *. rewrite E1, E2 in NT. tauto.
      * assert (TT := proj1 T eq_refl). split; [|split; [exact F|eauto]].
        intros c H; inversion H as [|? ?|b ? Hb Tb]; subst; try tauto. destruct (U b Hb) as [E1 E2]. apply Tb. unfold takes in *. rewrite <- E1, <- E2. exact TT.
    + assert (Nn := proj1 (row_map_none t n) G). split.
      * intros c. split; [intros H; inversion H as [| |b ? Hb]; subst; try tauto|intros ->; constructor; assumption].
        assert (nget up (row_type_map up t) n = Some (a_type b, a_null b)) by (apply row_map_get; eauto). congruence.
      * intros (_ & b & Hb & _). assert (nget up (row_type_map up t) n = Some (a_type b, a_null b)) by (apply row_map_get; eauto). congruence.
Qed.

(** ** INSERT *)

(** The columns that have no value yet. *)
Definition left_over (t : row_type) (given : list name) : nmap (data_type * bool) :=
  filter (fun e => negb (seen given (fst e))) (row_type_map up t).

Lemma filter_sorted {V} f (m : nmap V) : sorted up m -> sorted up (filter f m).
Proof.
  induction 1 as [|k v m Hb Hs IH]; cbn; [constructor|]. destruct (f (k, v)); [|exact IH]. constructor; [|exact IH].
  unfold below in *. rewrite Forall_forall in *. intros b H. apply filter_In in H as [H _]. auto.
Qed.

Lemma left_over_sorted t given : sorted up (left_over t given).
Proof. apply filter_sorted, row_map_sorted. Qed.

Lemma left_over_get t given n : nget up (left_over t given) n = if seen given n then None else nget up (row_type_map up t) n.
Proof.
  destruct (seen given n) eqn:Se.
  - apply nget_none; [apply left_over_sorted|]. intros k v H. apply filter_In in H as [_ H]. cbn in H. destruct (same n k) eqn:E; [|reflexivity].
    apply negb_true_iff, seen_false in H. apply seen_true in Se. rewrite Forall_forall in H. apply Exists_exists in Se as (m & Hm & Sm).
    specialize (H m Hm). rewrite <- (name_eqb_congr_l up n k m E) in H. congruence.
  - destruct (nget up (row_type_map up t) n) as [v|] eqn:G.
    + apply nget_in in G as (k & I & E); [|apply row_map_sorted]. apply nget_in; [apply left_over_sorted|]. exists k. split; [|exact E].
      apply filter_In. split; [exact I|]. cbn. apply negb_true_iff. unfold seen in *. rewrite <- Se.
      clear Se. induction given as [|m given IH]; cbn; [reflexivity|]. rewrite IH. f_equal. symmetry. apply name_eqb_congr_l. exact E.
    + apply nget_none; [apply left_over_sorted|]. intros k v H. apply filter_In in H as [H _].
      revert k v H. apply nget_none; [apply row_map_sorted|exact G].
Qed.

Lemma left_over_remove t given n : nremove up (left_over t given) n = left_over t (n :: given).
Proof.
  apply (sorted_ext up fst); [apply sorted_strong, nremove_sorted, left_over_sorted|apply sorted_strong, left_over_sorted|].
  intros e. rewrite nremove_in; [|apply left_over_sorted]. unfold left_over. rewrite !filter_In. unfold seen; cbn [existsb].
  rewrite negb_orb, andb_true_iff, (name_eqb_sym up (fst e) n). destruct (same n (fst e)); cbn; intuition congruence.
Qed.

Lemma left_over_nil t : left_over t [] = row_type_map up t.
Proof. unfold left_over. cbn. induction (row_type_map up t) as [|e l IH]; cbn; congruence. Qed.

Lemma nput_map {V W} (h : V -> W) (m : nmap V) k v :
  nput up (map (fun e => (fst e, h (snd e))) m) k (h v) = map (fun e => (fst e, h (snd e))) (nput up m k v).
Proof.
  induction m as [|[k1 v1] m IH]; cbn; [reflexivity|]. destruct (name_cmp up k k1); cbn; [reflexivity|reflexivity|]. f_equal. exact IH.
Qed.

Lemma ncollect_map {V W} (h : V -> W) (l : list (name * V)) :
  ncollect up (map (fun e => (fst e, h (snd e))) l) = map (fun e => (fst e, h (snd e))) (ncollect up l).
Proof.
  unfold ncollect. change (@nil (name * W)) with (map (fun e : name * V => (fst e, h (snd e))) []). generalize (@nil (name * V)).
  induction l as [|[k v] l IH]; intros m; cbn; [reflexivity|]. rewrite <- IH. f_equal. apply nput_map.
Qed.

Definition as_entry (a : attribute) : name * (data_type * bool) := (a_name a, (a_type a, a_null a)).

Lemma row_map_starred t cols : row_type_map up t = map as_entry cols <-> starred up (r_attrs t) cols.
Proof.
  rewrite <- starred_ok.
  assert (E : rel_map up (r_attrs t) = map (fun e => (fst e, (fun v => TyScalar (fst v) (snd v)) (snd e))) (row_type_map up t)).
  { unfold rel_map, row_type_map. rewrite <- (ncollect_map (fun v : data_type * bool => TyScalar (fst v) (snd v))), map_map. reflexivity. }
  rewrite E. generalize (row_type_map up t). clear E. intros m. split.
  - intros ->. rewrite map_map. apply map_ext. intros a. reflexivity.
  - revert cols. induction m as [|[k [d n]] m IH]; intros [|a cols] H; cbn in *; try discriminate; [reflexivity|].
    injection H as -> -> -> H. f_equal. apply IH. exact H.
Qed.

Lemma has_columns t : exists cols, row_type_map up t = map as_entry cols.
Proof.
  generalize (row_type_map up t). intros m. induction m as [|[k [d n]] m [cols IH]]; [exists []; reflexivity|].
  exists ({| a_name := k; a_type := d; a_null := n |} :: cols). cbn. f_equal. exact IH.
Qed.

Lemma missing_first given cols c :
  match find (fun e : name * (data_type * bool) => negb (snd (snd e))) (filter (fun e => negb (seen given (fst e))) (map as_entry cols)) with
  | Some e => merr (CMissing (fst e))
  | None => mok tt
  end = merr c <->
  at_first (fun a => a_null a = true \/ Exists (fun m => same (a_name a) m = true) given)
           (fun a c => a_null a = false /\ Forall (fun m => same (a_name a) m = false) given /\ c = CMissing (a_name a)) cols c.
Proof.
  induction cols as [|a cols IH]; cbn [map filter find].
  - split; [discriminate|]. intros H. destruct (at_first_nil _ _ _ H).
  - rewrite at_first_cons. cbn [as_entry fst]. destruct (seen given (a_name a)) eqn:Se; cbn [negb].
    + apply (iff_trans IH). apply seen_true in Se. split; [auto|]. intros [(_ & F & _)|[_ H]]; [|exact H].
      apply seen_false in F. apply seen_true in Se. congruence.
    + cbn [find]. change (snd (snd (as_entry a))) with (a_null a). apply seen_false in Se. destruct (a_null a) eqn:En; cbn [negb].
      * apply (iff_trans IH). split; [auto|]. intros [K|[_ H]]; [destruct K; discriminate|exact H].
      * split.
        -- intros H. left. injection H as <-. auto.
        -- intros [(_ & _ & ->)|[[E|E] _]]; [reflexivity|discriminate|]. apply seen_true in E. apply seen_false in Se. congruence.
Qed.

Definition missing_say (m : nmap (data_type * bool)) : mres unit :=
  match find (fun e => negb (snd (snd e))) m with
  | Some e => merr (CMissing (fst e))
  | None => mok tt
  end.

Lemma values_wrong q t l c : forall given,
  (m <-! fold_say (fun m e => insert_column_say up q m (fst e) (snd e)) (left_over t given) l ;; missing_say m) = merr c <->
  wrong_values up q (r_attrs t) given l c.
Proof.
  induction l as [|[v n] l IH]; intros given; cbn [fold_say].
  - rewrite mbind_err. destruct (has_columns t) as [cols Ec]. unfold left_over, missing_say. split.
    + intros [H|(m & E & H)]; [discriminate|]. apply mok_inj in E. subst m. rewrite Ec in H. apply missing_first in H.
      econstructor; [apply row_map_starred; exact Ec|exact H].
    + intros H. inversion H as [| |? cols' ? S' H']; subst. apply row_map_starred in S'. right. eexists. split; [reflexivity|].
      rewrite S'. apply missing_first. exact H'.
  - pose proof (target_cases t given n (a_type v) (a_null v) (CColumnUndefined n q) (CColumnUndefined n q) (CCannotAssign (a_name v) n)) as T.
    cbn zeta in T.
    assert (E : insert_column_say up q (left_over t given) v n =
                match (if seen given n then None else nget up (row_type_map up t) n) with
                | None => merr (CColumnUndefined n q)
                | Some (ct, cn) => if negb (dt_eqb ct (a_type v)) || (a_null v && negb cn) then merr (CCannotAssign (a_name v) n)
                                   else mok (left_over t (n :: given))
                end).
    { unfold insert_column_say. rewrite left_over_get. destruct (seen given n); [reflexivity|].
      destruct (nget up (row_type_map up t) n) as [[ct cn]|]; [|reflexivity]. rewrite (andb_comm (a_null v)), left_over_remove. reflexivity. }
    cbn [fst snd]. rewrite E. clear E.
    assert (B : forall k, (forall c, wrong_target up (r_attrs t) given n (a_type v) (a_null v) (CColumnUndefined n q) (CColumnUndefined n q) (CCannotAssign (a_name v) n) c <-> c = k) /\
                  ~ right_target up (r_attrs t) given n (a_type v) (a_null v) ->
                (merr k = merr c :> mres unit <-> wrong_values up q (r_attrs t) given ((v, n) :: l) c)).
    { intros k [W R]. split.
      - intros H. injection H as <-. apply wq_here, W. reflexivity.
      - intros H. inversion H as [? ? ? ? ? Hw|? ? ? ? ? Hr|]; subst; [apply W in Hw; subst; reflexivity|contradiction]. }
    destruct (seen given n); [apply B; exact T|]. destruct (nget up (row_type_map up t) n) as [[ct cn]|]; [|apply B; exact T].
    destruct (negb _ || _); [apply B; exact T|]. destruct T as [W R]. unfold mbind at 2. cbn. rewrite IH. split.
    + intros H. apply wq_next; assumption.
    + intros H. inversion H as [? ? ? ? ? Hw|? ? ? ? ? Hr Hn|]; subst; [destruct (W _ Hw)|exact Hn].
Qed.

(** ** UPDATE *)

Definition marks (s : nmap unit) (given : list name) : Prop :=
  sorted up s /\ forall n, nget up s n = if seen given n then Some tt else None.

Lemma marks_nil : marks [] [].
Proof. split; [constructor|reflexivity]. Qed.

Lemma marks_put s given n : marks s given -> marks (nput up s n tt) (n :: given).
Proof.
  intros [Hs H]. split; [apply nput_sorted; exact Hs|]. intros k. rewrite nget_nput by exact Hs. unfold seen in *. cbn. rewrite H.
  destruct (same k n); reflexivity.
Qed.

Lemma assigned_step t d null s given n c : marks s given ->
  (assign_column_say up (row_type_map up t) d null s n = merr c <->
   wrong_target up (r_attrs t) given n d null (CAssignedTwice n) (CAssignUndefined n) (CAssignIncompatible n) c) /\
  (right_target up (r_attrs t) given n d null <-> assign_column_say up (row_type_map up t) d null s n = mok (nput up s n tt)) /\
  forall s', assign_column_say up (row_type_map up t) d null s n = mok s' -> s' = nput up s n tt.
Proof.
  intros [Hs H]. pose proof (target_cases t given n d null (CAssignedTwice n) (CAssignUndefined n) (CAssignIncompatible n)) as T. cbn zeta in T.
  unfold assign_column_say. rewrite H. destruct (seen given n).
  - destruct T as [W R]. rewrite W. split; [split; [intros [= <-]; reflexivity|intros ->; reflexivity]|].
    split; [split; [tauto|discriminate]|discriminate].
  - destruct (nget up (row_type_map up t) n) as [[ct cn]|]; [destruct (negb _ || _)|].
    + destruct T as [W R]. rewrite W. split; [split; [intros [= <-]; reflexivity|intros ->; reflexivity]|].
      split; [split; [tauto|discriminate]|discriminate].
    + destruct T as [W R]. split; [split; [discriminate|intros Hw; destruct (W _ Hw)]|].
      split; [split; auto|]. intros s' E. apply mok_inj in E. auto.
    + destruct T as [W R]. rewrite W. split; [split; [intros [= <-]; reflexivity|intros ->; reflexivity]|].
      split; [split; [tauto|discriminate]|discriminate].
Qed.

Lemma assigned_wrong t d null cols c : forall s given, marks s given ->
  (fold_say (fun s n => assign_column_say up (row_type_map up t) d null s n) s cols = merr c <->
   wrong_assigned up (r_attrs t) d null given cols c).
Proof.
  induction cols as [|n cols IH]; intros s given M; cbn [fold_say].
  - split; [discriminate|]. intros H; inversion H.
  - destruct (assigned_step t d null s given n c M) as (W & R & U). rewrite mbind_err, W. split.
    + intros [H|(s' & E & H)]; [apply wn_here; exact H|]. assert (s' = nput up s n tt) as -> by (apply U; exact E).
      apply wn_next; [apply R; exact E|]. apply (IH _ _ (marks_put s given n M)). exact H.
    + intros H. inversion H as [? ? ? ? Hw|? ? ? ? Hr Hw]; subst; [left; exact Hw|]. right. eexists. split; [apply R; exact Hr|].
      apply (IH _ _ (marks_put s given n M)). exact Hw.
Qed.

Lemma assigned_right t d null cols : forall s given, marks s given ->
  (forall s', fold_say (fun s n => assign_column_say up (row_type_map up t) d null s n) s cols = mok s' ->
     exists given', right_assigned up (r_attrs t) d null given cols given' /\ marks s' given') /\
  (forall given', right_assigned up (r_attrs t) d null given cols given' ->
     exists s', fold_say (fun s n => assign_column_say up (row_type_map up t) d null s n) s cols = mok s' /\ marks s' given').
Proof.
  induction cols as [|n cols IH]; intros s given M; cbn [fold_say].
  - split.
    + intros s' E. apply mok_inj in E. subst s'. exists given. split; [constructor|exact M].
    + intros given' H. inversion H; subst. exists s. auto.
  - destruct (assigned_step t d null s given n CColumnCount M) as (_ & R & U). destruct (IH _ _ (marks_put s given n M)) as [A B]. split.
    + intros s' H. apply mbind_ok in H as (s1 & E & H). assert (s1 = nput up s n tt) as -> by (apply U; exact E).
      apply A in H as (given' & H & M'). exists given'. split; [|exact M']. econstructor; [apply R; exact E|exact H].
    + intros given' H. inversion H as [|? ? ? ? Hr Hn]; subst. apply B in Hn as (s' & E & M'). exists s'. split; [|exact M'].
      apply mbind_ok. eexists. split; [apply R; exact Hr|exact E].
Qed.

End Targets.

Section Statements.
Context (up : Z -> list Z) (x : set_context) (g : Prop) (Hx : g -> registered up x).
Notation agree := (agree g).
Notation same := (name_eqb up).

Context (tables : list name -> list attribute -> Prop)
  (Ht : forall q attrs, (exists r, resolve_table up x q = ok r /\ r_attrs r = attrs) <-> tables q attrs).
Context (no_table : list name -> complaint -> Prop) (Hn : forall q c, resolve_say up x q = merr c <-> no_table q c).

Notation typed := (typed up tables).
Notation wrong := (wrong up tables no_table).
Notation scope rels y := (add_relations up [] rels = Ok y).

Notation assign y t := (fun assigned a =>
  st <-! infer_say up x y (snd a) ;;
  '(d, n) <-! or_say CAssignScalar (scalar st) ;;
  fold_say (fun assigned c => assign_column_say up (row_type_map up t) d n assigned c) assigned (fst a)).

Lemma any_wrong e : WE up x g tables no_table e.
Proof. intros rels y Sc c. apply infer_wrong; assumption. Qed.

Lemma scalar_is t d n : scalar t = Ok (d, n) <-> t = TyScalar d n.
Proof. destruct t; cbn; split; congruence. Qed.

Lemma assignments_wrong rels y t l c : scope rels y -> forall s given, marks up s given ->
  agree (forallb (fun a => safe (snd a)) l) (fold_say (assign y t) s l = merr c)
    (wrong_assignments up tables no_table rels (r_attrs t) given l c).
Proof.
  intros Sc. induction l as [|[cols e] l IH]; intros s given M.
  - apply agree_iff. cbn. split; [discriminate|]. intros H; inversion H.
  - destruct (unfit_agree up x g Hx tables Ht no_table rels y e is_scalar scalar CAssignScalar (any_wrong e) Sc scalar_err c) as [U1 U2].
    cbn [fold_say forallb fst snd]. split.
    + intros H. apply mbind_err in H as [H|(s1 & E & H)].
      * apply mbind_err in H as [H|(st & Et & H)]; [apply wa_expr, U1, mbind_err; left; exact H|].
        apply mbind_err in H as [H|([d n] & Es & H)]; [apply wa_expr, U1, mbind_err; right; exists st; split; assumption|].
        apply say_ok, scalar_is in Es. subst st. eapply wa_column; [eapply say_typed; eassumption|].
        apply (assigned_wrong up t d n cols c s given M). exact H.
      * apply mbind_ok in E as (st & Et & E). apply mbind_ok in E as ([d n] & Es & E). apply say_ok, scalar_is in Es. subst st.
        apply (assigned_right up t d n cols s given M) in E as (given' & R & M').
        eapply wa_next; [eapply say_typed; eassumption|exact R|]. apply (IH s1 given' M'). exact H.
    + intros Hg Hs H. apply andb_true_iff in Hs as [S1 S2]. apply mbind_err. inversion H as [? ? ? ? ? Hu|? ? ? ? d n ? T W|? ? ? ? d n given' ? T R W]; subst.
      * left. apply (U2 Hg S1) in Hu. apply mbind_err in Hu as [Hu|(st & Et & Hu)]; apply mbind_err; [left; exact Hu|right; exists st; split; [exact Et|]].
        apply mbind_err. left. apply say_err in Hu as [Hu ->]. apply say_err. auto.
      * left. apply mbind_err. right. exists (TyScalar d n). split; [eapply typed_say; eassumption|]. apply mbind_err. right. exists (d, n).
        split; [reflexivity|]. apply (assigned_wrong up t d n cols c s given M). exact W.
      * right. apply (assigned_right up t d n cols s given M) in R as (s1 & E & M'). exists s1. split.
        -- apply mbind_ok. exists (TyScalar d n). split; [eapply typed_say; eassumption|]. apply mbind_ok. exists (d, n). split; [reflexivity|exact E].
        -- apply (IH s1 given' M'); assumption.
Qed.

Lemma assign_drop y t l : forall s, drop (fold_say (assign y t) s l) =
  fold_err (fun assigned a =>
    st <-? infer up x y (snd a) ;;
    '(d, n) <-? pure (scalar st) ;;
    fold_err (fun assigned c => pure (assign_column up (row_type_map up t) d n assigned c)) assigned (fst a)) s l.
Proof.
  intros s. apply drop_fold. apply Forall_forall. intros a _ s0. apply drop_mbind; [apply infer_drop|]. intros st.
  apply drop_mbind; [apply drop_say|]. intros [d n]. apply drop_fold. apply Forall_forall. intros c _ s1. apply assign_column_drop.
Qed.

Lemma assignments_good rels y t l : scope rels y ->
  agree (forallb (fun a => safe (snd a)) l) (exists s, fold_say (assign y t) [] l = mok s)
    (assignable up (fun e d n => typed rels e (TyScalar d n)) (r_attrs t) l).
Proof.
  intros Sc. eapply agree_trans; [|apply (assignable_agree up x g Hx tables Ht rels y _ _ Sc)].
  assert (Hs : sorted up (@nil (name * unit))) by constructor. pose proof (assignments_ok up x y t l [] Hs) as [A B]. split.
  - intros [s H]. apply A. exists s. rewrite <- assign_drop. apply mok_drop. exact H.
  - intros H. destruct B as [s E].
    + split; [|exact H]. apply Forall_forall. intros n _. reflexivity.
    + exists s. rewrite <- assign_drop in E. apply mok_drop in E. exact E.
Qed.

Lemma one_scope q t : resolve_say up x q = mok t ->
  exists id y, last_name q = Ret id /\ relation_say up [] id (r_attrs t) = mok y /\ scope [(last q [], r_attrs t)] y.
Proof.
  intros H. apply mok_drop in H. rewrite resolve_drop in H. apply resolve_last in H as (q' & id & -> & L).
  destruct (relation_fresh up [] [] id (r_attrs t) eq_refl) as [y Ey].
  { intros (a & I & _). exact I. }
  exists id, y. split; [exact L|]. split; [exact Ey|]. rewrite last_snoc. apply (relation_good up [] [] id (r_attrs t) y eq_refl). exact Ey.
Qed.

Lemma where_wrong rels y o k c : scope rels y ->
  agree (safe_opt safe o)
    (match o with None => mok tt | Some e => t <-! infer_say up x y e ;; or_say k (logical t) end = merr c)
    (exists e, o = Some e /\ unfit (typed rels) (wrong rels) is_truth k e c).
Proof.
  intros Sc. destruct o as [e|]; cbn [safe_opt].
  - destruct (condition_wrong up x g Hx tables Ht no_table rels y e k (any_wrong e) Sc c) as [A B]. split.
    + intros H. exists e. split; [reflexivity|]. apply A. exact H.
    + intros Hg Hs (e' & [= <-] & H). apply B; assumption.
  - apply agree_iff. split; [discriminate|]. intros (e & [=] & _).
Qed.

Lemma insert_wrong i c : agree (safe_set (i_source i)) (validate_insert_say up x i = merr c) (statement_wrong up tables no_table (StInsert i) c).
Proof.
  unfold validate_insert_say.
  assert (V : forall t v, (m <-! match i_columns i with
        | None => fold_say (fun m a => insert_column_say up (i_table i) m a (a_name a)) (row_type_map up t) (r_attrs v)
        | Some columns =>
            if negb (List.length columns =? List.length (r_attrs v))%nat then merr CColumnCount
            else fold_say (fun m e => insert_column_say up (i_table i) m (fst e) (snd e)) (row_type_map up t)
                          (combine (r_attrs v) columns)
        end ;; missing_say m) = merr c <->
     (List.length (targets i (r_attrs v)) <> List.length (r_attrs v) /\ c = CColumnCount) \/
     (List.length (targets i (r_attrs v)) = List.length (r_attrs v) /\
      wrong_values up (i_table i) (r_attrs t) [] (combine (r_attrs v) (targets i (r_attrs v))) c)).
  { intros t v. rewrite <- (values_wrong up (i_table i) t _ c []), left_over_nil. unfold targets. destruct (i_columns i) as [cols|].
    - destruct (Nat.eqb_spec (List.length cols) (List.length (r_attrs v))) as [E|E]; cbn [negb].
      + tauto.
      + split; [intros H; injection H as <-; auto|]. intros [[_ ->]|[K _]]; [reflexivity|contradiction].
    - rewrite combine_self, fold_say_map, map_length. cbn [fst snd]. split; [auto|]. intros [[K _]|[_ H]]; [destruct K; reflexivity|exact H]. }
  destruct (set_wrong up x g Hx tables Ht no_table Hn (i_source i) c) as [A B]. split.
  - intros H. apply mbind_err in H as [H|(t & Et & H)]; [apply sw_insert_table, Hn; exact H|].
    assert (T : tables (i_table i) (r_attrs t)) by (apply (table_gives up x tables Ht); exists t; auto).
    apply mbind_err in H as [H|(v & Ev & H)]; [eapply sw_insert_source; [exact T|apply A; exact H]|].
    assert (Sv : set_typed up tables (i_source i) (r_attrs v)) by (apply (set_gives up x g Hx tables Ht); exists v; auto).
    apply V in H as [[L ->]|[L H]]; [eapply sw_insert_count; eassumption|eapply sw_insert_values; eassumption].
  - intros Hg Hs H. apply mbind_err. inversion H as [|? ? N|? attrs ? T W|? attrs values T Sv L|? attrs values ? T Sv L W| | | | |]; subst.
    + left. apply Hn. exact N.
    + right. apply (table_gives up x tables Ht) in T as (t & Et & <-). exists t. split; [exact Et|]. apply mbind_err. left. apply B; assumption.
    + right. apply (table_gives up x tables Ht) in T as (t & Et & <-). exists t. split; [exact Et|].
      apply (set_gives up x g Hx tables Ht) in Sv as (v & Ev & <-); [|assumption..]. apply mbind_err. right. exists v. split; [exact Ev|]. apply V. auto.
    + right. apply (table_gives up x tables Ht) in T as (t & Et & <-). exists t. split; [exact Et|].
      apply (set_gives up x g Hx tables Ht) in Sv as (v & Ev & <-); [|assumption..]. apply mbind_err. right. exists v. split; [exact Ev|]. apply V. auto.
Qed.

Lemma update_wrong u c : agree (safe_statement (StUpdate u)) (validate_update_say up x u = merr c) (statement_wrong up tables no_table (StUpdate u) c).
Proof.
  unfold validate_update_say. cbn [safe_statement]. split.
  - intros H. apply mbind_err in H as [H|(t & Et & H)]; [apply sw_update_table, Hn; exact H|].
    assert (T : tables (u_table u) (r_attrs t)) by (apply (table_gives up x tables Ht); exists t; auto).
    destruct (one_scope _ _ Et) as (id & y & L & Ey & Sc). rewrite L in H. cbn [bind] in H. rewrite Ey in H. unfold mbind at 1 in H. cbn in H.
    apply mbind_err in H as [H|(s & Es & H)].
    + eapply sw_update; [exact T|]. apply (assignments_wrong _ y t _ c Sc [] [] (marks_nil up)). exact H.
    + apply (where_wrong _ y _ _ _ Sc) in H as (e & Ee & H). eapply sw_update_where; [exact T| |exact Ee|exact H].
      apply (assignments_good _ y t _ Sc). exists s. exact Es.
  - intros Hg Hs H. apply andb_true_iff in Hs as [S1 S2]. apply mbind_err.
    inversion H as [| | | | |? ? N|? attrs ? T W|? attrs e ? T A Ee W| |]; subst.
    + left. apply Hn. exact N.
    + right. apply (table_gives up x tables Ht) in T as (t & Et & <-). exists t. split; [exact Et|].
      destruct (one_scope _ _ Et) as (id & y & L & Ey & Sc). rewrite L. cbn [bind]. rewrite Ey. unfold mbind at 1. cbn.
      apply mbind_err. left. apply (assignments_wrong _ y t _ c Sc [] [] (marks_nil up)); assumption.
    + right. apply (table_gives up x tables Ht) in T as (t & Et & <-). exists t. split; [exact Et|].
      destruct (one_scope _ _ Et) as (id & y & L & Ey & Sc). rewrite L. cbn [bind]. rewrite Ey. unfold mbind at 1. cbn.
      apply mbind_err. right. apply (assignments_good _ y t _ Sc) in A as (s & Es); [|assumption..]. exists s. split; [exact Es|].
      apply (where_wrong _ y _ CWhere c Sc); eauto.
Qed.

Lemma delete_wrong d c : agree (safe_statement (StDelete d)) (validate_delete_say up x d = merr c) (statement_wrong up tables no_table (StDelete d) c).
Proof.
  unfold validate_delete_say. cbn [safe_statement]. split.
  - intros H. apply mbind_err in H as [H|(t & Et & H)]; [apply sw_delete_table, Hn; exact H|].
    assert (T : tables (d_table d) (r_attrs t)) by (apply (table_gives up x tables Ht); exists t; auto).
    destruct (one_scope _ _ Et) as (id & y & L & Ey & Sc). rewrite L in H. cbn [bind] in H. rewrite Ey in H. unfold mbind at 1 in H. cbn in H.
    apply (where_wrong _ y _ _ _ Sc) in H as (e & Ee & H). eapply sw_delete_where; [exact T|exact Ee|exact H].
  - intros Hg Hs H. apply mbind_err.
    inversion H as [| | | | | | | |? ? N|? attrs e ? T Ee W]; subst.
    + left. apply Hn. exact N.
    + right. apply (table_gives up x tables Ht) in T as (t & Et & <-). exists t. split; [exact Et|].
      destruct (one_scope _ _ Et) as (id & y & L & Ey & Sc). rewrite L. cbn [bind]. rewrite Ey. unfold mbind at 1. cbn.
      apply (where_wrong _ y _ CWhere c Sc); eauto.
Qed.

Lemma statement_say s c : agree (safe_statement s) (validate_statement_say up x s = merr c) (statement_wrong up tables no_table s c).
Proof.
  destruct s as [s|i|d|u]; cbn [validate_statement_say].
  - destruct (select_wrong up x g Hx tables Ht no_table Hn s c) as [A B]. split.
    + intros H. apply mbind_err in H as [H|(r & _ & [=])]. constructor. apply A. exact H.
    + intros Hg Hs H. inversion H; subst. apply mbind_err. left. apply B; assumption.
  - apply insert_wrong.
  - apply delete_wrong.
  - apply update_wrong.
Qed.

Lemma sql_say s c : agree (safe_sql s) (validate_say up x s = merr c) (sql_wrong up tables no_table s c).
Proof.
  destruct s as [s|s|q path|q]; cbn [validate_say safe_sql].
  - destruct (statement_say s c) as [A B]. split; [intros H; constructor; auto|]. intros Hg Hs H. inversion H; subst. auto.
  - destruct (statement_say s c) as [A B]. split; [intros H; constructor; auto|]. intros Hg Hs H. inversion H; subst. auto.
  - apply agree_iff. split; [discriminate|]. intros H; inversion H.
  - apply agree_iff. rewrite mbind_err. split.
    + intros [H|(r & _ & [=])]. constructor. apply Hn. exact H.
    + intros H. inversion H; subst. left. apply Hn. assumption.
Qed.

End Statements.

(** ** Tables that are not in the catalog *)

Section Catalog.
Context (up : Z -> list Z).

Lemma namespace_none db s : nget up (namespaces_of up db) s = None <-> ~ has_default up db s.
Proof.
  pose proof (registered_ok up db s) as R. unfold registered in R. cbn in R. unfold has_default. rewrite <- R.
  destruct (nget up (namespaces_of up db) s); split; auto; try discriminate. intros H. destruct H. discriminate.
Qed.

Lemma object_none db s ns n : well_named up db -> nget up (namespaces_of up db) s = Some ns ->
  (nget up ns n = None <-> forall attrs, ~ in_schema up db s n attrs).
Proof.
  intros W E. split.
  - intros N attrs (s' & sc & n' & o & I & S & I' & S' & _).
    assert (H : exists ns, nget up (namespaces_of up db) s = Some ns /\ nget up ns n = Some (row_of_set (object_rows o)))
      by (apply (namespace_ok up db s W); eauto 10).
    destruct H as (ns' & E' & G). congruence.
  - intros H. destruct (nget up ns n) as [r|] eqn:G; [|reflexivity].
    destruct (proj1 (namespace_ok up db s W n r) (ex_intro _ ns (conj E G))) as (s' & sc & n' & o & I & S & I' & S' & ->).
    destruct (H (r_attrs (row_of_set (object_rows o)))). exists s', sc, n', o. auto 10.
Qed.

Lemma catalog_wrong db dflt q c : well_named up db ->
  (resolve_say up (set_context_new up db dflt) q = merr c <-> uncatalogued up db dflt q c).
Proof.
  intros W. destruct q as [|a [|b [|d q]]]; cbn [resolve_say set_context_new x_tables x_namespaces x_default SqlNameModel.nget].
  - split; [intros [= <-]; apply uc_length; discriminate|]. intros H; inversion H; reflexivity.
  - destruct (nget up (namespaces_of up db) dflt) as [ns|] eqn:E.
    + assert (D : has_default up db dflt).
      { destruct (registered_ok up db dflt) as [R _]. apply R. unfold registered. cbn. rewrite E. discriminate. }
      pose proof (object_none db dflt ns a W E) as O. destruct (nget up ns a) as [r|].
      * split; [discriminate|]. intros H. inversion H as [? _ N| | |? L]; subst; [apply O in N; discriminate|destruct L; reflexivity].
      * split; [intros [= <-]; apply uc_default; [exact D|apply O; reflexivity]|].
        intros H. inversion H as [| | |? L]; subst; [reflexivity|destruct L; reflexivity].
    + split; [discriminate|]. intros H. apply namespace_none in E. inversion H as [| | |? L]; subst; [contradiction|destruct L; reflexivity].
  - destruct (nget up (namespaces_of up db) a) as [ns|] eqn:E.
    + assert (D : has_default up db a).
      { destruct (registered_ok up db a) as [R _]. apply R. unfold registered. cbn. rewrite E. discriminate. }
      pose proof (object_none db a ns b W E) as O. destruct (nget up ns b) as [r|].
      * split; [discriminate|]. intros H. inversion H as [|? ? N|? ? _ N|? ? L]; subst; [contradiction|apply O in N; discriminate|destruct L; reflexivity].
      * split; [intros [= <-]; apply uc_table; [exact D|apply O; reflexivity]|].
        intros H. inversion H as [|? ? N| |? ? L]; subst; [contradiction|reflexivity|destruct L; reflexivity].
    + apply namespace_none in E. split; [intros [= <-]; apply uc_schema; exact E|].
      intros H. inversion H as [|? ? N|? ? N|? ? L]; subst; [reflexivity|contradiction|destruct L; reflexivity].
  - split; [intros [= <-]; apply uc_length; discriminate|]. intros H; inversion H; reflexivity.
Qed.

End Catalog.
