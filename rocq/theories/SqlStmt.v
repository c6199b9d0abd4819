(** * INSERT, UPDATE and DELETE *)

From Verif Require Import Base SqlNameModel SqlModel SqlNameProofs SqlTypeProofs SqlSpec SqlScope SqlEval SqlStmtSpec.

Local Arguments rbind : simpl never.

Section Stmt.
Context (up : Z -> list Z).
Notation same := (name_eqb up).
Notation nget := (nget up).

Lemma fold_err_pure {S A} (f : S -> A -> result S unit) l s r :
  fold_err (fun s a => pure (f s a)) s l = ok r <->
  (fix go (s : S) (l : list A) : result S unit :=
     match l with [] => Ok s | a :: l' => match f s a with Ok s' => go s' l' | Err e => Err e end end) s l = Ok r.
Proof.
  revert s; induction l as [|a l IH]; intros s; cbn.
  - split; [intros H; inv_ok; congruence|intros [= ->]; reflexivity].
  - destruct (f s a) as [s'|e]; [apply IH|]. split; discriminate.
Qed.

Definition accepts (m : nmap (data_type * bool)) (n : name) (a : attribute) : Prop :=
  exists t null, nget m n = Some (t, null) /\ t = a_type a /\ (a_null a = true -> null = true).

Lemma insert_column_ok m a n m' :
  insert_column up m a n = Ok m' <-> accepts m n a /\ m' = nremove up m n.
Proof.
  unfold insert_column, accepts. destruct (nget m n) as [[t null]|].
  - destruct (negb (dt_eqb t (a_type a)) || negb null && a_null a) eqn:E.
    + split; [discriminate|]. intros [(t' & null' & [= <- <-] & -> & H) _]. rewrite dt_eqb_refl in E. cbn in E.
      destruct null, (a_null a); cbn in E; try discriminate. specialize (H eq_refl). discriminate.
    + apply orb_false_iff in E as [E1 E2]. apply negb_false_iff, dt_eqb_eq in E1. split.
      * intros [= <-]. split; [|reflexivity]. exists t, null. split; [reflexivity|]. split; [exact E1|].
        intros Ha. rewrite Ha in E2. destruct null; [reflexivity|discriminate].
      * intros [_ ->]. reflexivity.
  - split; [discriminate|]. intros [(t & null & [=] & _) _].
Qed.

Lemma insert_columns_ok l m m' : sorted up m ->
  (fold_err (fun m e => pure (insert_column up m (fst e) (snd e))) m l = ok m' <->
   distinct up (map snd l) /\ Forall (fun e => accepts m (snd e) (fst e)) l /\
   m' = fold_left (fun m e => nremove up m (snd e)) l m).
Proof.
  revert m; induction l as [|[a n] l IH]; intros m Hs.
  - cbn. split.
    + intros H. inv_ok. subst. repeat split; constructor.
    + intros (_ & _ & ->). reflexivity.
  - cbn [fold_err fst snd map fold_left]. rewrite rbind_ok.
    assert (Hacc : forall n' a', same n n' = false -> (accepts (nremove up m n) n' a' <-> accepts m n' a')).
    { intros n' a' Hn. unfold accepts. rewrite nget_nremove by exact Hs. rewrite name_eqb_sym, Hn. reflexivity. }
    assert (Hrej : forall n' a', accepts (nremove up m n) n' a' -> same n n' = false).
    { intros n' a' (t & null & Hg & _). rewrite nget_nremove in Hg by exact Hs. rewrite name_eqb_sym.
      destruct (same n' n); [discriminate|reflexivity]. }
    split.
    + intros (m1 & E & H). apply pure_ok, insert_column_ok in E as [E ->].
      apply IH in H as (H1 & H2 & H3); [|apply nremove_sorted; exact Hs].
      split; [|split; [|exact H3]].
      * constructor; [|exact H1]. rewrite Forall_map. revert H2. apply Forall_impl. intros e He. eapply Hrej. exact He.
      * constructor; [exact E|]. revert H2. apply Forall_impl. intros e He. apply Hacc; [|exact He]. eapply Hrej. exact He.
    + intros (H1 & H2 & H3). inversion H1 as [|? ? D1 D2]; subst. inversion H2 as [|? ? F1 F2]; subst. cbn in F1.
      exists (nremove up m n). split; [apply pure_ok, insert_column_ok; auto|].
      apply IH; [apply nremove_sorted; exact Hs|]. split; [exact D2|]. split; [|reflexivity].
      rewrite Forall_map in D1. rewrite Forall_forall in *. intros e He. apply Hacc; [apply D1; exact He|apply F2; exact He].
Qed.

Lemma remove_all_in {V W} (l : list (W * name)) (m : nmap V) e : sorted up m ->
  sorted up (fold_left (fun m e => nremove up m (snd e)) l m) /\
  (In e (fold_left (fun m e => nremove up m (snd e)) l m) <->
   In e m /\ Forall (fun p => same (snd p) (fst e) = false) l).
Proof.
  revert m; induction l as [|[w n] l IH]; intros m Hs; cbn.
  - split; [exact Hs|]. split; [split; [assumption|constructor]|tauto].
  - destruct (IH (nremove up m n) (nremove_sorted up m n Hs)) as [H1 H2]. split; [exact H1|].
    rewrite H2, nremove_in by exact Hs. split.
    + intros [[A B] C]. split; [exact A|]. constructor; assumption.
    + intros [A B]. inversion B; subst. auto.
Qed.

(** The map of a row type. *)
Lemma row_map_get t n v :
  nget (row_type_map up t) n = Some v <->
  exists c, column_of up (r_attrs t) n c /\ v = (a_type c, a_null c).
Proof.
  unfold row_type_map. rewrite nget_ncollect. rewrite (last_entry_named up (fun a => (a_type a, a_null a))).
  unfold column_of. split; intros (c & H); exists c; tauto.
Qed.

Lemma row_map_sorted t : sorted up (row_type_map up t).
Proof. apply ncollect_sorted. Qed.

Lemma last_named_unique l a b : last_named up l a -> last_named up l b -> same (a_name a) (a_name b) = true -> a = b.
Proof.
  intros (l1 & l2 & -> & H1) (l3 & l4 & E & H2) Hs.
  revert l3 E. induction l1 as [|c l1 IH]; intros [|d l3] E; cbn in E.
  - injection E as -> ->. reflexivity.
  - injection E as -> ->. exfalso. rewrite Forall_forall in H1. rewrite (H1 b) in Hs; [discriminate|]. apply in_or_app. cbn. auto.
  - injection E as -> <-. exfalso. rewrite Forall_forall in H2. rewrite name_eqb_sym, (H2 a) in Hs; [discriminate|]. apply in_or_app. cbn. auto.
  - injection E as -> E. eauto.
Qed.

Lemma row_map_in t e : In e (row_type_map up t) ->
  exists c, last_named up (r_attrs t) c /\ same (fst e) (a_name c) = true /\ snd e = (a_type c, a_null c).
Proof.
  intros H. assert (Hg : nget (row_type_map up t) (fst e) = Some (snd e)).
  { apply nget_in; [apply row_map_sorted|]. exists (fst e). split; [destruct e; exact H|apply name_eqb_refl]. }
  apply row_map_get in Hg as (c & [H1 H2] & H3). eauto.
Qed.

Lemma accepts_iff t n a : accepts (row_type_map up t) n a <->
  exists c, column_of up (r_attrs t) n c /\ takes c (a_type a) (a_null a).
Proof.
  unfold accepts, takes. split.
  - intros (d & null & Hg & -> & Hn). apply row_map_get in Hg as (c & Hc & [= E ->]). exists c. auto.
  - intros (c & Hc & Ht & Hn). exists (a_type c), (a_null c). split; [apply row_map_get; eauto|auto].
Qed.

Lemma combine_self {A B} (f : A -> B) l : combine l (map f l) = map (fun a => (a, f a)) l.
Proof. induction l as [|a l IH]; cbn; congruence. Qed.

Lemma fold_err_map {S A B} (f : S -> B -> res S) (g : A -> B) l s :
  fold_err f s (map g l) = fold_err (fun s a => f s (g a)) s l.
Proof. revert s; induction l as [|a l IH]; intros s; cbn; [reflexivity|]. destruct (f s (g a)) as [[]| |]; cbn; auto. apply IH. Qed.

Lemma Forall_combine {A B} (P : A -> B -> Prop) l1 l2 : length l1 = length l2 ->
  (Forall (fun e => P (fst e) (snd e)) (combine l2 l1) <-> Forall2 (fun b a => P a b) l1 l2).
Proof.
  revert l2; induction l1 as [|a l1 IH]; intros [|b l2] Hl; try discriminate; cbn; [split; constructor|].
  split; intros H; inversion H; subst; constructor; auto; apply IH; auto.
Qed.

Lemma Forall2_weaken {A B} (P Q : A -> B -> Prop) l1 l2 :
  (forall a b, P a b -> Q a b) -> Forall2 P l1 l2 -> Forall2 Q l1 l2.
Proof. intros H. induction 1; constructor; auto. Qed.

Lemma map_snd_combine {A B} (l1 : list A) (l2 : list B) : length l1 = length l2 -> map snd (combine l1 l2) = l2.
Proof. revert l2; induction l1 as [|a l1 IH]; intros [|b l2] Hl; try discriminate; cbn; [reflexivity|]. f_equal. auto. Qed.

Lemma insert_map_ok t targets (values : list attribute) : length values = length targets ->
  (exists m, fold_err (fun m e => pure (insert_column up m (fst e) (snd e))) (row_type_map up t) (combine values targets) = ok m /\
             existsb (fun e => negb (snd (snd e))) m = false) <->
  storable up (r_attrs t) targets values.
Proof.
  intros Hl. unfold storable.
  assert (Hacc : Forall (fun e => accepts (row_type_map up t) (snd e) (fst e)) (combine values targets) <->
                 Forall2 (fun n v => exists c, column_of up (r_attrs t) n c /\ takes c (a_type v) (a_null v)) targets values).
  { rewrite (Forall_combine (fun v n => accepts (row_type_map up t) n v)) by congruence.
    split; intros H; eapply Forall2_weaken; try exact H; intros; apply accepts_iff; assumption. }
  set (m' := fold_left (fun m e => nremove up m (snd e)) (combine values targets) (row_type_map up t)).
  assert (Hend : existsb (fun e => negb (snd (snd e))) m' = false <->
    forall c, last_named up (r_attrs t) c -> a_null c = false -> exists n, In n targets /\ same n (a_name c) = true).
  { split.
    - intros H c Hc Hn.
      assert (Hg : nget (row_type_map up t) (a_name c) = Some (a_type c, a_null c))
        by (apply row_map_get; exists c; split; [split; [exact Hc|apply name_eqb_refl]|reflexivity]).
      apply nget_in in Hg as (k & Hin & Hk); [|apply row_map_sorted].
      destruct (existsb (fun n => same n (a_name c)) targets) eqn:Ex.
      + apply existsb_exists in Ex. exact Ex.
      + exfalso.
        assert (Hm : In (k, (a_type c, a_null c)) m').
        { apply remove_all_in; [apply row_map_sorted|]. split; [exact Hin|].
          apply Forall_forall. intros [v n] Hp. cbn [fst snd]. apply in_combine_r in Hp.
          rewrite <- (name_eqb_congr up _ _ n Hk).
          destruct (same n (a_name c)) eqn:Es; [|reflexivity].
          assert (existsb (fun n => same n (a_name c)) targets = true) by (apply existsb_exists; eauto). congruence. }
        assert (existsb (fun e : name * (data_type * bool) => negb (snd (snd e))) m' = true); [|congruence].
        apply existsb_exists. eexists. split; [exact Hm|]. cbn. rewrite Hn. reflexivity.
    - intros H. destruct (existsb _ m') eqn:Ex; [|reflexivity]. exfalso.
      apply existsb_exists in Ex as (e & Hin & He).
      apply remove_all_in in Hin as [Hin Hall]; [|apply row_map_sorted].
      apply row_map_in in Hin as (c & Hc & Hk & Ev). rewrite Ev in He. cbn in He. apply negb_true_iff in He.
      destruct (H c Hc He) as (n & Hn & Hs).
      assert (Hex : exists v, In (v, n) (combine values targets)).
      { rewrite <- (map_snd_combine values targets Hl) in Hn. apply in_map_iff in Hn as ([v n'] & E & Hp). cbn in E. subst. eauto. }
      destruct Hex as [v Hp]. rewrite Forall_forall in Hall. specialize (Hall _ Hp). cbn [fst snd] in Hall.
      rewrite (name_eqb_congr up _ _ n Hk) in Hall. congruence. }
  split.
  - intros (m & Hm & He). apply insert_columns_ok in Hm as (H1 & H2 & ->); [|apply row_map_sorted].
    rewrite map_snd_combine in H1 by exact Hl. split; [exact H1|]. split; [apply Hacc; exact H2|apply Hend; exact He].
  - intros (H1 & H2 & H3). exists m'. split; [|apply Hend; exact H3].
    apply insert_columns_ok; [apply row_map_sorted|]. rewrite map_snd_combine by exact Hl.
    split; [exact H1|]. split; [apply Hacc; exact H2|reflexivity].
Qed.

Theorem insert_iff x i :
  validate_insert up x i = ok tt <->
  exists t v, resolve_table up x (i_table i) = ok t /\ infer_set up x (i_source i) = ok v /\
              storable up (r_attrs t) (match i_columns i with Some l => l | None => map a_name (r_attrs v) end) (r_attrs v).
Proof.
  unfold validate_insert.
  assert (Hend : forall m, (if existsb (fun e : name * (data_type * bool) => negb (snd (snd e))) m then err else ok tt) = ok tt <->
                           existsb (fun e : name * (data_type * bool) => negb (snd (snd e))) m = false)
    by (intros m; destruct (existsb _ m); split; congruence || discriminate).
  split.
  - intros H. apply rbind_ok in H as (t & Et & H). apply rbind_ok in H as (v & Ev & H). apply rbind_ok in H as (m & Em & H).
    apply Hend in H. exists t, v. split; [exact Et|]. split; [exact Ev|]. destruct (i_columns i) as [cols|].
    + destruct (Nat.eqb_spec (length cols) (length (r_attrs v))) as [El|]; [|discriminate]. cbn [negb] in Em.
      apply insert_map_ok; [symmetry; exact El|]. eauto.
    + apply insert_map_ok; [rewrite map_length; reflexivity|]. rewrite combine_self, fold_err_map. cbn [fst snd]. eauto.
  - intros (t & v & Et & Ev & Hs). rewrite rbind_ok. exists t. split; [exact Et|]. rewrite rbind_ok. exists v. split; [exact Ev|].
    rewrite rbind_ok. destruct (i_columns i) as [cols|].
    + assert (El : length cols = length (r_attrs v)) by (destruct Hs as (_ & Hs & _); eapply Forall2_length; exact Hs).
      rewrite El, Nat.eqb_refl. cbn [negb]. apply insert_map_ok in Hs as (m & Hm & He); [|symmetry; exact El].
      exists m. split; [exact Hm|]. apply Hend. exact He.
    + apply insert_map_ok in Hs as (m & Hm & He); [|rewrite map_length; reflexivity].
      rewrite combine_self, fold_err_map in Hm. cbn [fst snd] in Hm. exists m. split; [exact Hm|]. apply Hend. exact He.
Qed.

(** ** UPDATE *)

Definition free (s : nmap unit) (n : name) : Prop := nget s n = None.

Lemma assign_column_ok t d null s n s' :
  assign_column up (row_type_map up t) d null s n = Ok s' <->
  free s n /\ (exists c, column_of up (r_attrs t) n c /\ takes c d null) /\ s' = nput up s n tt.
Proof.
  unfold assign_column, free. destruct (nget s n) as [[]|]; [split; [discriminate|intros [[=] _]]|].
  destruct (nget (row_type_map up t) n) as [[ct cn]|] eqn:E.
  - apply row_map_get in E as (c & Hc & [= -> ->]).
    destruct (negb (dt_eqb (a_type c) d) || null && negb (a_null c)) eqn:B.
    + split; [discriminate|]. intros (_ & (c' & Hc' & Ht & Hn) & _).
      assert (c' = c) as ->.
      { destruct Hc as [H1 H2], Hc' as [H3 H4]. eapply last_named_unique; [exact H3|exact H1|].
        rewrite <- (name_eqb_congr_l up _ _ (a_name c) H4). exact H2. }
      rewrite <- Ht, dt_eqb_refl in B. cbn in B. destruct null, (a_null c); cbn in B; try discriminate.
      specialize (Hn eq_refl). discriminate.
    + apply orb_false_iff in B as [B1 B2]. apply negb_false_iff, dt_eqb_eq in B1. split.
      * intros [= <-]. split; [reflexivity|]. split; [|reflexivity]. exists c. split; [exact Hc|]. split; [exact B1|].
        intros ->. destruct (a_null c); [reflexivity|discriminate].
      * intros (_ & _ & ->). reflexivity.
  - split; [discriminate|]. intros (_ & (c & Hc & _) & _).
    assert (nget (row_type_map up t) n = Some (a_type c, a_null c)) by (apply row_map_get; eauto). congruence.
Qed.

Lemma free_put s n n' : sorted up s -> (free (nput up s n tt) n' <-> free s n' /\ same n n' = false).
Proof.
  intros Hs. unfold free. rewrite nget_nput by exact Hs. rewrite (name_eqb_sym up n n'). destruct (same n' n); [|tauto].
  split; [discriminate|]. intros [_ [=]].
Qed.

Lemma assign_columns_ok t d null cols s s' : sorted up s ->
  (fold_err (fun s c => pure (assign_column up (row_type_map up t) d null s c)) s cols = ok s' <->
   distinct up cols /\ Forall (free s) cols /\
   Forall (fun n => exists c, column_of up (r_attrs t) n c /\ takes c d null) cols /\
   s' = fold_left (fun s n => nput up s n tt) cols s).
Proof.
  revert s; induction cols as [|n cols IH]; intros s Hs.
  - cbn. split.
    + intros H. inv_ok. subst. repeat split; constructor.
    + intros (_ & _ & _ & ->). reflexivity.
  - cbn [fold_err fold_left]. rewrite rbind_ok. split.
    + intros (s1 & E & H). apply pure_ok, assign_column_ok in E as (E1 & E2 & ->).
      apply IH in H as (H1 & H2 & H3 & H4); [|apply nput_sorted; exact Hs].
      assert (H5 : Forall (fun n' => free s n' /\ same n n' = false) cols)
        by (revert H2; apply Forall_impl; intros n'; apply free_put; exact Hs).
      split; [constructor; [revert H5; apply Forall_impl; tauto|exact H1]|].
      split; [constructor; [exact E1|revert H5; apply Forall_impl; tauto]|]. split; [constructor; assumption|exact H4].
    + intros (H1 & H2 & H3 & H4). inversion H1; subst. inversion H2; subst. inversion H3; subst.
      eexists. split; [apply pure_ok, assign_column_ok; split; [assumption|split; [assumption|reflexivity]]|].
      apply IH; [apply nput_sorted; exact Hs|]. split; [assumption|]. split; [|split; [assumption|reflexivity]].
      rewrite Forall_forall in *. intros n' Hn'. apply free_put; [exact Hs|]. auto.
Qed.

Lemma put_all_sorted l s : sorted up s -> sorted up (fold_left (fun s n => nput up s n tt) l s).
Proof. revert s; induction l as [|n l IH]; intros s Hs; [exact Hs|]. cbn. apply IH, nput_sorted, Hs. Qed.

Lemma put_all_free l s n : sorted up s ->
  (free (fold_left (fun s n => nput up s n tt) l s) n <-> free s n /\ Forall (fun m => same m n = false) l).
Proof.
  revert s; induction l as [|m l IH]; intros s Hs; cbn; [split; [auto|tauto]|].
  rewrite IH by (apply nput_sorted; exact Hs). rewrite free_put by exact Hs. split.
  - intros [[A B] C]. auto.
  - intros [A B]. inversion B; subst. auto.
Qed.

Lemma distinct_app l1 l2 : distinct up (l1 ++ l2) <->
  distinct up l1 /\ distinct up l2 /\ Forall (fun m => Forall (fun n => same n m = false) l1) l2.
Proof.
  unfold distinct. induction l1 as [|n l1 IH]; cbn.
  - split; [intros H; split; [constructor|split; [exact H|apply Forall_forall; constructor]]|tauto].
  - split.
    + intros H. inversion H as [|? ? H1 H2]; subst. apply IH in H2 as (A & B & C). apply Forall_app in H1 as [D E].
      split; [constructor; assumption|]. split; [exact B|]. rewrite Forall_forall in *. intros m Hm. constructor; auto.
    + intros (A & B & C). inversion A; subst. constructor.
      * apply Forall_app. split; [assumption|]. revert C. apply Forall_impl. intros m Hm. inversion Hm; assumption.
      * apply IH. split; [assumption|]. split; [exact B|]. revert C. apply Forall_impl. intros m Hm. inversion Hm; assumption.
Qed.

Lemma assignments_ok x y t l s : sorted up s ->
  ((exists s', fold_err (fun assigned a =>
                    st <-? infer up x y (snd a) ;;
                    '(d, n) <-? pure (scalar st) ;;
                    fold_err (fun assigned c => pure (assign_column up (row_type_map up t) d n assigned c)) assigned (fst a))
                 s l = ok s') <->
   Forall (free s) (flat_map fst l) /\
   assignable up (fun e d n => infer up x y e = ok (TyScalar d n)) (r_attrs t) l).
Proof.
  unfold assignable. revert s; induction l as [|[cols e] l IH]; intros s Hs.
  - cbn. split; [intros _; repeat split; constructor|]. intros _. eexists. reflexivity.
  - cbn [fold_err fst snd flat_map]. split.
    + intros (s' & H). apply rbind_ok in H as (s1 & E & H). apply rbind_ok in E as (st & Et & E).
      apply rbind_ok in E as ([d n] & Esc & E). apply pure_ok in Esc. destruct st as [|d' n']; [discriminate|].
      injection Esc as <- <-. apply assign_columns_ok in E as (H1 & H2 & H3 & ->); [|exact Hs].
      destruct (proj1 (IH _ (put_all_sorted cols s Hs)) (ex_intro _ _ H)) as (F & D & A).
      assert (F' : Forall (fun n => free s n /\ Forall (fun m => same m n = false) cols) (flat_map fst l))
        by (revert F; apply Forall_impl; intros n; apply put_all_free; exact Hs).
      split; [apply Forall_app; split; [exact H2|revert F'; apply Forall_impl; tauto]|].
      split.
      * apply distinct_app. split; [exact H1|]. split; [exact D|]. revert F'. apply Forall_impl. tauto.
      * constructor; [|exact A]. exists d', n'. auto.
    + intros (F & D & A). inversion A as [|? ? (d & n & Et & Hc) A']; subst. cbn in Et, Hc.
      apply Forall_app in F as [F1 F2]. apply distinct_app in D as (D1 & D2 & D3).
      assert (H : exists s', fold_err (fun assigned a =>
                    st <-? infer up x y (snd a) ;;
                    '(d, n) <-? pure (scalar st) ;;
                    fold_err (fun assigned c => pure (assign_column up (row_type_map up t) d n assigned c)) assigned (fst a))
                 (fold_left (fun s n => nput up s n tt) cols s) l = ok s').
      { apply IH; [apply put_all_sorted; exact Hs|]. split; [|split; assumption].
        rewrite Forall_forall in *. intros m Hm. apply put_all_free; [exact Hs|]. split; [auto|]. apply D3. exact Hm. }
      destruct H as [s' H]. exists s'. apply rbind_ok. eexists. split; [|exact H].
      rewrite Et. cbn. apply assign_columns_ok; [exact Hs|]. auto.
Qed.

Definition filtered (x : set_context) (y : symbols) (wh : option expr) : Prop :=
  match wh with
  | None => True
  | Some e => exists null, infer up x y e = ok (TyScalar DLogical null)
  end.

Lemma filtered_iff x y wh :
  match wh with None => ok tt | Some e => st <-? infer up x y e ;; pure (logical st) end = ok tt <-> filtered x y wh.
Proof.
  destruct wh as [e|]; cbn; [|tauto]. rewrite rbind_ok. split.
  - intros (t & E & H). apply pure_ok in H. destruct t as [|[] n]; try discriminate. eauto.
  - intros (n & E). eexists. split; [exact E|]. reflexivity.
Qed.

Lemma single_scope id attrs : exists y, add_relation up [] id attrs = Ok y.
Proof.
  pose proof (add_relation_holds up [] [] id attrs (holds_nil up)) as H. destruct (add_relation up [] id attrs) as [y|e]; [eauto|].
  exfalso. apply H. reflexivity.
Qed.

Lemma resolve_last x q t : resolve_table up x q = ok t -> exists q' id, q = q' ++ [id] /\ last_name q = Ret id.
Proof.
  destruct q as [|a [|b [|c q]]]; cbn; try discriminate; intros _.
  - exists [], a. auto.
  - exists [a], b. auto.
Qed.

Theorem update_iff x u :
  validate_update up x u = ok tt <->
  exists t q id y, resolve_table up x (u_table u) = ok t /\ u_table u = q ++ [id] /\
    add_relations up [] [(id, r_attrs t)] = Ok y /\
    assignable up (fun e d n => infer up x y e = ok (TyScalar d n)) (r_attrs t) (u_assignments u) /\
    filtered x y (u_where u).
Proof.
  unfold validate_update. split.
  - intros H. apply rbind_ok in H as (t & Et & H). destruct (resolve_last _ _ _ Et) as (q & id & Eq & El).
    rewrite El in H. cbn in H. apply rbind_ok in H as (y & Ey & H). apply pure_ok in Ey.
    apply rbind_ok in H as (s & Es & H). apply filtered_iff in H.
    exists t, q, id, y. split; [exact Et|]. split; [exact Eq|]. split; [cbn; rewrite Ey; reflexivity|]. split; [|exact H].
    eapply assignments_ok; [apply sorted_nil|]. eauto.
  - intros (t & q & id & y & Et & Eq & Ey & Ha & Hf). apply rbind_ok. exists t. split; [exact Et|].
    rewrite Eq. unfold last_name. rewrite rev_app_distr. cbn. apply rbind_ok. exists y. split.
    { apply pure_ok. cbn in Ey. destruct (add_relation up [] id (r_attrs t)); [exact Ey|discriminate]. }
    destruct (proj2 (assignments_ok x y t (u_assignments u) [] (sorted_nil up))) as [s Hs].
    { split; [|exact Ha]. apply Forall_forall. intros; reflexivity. }
    apply rbind_ok. exists s. split; [exact Hs|]. apply filtered_iff. exact Hf.
Qed.

Theorem delete_iff x d :
  validate_delete up x d = ok tt <->
  exists t q id y, resolve_table up x (d_table d) = ok t /\ d_table d = q ++ [id] /\
    add_relations up [] [(id, r_attrs t)] = Ok y /\ filtered x y (d_where d).
Proof.
  unfold validate_delete. split.
  - intros H. apply rbind_ok in H as (t & Et & H). destruct (resolve_last _ _ _ Et) as (q & id & Eq & El).
    rewrite El in H. cbn in H. apply rbind_ok in H as (y & Ey & H). apply pure_ok in Ey. apply filtered_iff in H.
    exists t, q, id, y. split; [exact Et|]. split; [exact Eq|]. split; [cbn; rewrite Ey; reflexivity|]. exact H.
  - intros (t & q & id & y & Et & Eq & Ey & Hf). apply rbind_ok. exists t. split; [exact Et|].
    rewrite Eq. unfold last_name. rewrite rev_app_distr. cbn. apply rbind_ok. exists y. split.
    { apply pure_ok. cbn in Ey. destruct (add_relation up [] id (r_attrs t)); [exact Ey|discriminate]. }
    apply filtered_iff. exact Hf.
Qed.

End Stmt.
