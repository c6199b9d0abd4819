(** * When validation returns and when it panics *)

From Verif Require Import Base SqlNameModel SqlModel SqlNameProofs SqlTypeProofs SqlSpec SqlScope SqlEval SqlInd SqlSafeSpec.

Local Arguments rbind : simpl never.

Definition returns {A : Type} (r : outcome A) : Prop := exists a, r = Ret a.

Lemma returns_rbind {A B} (r : res A) (f : A -> res B) :
  returns r -> (forall a, r = ok a -> returns (f a)) -> returns (rbind r f).
Proof.
  intros [[a|e] ->] H; unfold rbind; cbn; [apply H; reflexivity|exists (Err e); reflexivity].
Qed.

Lemma returns_pure {A} (r : result A unit) : returns (pure r).
Proof. exists r. reflexivity. Qed.

Lemma returns_ok {A} (a : A) : returns (ok a).
Proof. exists (Ok a). reflexivity. Qed.

Lemma returns_err {A} : returns (@err A).
Proof. exists (Err tt). reflexivity. Qed.

(** Symbols that hold scalars only. *)
Definition scalar_ty (t : stype) : Prop := exists d n, t = TyScalar d n.

Definition scalar_symbol (s : symbol) : Prop :=
  match s with
  | SyAttribute t => scalar_ty t
  | SyConflict => True
  | SyRelation m => Forall (fun e => scalar_ty (snd e)) m
  end.

Definition scalars (y : symbols) : Prop := Forall (fun e => scalar_symbol (snd e)) y.

Section Panic.
Context (up : Z -> list Z).

Lemma nput_Forall {V} (Q : V -> Prop) (m : nmap V) k v :
  Forall (fun e => Q (snd e)) m -> Q v -> Forall (fun e => Q (snd e)) (nput up m k v).
Proof.
  intros Hm Hv. induction Hm as [|[k' v'] m Hp Hm IH]; cbn.
  - constructor; [exact Hv|constructor].
  - destruct (name_cmp up k k'); repeat constructor; auto.
Qed.

Lemma nget_Forall {V} (Q : V -> Prop) (m : nmap V) k v :
  Forall (fun e => Q (snd e)) m -> nget up m k = Some v -> Q v.
Proof.
  intros Hm. induction Hm as [|[k' v'] m Hp Hm IH]; cbn; [discriminate|].
  destruct (name_cmp up k k'); [intros [= <-]; exact Hp|discriminate|exact IH].
Qed.

Lemma scalars_put y n s : scalars y -> scalar_symbol s -> scalars (nput up y n s).
Proof. intros H1 H2. apply (nput_Forall scalar_symbol); assumption. Qed.

Lemma scalars_get y n s : scalars y -> nget up y n = Some s -> scalar_symbol s.
Proof. intros H1. apply (nget_Forall scalar_symbol). exact H1. Qed.

Lemma scalar_attr a : scalar_ty (attr_type a).
Proof. unfold attr_type, scalar_ty. eauto. Qed.

Lemma scalars_attribute y a : scalars y -> scalars (add_attribute up y a).
Proof.
  intros H. unfold add_attribute. destruct (nget up y (a_name a)) as [[]|]; try exact H; apply scalars_put; try exact H.
  - exact I.
  - apply scalar_attr.
Qed.

Lemma scalars_relation y n attrs y' : scalars y -> add_relation up y n attrs = Ok y' -> scalars y'.
Proof.
  intros H. unfold add_relation.
  assert (H1 : scalars (fold_left (add_attribute up) attrs y)).
  { revert y H; induction attrs as [|a attrs IH]; intros y H; [exact H|]. cbn. apply IH, scalars_attribute, H. }
  set (y1 := fold_left (add_attribute up) attrs y) in *.
  assert (H2 : scalar_symbol (SyRelation (ncollect up (map (fun a => (a_name a, attr_type a)) attrs)))).
  { cbn. unfold ncollect.
    assert (G : forall l m, Forall (fun e => scalar_ty (snd e)) m ->
              Forall (fun e => scalar_ty (snd e))
                (fold_left (fun m (e : name * stype) => nput up m (fst e) (snd e))
                           (map (fun a => (a_name a, attr_type a)) l) m)).
    { induction l as [|a l IH]; intros m Hm; [exact Hm|]. cbn. apply IH.
      apply (nput_Forall scalar_ty); [exact Hm|apply scalar_attr]. }
    apply G. constructor. }
  destruct (nget up y1 n) as [[]|]; try discriminate; intros [= <-]; apply scalars_put; assumption.
Qed.

Lemma scalars_name y q t : scalars y -> name_type up y q = Ok t -> scalar_ty t.
Proof.
  intros Hy. destruct q as [|a [|b [|c q]]]; try discriminate; cbn.
  - destruct (nget up y a) as [[]|] eqn:E; try discriminate. intros [= <-]. exact (scalars_get _ _ _ Hy E).
  - destruct (nget up y a) as [[]|] eqn:E; try discriminate.
    destruct (nget up m b) eqn:E'; [|discriminate]. intros [= <-].
    pose proof (scalars_get _ _ _ Hy E) as H. cbn in H.
    eapply (nget_Forall scalar_ty); [exact H|exact E'].
Qed.

(** ** The combinators *)

Lemma fold_err_returns {S A} (I : S -> Prop) (f : S -> A -> res S) l s :
  I s -> Forall (fun a => forall s, I s -> returns (f s a) /\ forall s', f s a = ok s' -> I s') l ->
  returns (fold_err f s l) /\ forall s', fold_err f s l = ok s' -> I s'.
Proof.
  intros Hs Hl. revert s Hs. induction Hl as [|a l Ha Hl IH]; intros s Hs; cbn.
  - split; [apply returns_ok|]. intros s' H. inv_ok. subst. exact Hs.
  - destruct (Ha s Hs) as [H1 H2]. split.
    + apply returns_rbind; [exact H1|]. intros s' E. apply IH. auto.
    + intros s' H. inv_ok. eapply IH; [|exact H]. auto.
Qed.

Lemma collect_returns {A B} (f : A -> res B) l : Forall (fun a => returns (f a)) l -> returns (collect f l).
Proof.
  induction 1 as [|a l Ha Hl IH]; cbn; [apply returns_ok|].
  apply returns_rbind; [exact Ha|]. intros b _. apply returns_rbind; [exact IH|]. intros. apply returns_ok.
Qed.

Lemma guards_returns f g l : Forall (fun p => returns (f (fst p))) l -> returns (guards f g l).
Proof.
  induction 1 as [|[a b] l [r Ha] Hl IH]; cbn; [eexists; reflexivity|]. cbn in Ha. rewrite Ha. cbn.
  destruct r as [t|]; [|eexists; reflexivity]. destruct (g t); [exact IH|eexists; reflexivity].
Qed.

Lemma bodies_rest_returns f acc l : Forall (fun p => returns (f (snd p))) l -> returns (bodies_rest f acc l).
Proof.
  intros H. revert acc. induction H as [|[a b] l Ha Hl IH]; intros acc; cbn; [apply returns_ok|].
  apply returns_rbind; [exact Ha|]. intros t _. apply returns_rbind; [apply returns_pure|]. intros. apply IH.
Qed.

Lemma case_step_scalar acc t t' : case_step acc t = Ok t' -> scalar_ty t'.
Proof.
  unfold case_step. destruct (is_compatible t acc); [|discriminate]. destruct t; [discriminate|].
  intros [= <-]. unfold scalar_ty. eauto.
Qed.

Lemma bodies_rest_scalar f acc l t : l <> [] -> bodies_rest f acc l = ok t -> scalar_ty t.
Proof.
  revert acc. induction l as [|[a b] l IH]; intros acc Hl H; [contradiction|]. cbn in H. inv_ok.
  destruct l as [|p l].
  - cbn in H. inv_ok. subst. eapply case_step_scalar. eassumption.
  - eapply IH; [discriminate|exact H].
Qed.

Lemma bodies_returns f l : case_shape l = true ->
  Forall (fun p => returns (f (snd p)) /\ forall ts, f (snd p) = ok (TyTuple ts) -> is_row (snd p) = true) l ->
  returns (bodies f l) /\ forall t, bodies f l = ok t -> scalar_ty t.
Proof.
  intros Hs H. destruct l as [|[a b] l]; [discriminate|]. inversion H as [|? ? [H1 H2] H3]; subst. cbn [snd fst] in *. split.
  - cbn. apply returns_rbind; [exact H1|]. intros t _. apply bodies_rest_returns. revert H3. apply Forall_impl. tauto.
  - cbn. intros t Ht. inv_ok. destruct l as [|p l].
    + cbn in Ht. inv_ok. subst. destruct t as [ts|d n]; [|unfold scalar_ty; eauto]. cbn in Hs.
      rewrite (H2 _ E) in Hs. discriminate.
    + eapply bodies_rest_scalar; [|exact Ht]. discriminate.
Qed.

Lemma else_returns els t : scalar_ty t -> if_some returns els -> returns (else_type els t) /\
  forall t', else_type els t = ok t' -> scalar_ty t'.
Proof.
  intros (d & n & ->) He. destruct els as [r|]; cbn in *.
  - split.
    + apply returns_rbind; [exact He|]. intros b _. apply returns_rbind; [apply returns_pure|]. intros. apply returns_ok.
    + intros t' H. inv_ok. subst. unfold scalar_ty. eauto.
  - split; [apply returns_ok|]. intros t' H. inv_ok. subst. unfold scalar_ty. eauto.
Qed.

Lemma members_rest_returns f acc l : Forall (fun e => returns (f e)) l -> returns (members_rest f acc l).
Proof.
  intros H. revert acc. induction H as [|e l [r He] Hl IH]; intros acc; cbn; [apply returns_pure|].
  rewrite He. cbn. apply IH.
Qed.

Lemma members_returns f l : nonempty l = true -> Forall (fun e => returns (f e)) l -> returns (members f l).
Proof.
  intros Hn H. destruct H as [|e l [r He] Hl]; [discriminate|]. cbn. rewrite He. cbn. apply members_rest_returns. exact Hl.
Qed.

Lemma first_row_returns f c l : Forall (fun e => returns (f e)) l -> returns (first_row f c l).
Proof.
  intros H. revert c. induction H as [|e l He Hl IH]; intros c; cbn; [apply returns_ok|].
  apply returns_rbind; [exact He|]. intros t _. apply returns_rbind; [apply returns_pure|]. intros [d n] _.
  apply returns_rbind; [apply IH|]. intros. apply returns_ok.
Qed.

Lemma next_row_returns f types l : Forall (fun e => returns (f e)) l -> returns (next_row f types l).
Proof.
  intros H. revert types. induction H as [|e l He Hl IH]; intros [|a types]; cbn [next_row]; try apply returns_ok.
  apply returns_rbind; [exact He|]. intros t _. apply returns_rbind; [apply returns_pure|]. intros u Hu. inv_ok.
  destruct u as [ts|d n].
  - exfalso. destruct t as [|d' n']; cbn in Hu; [discriminate|]. destruct (dt_eqb _ _); discriminate.
  - apply returns_rbind; [apply IH|]. intros. apply returns_ok.
Qed.

Lemma values_returns f rows : nonempty rows = true -> Forall (Forall (fun e => returns (f e))) rows -> returns (values_type f rows).
Proof.
  intros Hn H. destruct H as [|r rows Hr Hrows]; [discriminate|]. cbn.
  apply returns_rbind; [apply first_row_returns; exact Hr|]. intros types _.
  apply returns_rbind; [|intros; apply returns_ok].
  apply (fold_err_returns (fun _ => True)); [exact I|]. revert Hrows. apply Forall_impl. intros r' Hr' s _.
  split; [apply next_row_returns; exact Hr'|auto].
Qed.

Lemma resolve_returns x q : registered up x -> returns (resolve_table up x q).
Proof.
  intros Hx. destruct q as [|a [|b [|c q]]]; cbn; try (apply returns_err).
  - destruct (nget up (x_tables x) a); [apply returns_ok|].
    destruct (nget up (x_namespaces x) (x_default x)) eqn:E; [|contradiction].
    destruct (nget up _ a); [apply returns_ok|apply returns_err].
  - destruct (nget up (x_tables x) a); [apply returns_err|].
    destruct (nget up (x_namespaces x) a); [|apply returns_err].
    destruct (nget up _ b); [apply returns_ok|apply returns_err].
Qed.

Lemma last_returns x q t : resolve_table up x q = ok t -> exists n, last_name q = Ret n.
Proof. destruct q as [|a [|b [|c q]]]; cbn; try discriminate; intros _; eexists; reflexivity. Qed.

Lemma relation_columns_returns st m : Forall (fun e => scalar_ty (snd e)) m -> returns (relation_columns up st m).
Proof.
  intros H. unfold relation_columns. revert st. induction H as [|[k t] m Ht Hm IH]; intros st; cbn; [eexists; reflexivity|].
  destruct Ht as (d & n & E). cbn in E. subst t. apply IH.
Qed.

(** ** The mutual induction *)

Definition QE (e : expr) : Prop := safe e = true -> forall x y, registered up x -> scalars y ->
  returns (infer up x y e) /\ forall ts, infer up x y e = ok (TyTuple ts) -> is_row e = true.
Definition QSP (s : set_spec) : Prop := safe_spec s = true -> forall x y, registered up x -> scalars y -> returns (infer_spec up x y s).
Definition QS (s : select) : Prop := safe_select s = true -> forall x, registered up x -> returns (infer_select up x s).
Definition QC (c : cte) : Prop := safe_cte c = true -> forall x, registered up x -> returns (infer_cte up x c).
Definition QX (e : set_expr) : Prop := safe_set e = true -> forall x, registered up x -> returns (infer_set up x e).
Definition QT (t : table_expr) : Prop := safe_table t = true -> forall x y, registered up x -> scalars y ->
  returns (infer_table up x y t) /\ forall y' l, infer_table up x y t = ok (y', l) -> scalars y'.
Definition QR (c : result_columns) : Prop := safe_columns c = true -> forall x y l, registered up x -> scalars y ->
  returns (infer_columns up x y l c).
Definition QK (c : result_column) : Prop := safe_column c = true -> forall x y st, registered up x -> scalars y ->
  returns (infer_column up x y st c).

Lemma forallb_Forall {A} (f : A -> bool) l : forallb f l = true -> Forall (fun a => f a = true) l.
Proof. rewrite forallb_forall, Forall_forall. auto. Qed.

Lemma Forall_mp {A} (P Q : A -> Prop) l : Forall P l -> Forall (fun a => P a -> Q a) l -> Forall Q l.
Proof. rewrite !Forall_forall. auto. Qed.

Lemma QE_list es x y : Forall QE es -> forallb safe es = true -> registered up x -> scalars y ->
  Forall (fun e => returns (infer up x y e)) es.
Proof.
  intros H Hs Hx Hy. apply forallb_Forall in Hs. rewrite Forall_forall in *. intros e He.
  apply (H e He (Hs e He) x y Hx Hy).
Qed.

Ltac split_safe := repeat match goal with H : _ && _ = true |- _ => apply andb_true_iff in H as [? ?] end.

Lemma unary_not_tuple op t ts : unary_type op t <> Ok (TyTuple ts).
Proof. destruct op, t as [|[] n]; cbn; discriminate. Qed.

Lemma binary_not_tuple op t1 t2 ts : binary_type op t1 t2 <> Ok (TyTuple ts).
Proof. destruct op, t1 as [|[] n], t2 as [|[] m]; cbn; discriminate. Qed.

Lemma compare_not_tuple op t1 t2 ts : compare_type op t1 t2 <> Ok (TyTuple ts).
Proof.
  destruct op; cbn; try (destruct (is_compatible t1 t2); discriminate); destruct t1 as [|d n]; try discriminate;
    try (destruct t2 as [|d2 m]; try discriminate; destruct (dt_eqb _ _ && _); discriminate).
  destruct d; try discriminate. destruct t2 as [|[] m]; discriminate.
Qed.

Lemma between_not_tuple t t1 t2 ts : between_type t t1 t2 <> Ok (TyTuple ts).
Proof. destruct t, t1, t2; cbn; try discriminate. destruct (_ && _); discriminate. Qed.

Lemma validation_returns :
  (forall e, QE e) /\ (forall s, QSP s) /\ (forall s, QS s) /\ (forall c, QC c) /\ (forall e, QX e) /\ (forall t, QT t) /\
  (forall c, QR c) /\ (forall c, QK c).
Proof.
  apply sql_induction; unfold QE, QSP, QS, QC, QX, QT, QR, QK.
  - intros l _ x y Hx Hy. cbn. split; [apply returns_ok|]. intros ts H. inv_ok. destruct l; discriminate.
  - intros q _ x y Hx Hy. cbn. split; [apply returns_pure|]. intros ts H. inv_ok.
    apply scalars_name in H as (d & n & [=]). exact Hy.
  - intros es IH Hs x y Hx Hy. cbn in Hs |- *. split; [|reflexivity].
    apply returns_rbind; [|intros; apply returns_ok]. apply collect_returns. apply QE_list; assumption.
  - intros s IH Hs x y Hx Hy. cbn in Hs |- *. split.
    + apply returns_rbind; [auto|]. intros. apply returns_pure.
    + intros ts H. inv_ok. unfold select_scalar in H. destruct (r_attrs a) as [|b [|c l]]; discriminate.
  - intros op e IH Hs x y Hx Hy. cbn in Hs |- *. destruct (IH Hs x y Hx Hy) as [H1 H2]. split.
    + apply returns_rbind; [exact H1|]. intros. apply returns_pure.
    + intros ts H. inv_ok. apply unary_not_tuple in H. destruct H.
  - intros op l r IHl IHr Hs x y Hx Hy. cbn in Hs |- *. split_safe. split.
    + apply returns_rbind; [apply IHl; assumption|]. intros. apply returns_rbind; [apply IHr; assumption|]. intros. apply returns_pure.
    + intros ts H'. inv_ok. apply binary_not_tuple in H'. destruct H'.
  - intros op l r IHl IHr Hs x y Hx Hy. cbn in Hs |- *. split_safe. split.
    + apply returns_rbind; [apply IHl; assumption|]. intros. apply returns_rbind; [apply IHr; assumption|]. intros. apply returns_pure.
    + intros ts H'. inv_ok. apply compare_not_tuple in H'. destruct H'.
  - intros e s IHe IHs Hs x y Hx Hy. cbn in Hs |- *. split_safe. split.
    + apply returns_rbind; [apply IHe; assumption|]. intros. apply returns_rbind; [apply IHs; assumption|]. intros. apply returns_pure.
    + intros ts H'. inv_ok. unfold in_type in H'. destruct (r_attrs a0) as [|b [|c l]]; try discriminate.
      destruct (is_compatible a (attr_type b)) as [[]|]; discriminate.
  - intros e lo hi IHe IHlo IHhi Hs x y Hx Hy. cbn in Hs |- *. split_safe. split.
    + apply returns_rbind; [apply IHe; assumption|]. intros. apply returns_rbind; [apply IHlo; assumption|]. intros.
      apply returns_rbind; [apply IHhi; assumption|]. intros. apply returns_pure.
    + intros ts H'. inv_ok. apply between_not_tuple in H'. destruct H'.
  - intros o whens els IHo IHw IHe Hs x y Hx Hy. cbn in Hs. split_safe.
    match goal with H : forallb _ whens = true |- _ => apply forallb_Forall in H; rename H into Hw end.
    match goal with H : case_shape whens = true |- _ => rename H into Hsh end.
    assert (Hg : forall g, returns (guards (infer up x y) g whens)).
    { intros g. apply guards_returns. rewrite Forall_forall in *. intros p Hp. specialize (Hw p Hp). split_safe.
      destruct (IHw p Hp) as [H3 _]. apply H3; assumption. }
    destruct (bodies_returns (infer up x y) whens Hsh) as [Hb1 Hb2].
    { rewrite Forall_forall in *. intros p Hp. specialize (Hw p Hp). split_safe. destruct (IHw p Hp) as [_ H3]. apply H3; assumption. }
    set (el := match els with None => None | Some e => Some (infer up x y e) end).
    assert (He : if_some returns el).
    { unfold el. destruct els as [e|]; cbn in *; [apply IHe; assumption|exact I]. }
    assert (Hrest : returns (t <-? bodies (infer up x y) whens ;; else_type el t) /\
                    forall t, (t <-? bodies (infer up x y) whens ;; else_type el t) = ok t -> scalar_ty t).
    { split.
      - apply returns_rbind; [exact Hb1|]. intros t Ht. apply else_returns; [apply Hb2; exact Ht|exact He].
      - intros t Ht. inv_ok. eapply else_returns; [apply Hb2; eassumption|exact He|exact Ht]. }
    destruct Hrest as [Hr1 Hr2]. destruct o as [e|]; cbn [infer].
    + cbn in IHo. destruct (IHo ltac:(assumption) x y Hx Hy) as [H3 _]. split.
      * apply returns_rbind; [exact H3|]. intros te _. edestruct Hg as [u Hu]. rewrite Hu. cbn. exact Hr1.
      * intros ts H'. inv_ok. edestruct Hg as [u Hu]. rewrite Hu in H'. cbn in H'. apply Hr2 in H' as (d & n & [=]).
    + edestruct Hg as [u Hu]. rewrite Hu. cbn. split; [exact Hr1|]. intros ts H'. apply Hr2 in H' as (d & n & [=]).
  - intros s IH Hs x y Hx Hy. cbn in *. auto.
  - intros es IH Hs x y Hx Hy. cbn in *. split_safe.
    apply returns_rbind; [apply members_returns; [assumption|apply QE_list; assumption]|].
    intros t _. apply returns_rbind; [apply returns_pure|]. intros [d n] _. apply returns_ok.
  - intros q _ x y Hx Hy. cbn. apply resolve_returns. exact Hx.
  - intros common e order lim IHc IHe IHo IHl Hs x Hx. cbn in Hs. split_safe. cbn [infer_select].
    assert (Hc : returns (fold_err (fun y c => t <-? infer_cte up x c ;; pure (add_relation up y (cte_id c) (r_attrs t))) [] common) /\
                 forall y, fold_err (fun y c => t <-? infer_cte up x c ;; pure (add_relation up y (cte_id c) (r_attrs t))) [] common = ok y -> scalars y).
    { apply (fold_err_returns scalars); [constructor|].
      match goal with H : forallb safe_cte common = true |- _ => apply forallb_Forall in H; rename H into Hsc end.
      rewrite Forall_forall in *. intros c Hcin y Hy. split.
      - apply returns_rbind; [apply (IHc c Hcin (Hsc c Hcin)); exact Hx|]. intros. apply returns_pure.
      - intros y' H'. inv_ok. eapply scalars_relation; eassumption. }
    destruct Hc as [Hc1 Hc2]. apply returns_rbind; [exact Hc1|]. intros y Hy. apply Hc2 in Hy.
    apply returns_rbind; [apply IHe; assumption|]. intros t _.
    apply returns_rbind.
    + apply (fold_err_returns (fun _ => True)); [exact I|].
      match goal with H : forallb _ order = true |- _ => apply forallb_Forall in H; rename H into Hso end.
      rewrite Forall_forall in *. intros o Ho s _. split; [|auto].
      apply returns_rbind; [apply (IHo o Ho (Hso o Ho)); assumption|]. intros. apply returns_rbind; [apply returns_pure|]. intros. apply returns_ok.
    + intros _ _. destruct lim as [[a b]|]; [|apply returns_ok]. cbn in *. split_safe. destruct IHl as [I1 I2].
      apply returns_rbind; [apply I1; [assumption|exact Hx|constructor]|]. intros n _.
      apply returns_rbind; [apply returns_pure|]. intros _ _. destruct b as [b|]; [|apply returns_ok].
      apply returns_rbind; [apply I2; [assumption|exact Hx|constructor]|]. intros n' _.
      apply returns_rbind; [apply returns_pure|]. intros. apply returns_ok.
  - intros id columns q IH Hs x Hx. cbn in *. apply returns_rbind; [auto|]. intros t _.
    destruct columns; [|apply returns_ok]. apply returns_rbind; [apply returns_pure|]. intros. apply returns_ok.
  - intros rows IH Hs x Hx. cbn in *. split_safe. apply values_returns; [assumption|].
    match goal with H : forallb _ rows = true |- _ => apply forallb_Forall in H; rename H into Hsr end.
    rewrite Forall_forall in IH, Hsr. apply Forall_forall. intros r Hr. apply QE_list; [exact (IH r Hr)|exact (Hsr r Hr)|exact Hx|constructor].
  - intros mode columns from wh group IHc IHf IHw IHg Hs x Hx. cbn in Hs. split_safe. cbn [infer_set].
    match goal with H : forallb safe_table from = true |- _ => apply forallb_Forall in H; rename H into Hsf end.
    assert (Hf : returns (fold_err (fun '(y, attrs) t => '(y', attrs') <-? infer_table up x y t ;; ok (y', attrs ++ attrs'))
                                   (([], []) : symbols * list attribute) from) /\
                 forall s, fold_err (fun '(y, attrs) t => '(y', attrs') <-? infer_table up x y t ;; ok (y', attrs ++ attrs'))
                                   (([], []) : symbols * list attribute) from = ok s -> scalars (fst s)).
    { apply (fold_err_returns (fun s => scalars (fst s))); [constructor|].
      rewrite Forall_forall in *. intros t Ht [y attrs] Hy. cbn in Hy.
      destruct (IHf t Ht (Hsf t Ht) x y Hx Hy) as [H3 H4]. split.
      - apply returns_rbind; [exact H3|]. intros [y' l] _. apply returns_ok.
      - intros s' H'. inv_ok. subst s'. cbn. eapply H4. eassumption. }
    destruct Hf as [Hf1 Hf2]. apply returns_rbind; [exact Hf1|]. intros [y attrs] Hy. apply Hf2 in Hy. cbn in Hy.
    apply returns_rbind.
    { destruct wh as [e|]; [|apply returns_ok]. cbn in *. apply returns_rbind; [apply IHw; assumption|]. intros. apply returns_pure. }
    intros _ _. apply returns_rbind; [|intros; apply IHc; assumption].
    destruct group as [[gs having]|]; [|apply returns_ok]. cbn in *. split_safe. destruct IHg as [I1 I2].
    apply returns_rbind.
    { apply (fold_err_returns (fun _ => True)); [exact I|].
      assert (Hq : Forall (fun e => returns (infer up x y e)) gs) by (apply QE_list; assumption).
      revert Hq. apply Forall_impl. intros e He s _. split; [|auto]. apply returns_rbind; [exact He|]. intros. apply returns_ok. }
    intros _ _. destruct having as [e|]; [|apply returns_ok]. cbn in *.
    apply returns_rbind; [apply I2; assumption|]. intros. apply returns_pure.
  - intros op l r IHl IHr Hs x Hx. cbn in *. split_safe.
    apply returns_rbind; [auto|]. intros. apply returns_rbind; [auto|]. intros.
    apply returns_rbind; [apply returns_pure|]. intros. apply returns_ok.
  - intros q alias _ x y Hx Hy. cbn. split.
    + apply returns_rbind; [apply resolve_returns; exact Hx|]. intros t Ht.
      assert (Hid : exists id, match alias with Some id => Ret id | None => last_name q end = Ret id).
      { destruct alias; [eexists; reflexivity|]. eapply last_returns. exact Ht. }
      destruct Hid as [id ->]. cbn. apply returns_rbind; [apply returns_pure|]. intros. apply returns_ok.
    + intros y' l H. inv_ok.
      assert (Hid : exists id, match alias with Some id => Ret id | None => last_name q end = Ret id).
      { destruct alias; [eexists; reflexivity|]. eapply last_returns. eassumption. }
      destruct Hid as [id Hid]. rewrite Hid in H. cbn in H. inv_ok. injection H as <- <-. eapply scalars_relation; eassumption.
  - intros s alias IH Hs x y Hx Hy. cbn in *. split.
    + apply returns_rbind; [auto|]. intros. apply returns_ok.
    + intros y' l H. inv_ok. injection H as <- <-. exact Hy.
  - intros l r op c IHl IHr _ Hs x y Hx Hy. cbn in *. split_safe.
    match goal with H : safe_table l = true |- _ => destruct (IHl H x y Hx Hy) as [L1 L2] end. split.
    + apply returns_rbind; [exact L1|]. intros [y1 l1] E1.
      apply returns_rbind; [apply IHr; eauto|]. intros [y2 l2] _. apply returns_ok.
    + intros y' l' H'. inv_ok. injection H' as <- <-.
      eapply (IHr ltac:(assumption) x s Hx); [|eassumption]. eapply L2. eassumption.
  - intros _ x y l Hx Hy. cbn. apply returns_ok.
  - intros l IH Hs x y attrs Hx Hy. cbn in *. apply returns_rbind.
    + apply (fold_err_returns (fun _ => True)); [exact I|]. apply forallb_Forall in Hs. rewrite Forall_forall in *.
      intros c Hc st _. split; [apply IH; auto|auto].
    + intros [cols g] _. apply returns_ok.
  - intros n _ x y st Hx Hy. cbn. destruct (nget up y n) as [[]|] eqn:E; try apply returns_err.
    pose proof (scalars_get _ _ _ Hy E) as H. cbn in H. destruct (relation_columns_returns st m H) as [st' ->]. cbn. apply returns_ok.
  - intros e rename IH Hs x y st Hx Hy. cbn in *.
    apply returns_rbind; [apply IH; assumption|]. intros t _. apply returns_rbind; [apply returns_pure|].
    intros [d n] _. apply returns_ok.
Qed.

Theorem validate_returns x s : registered up x -> safe_sql s = true -> returns (validate up x s).
Proof.
  destruct validation_returns as (VE & _ & VS & _ & VX & _).
  intros Hx Hs.
  assert (Hw : forall q t wh, resolve_table up x q = ok t -> match wh with None => true | Some e => safe e end = true ->
    forall y, scalars y -> returns (match wh with None => ok tt | Some e => st <-? infer up x y e ;; pure (logical st) end)).
  { intros q t [e|] _ He y Hy; [|apply returns_ok].
    apply returns_rbind; [apply VE; assumption|]. intros. apply returns_pure. }
  assert (Hst : forall s, safe_statement s = true -> returns (validate_statement up x s)).
  { clear s Hs. intros [s|i|d|u] Hs; cbn in *.
    - apply returns_rbind; [apply VS; assumption|]. intros. apply returns_ok.
    - unfold validate_insert. apply returns_rbind; [apply resolve_returns; exact Hx|]. intros t _.
      apply returns_rbind; [apply VX; assumption|]. intros v _. apply returns_rbind.
      + destruct (i_columns i).
        * destruct (negb _); [apply returns_err|].
          apply (fold_err_returns (fun _ => True)); [exact I|]. apply Forall_forall. intros. split; [apply returns_pure|auto].
        * apply (fold_err_returns (fun _ => True)); [exact I|]. apply Forall_forall. intros. split; [apply returns_pure|auto].
      + intros m _. destruct (existsb _ m); [apply returns_err|apply returns_ok].
    - unfold validate_delete. apply returns_rbind; [apply resolve_returns; exact Hx|]. intros t Ht.
      destruct (last_returns _ _ _ Ht) as [id ->]. cbn. apply returns_rbind; [apply returns_pure|]. intros y Hy. inv_ok.
      eapply Hw; [exact Ht|exact Hs|]. eapply scalars_relation; [|exact Hy]. constructor.
    - unfold validate_update. apply andb_true_iff in Hs as [Hs1 Hs2].
      apply returns_rbind; [apply resolve_returns; exact Hx|]. intros t Ht.
      destruct (last_returns _ _ _ Ht) as [id ->]. cbn. apply returns_rbind; [apply returns_pure|]. intros y Hy. inv_ok.
      assert (Hsc : scalars y) by (eapply scalars_relation; [|exact Hy]; constructor).
      apply returns_rbind.
      + apply (fold_err_returns (fun _ => True)); [exact I|]. apply forallb_Forall in Hs1. rewrite Forall_forall in *.
        intros a Ha asg _. split; [|auto]. apply returns_rbind; [apply VE; auto|]. intros st _.
        apply returns_rbind; [apply returns_pure|]. intros [d n] _.
        apply (fold_err_returns (fun _ => True)); [exact I|]. apply Forall_forall. intros. split; [apply returns_pure|auto].
      + intros _ _. eapply Hw; [exact Ht|exact Hs2|exact Hsc]. }
  destruct s as [s|s|q p|q]; cbn; auto.
  - apply returns_ok.
  - apply returns_rbind; [apply resolve_returns; exact Hx|]. intros. apply returns_ok.
Qed.

(** ** The excluded situations panic *)

Lemma empty_in_panics x y e t : infer up x y e = ok t -> infer up x y (EIn e (SpList [])) = Panic.
Proof. intros H. cbn. rewrite H. reflexivity. Qed.

Lemma empty_values_panics x : infer_set up x (SValues []) = Panic.
Proof. reflexivity. Qed.

Lemma empty_case_panics x y els : infer up x y (ECase None [] els) = Panic.
Proof. reflexivity. Qed.

Lemma empty_switch_panics x y e els t : infer up x y e = ok t -> infer up x y (ECase (Some e) [] els) = Panic.
Proof. intros H. cbn. rewrite H. reflexivity. Qed.

Lemma row_case_panics x y g es els t r : infer up x y g = Ret r -> infer up x y (ETuple es) = ok t ->
  infer up x y (ECase None [(g, ETuple es)] els) = Panic.
Proof.
  intros Hg Ht. cbn [infer]. cbn [guards]. rewrite Hg. cbn.
  replace (match r with Ok t0 => match logical t0 with Ok _ => Ret tt | Err _ => Ret tt end | Err _ => Ret tt end) with (Ret tt)
    by (destruct r as [t0|]; [destruct (logical t0)|]; reflexivity).
  cbn in *. inv_ok. rewrite E. cbn. subst. destruct els; reflexivity.
Qed.

Lemma default_missing_panics x n : nget up (x_namespaces x) (x_default x) = None -> nget up (x_tables x) n = None ->
  resolve_table up x [n] = Panic.
Proof. intros H1 H2. cbn. rewrite H2, H1. reflexivity. Qed.

End Panic.
