(** * Validation accepts exactly what the typing rules allow *)

From Coq Require Import Strings.String Sorting.Sorted Sorting.Permutation.
From Verif Require Import Base StrModel StrFacts SqlNameModel SqlModel SqlNameProofs SqlTypeProofs SqlSpec SqlScope SqlEval
  SqlInd SqlSafeSpec SqlPanic SqlStmtSpec SqlStmt SqlColumnsSpec SqlColumns SqlFromSpec SqlFrom SqlRules SqlRulesBase SqlRulesNames.
Local Open Scope list_scope.

Local Arguments rbind : simpl never.

Section Proofs.
Context (up : Z -> list Z) (x : set_context) (g : Prop) (Hx : g -> registered up x).
Notation agree := (agree g).
Notation same := (name_eqb up).

Context (tables : list name -> list attribute -> Prop)
  (Ht : forall q attrs, (exists r, resolve_table up x q = ok r /\ r_attrs r = attrs) <-> tables q attrs).

Notation typed := (typed up tables).
Notation scope rels y := (add_relations up [] rels = Ok y).

(** ** Scopes *)

Lemma scope_scalars rels y : scope rels y -> scalars y.
Proof.
  assert (H : forall y0, scalars y0 -> forall y, add_relations up y0 rels = Ok y -> scalars y).
  { induction rels as [|[n attrs] rels IH]; cbn; intros y0 H0 y1 H1; [injection H1 as <-; exact H0|].
    destruct (add_relation up y0 n attrs) as [y2|] eqn:E; [|discriminate]. eapply IH; [|exact H1].
    eapply scalars_relation; eassumption. }
  apply H. constructor.
Qed.

Lemma refers_ok rels y q t : scope rels y -> (name_type up y q = Ok t <-> refers up rels q t).
Proof.
  intros E. destruct q as [|a [|b [|c q]]]; cbn [refers].
  - split; [discriminate|intros []].
  - apply unqualified; exact E.
  - apply qualified; exact E.
  - split; [discriminate|intros []].
Qed.

(** ** The induction *)

Definition RE (e : expr) : Prop := forall rels y, scope rels y -> forall t, agree (safe e) (infer up x y e = ok t) (typed rels e t).

Definition has (r : res row_type) (attrs : list attribute) : Prop := exists rt, r = ok rt /\ r_attrs rt = attrs.

Definition RSP (s : set_spec) : Prop := forall rels y, scope rels y -> forall d m,
  agree (safe_spec s) (exists a, has (infer_spec up x y s) [a] /\ a_type a = d /\ a_null a = m) (members_typed up tables rels s d m).
Definition RS (s : select) : Prop := forall attrs, agree (safe_select s) (has (infer_select up x s) attrs) (selects up tables s attrs).
Definition RC (c : cte) : Prop := forall attrs, agree (safe_cte c) (has (infer_cte up x c) attrs) (common_table up tables c attrs).
Definition RX (e : set_expr) : Prop := forall attrs, agree (safe_set e) (has (infer_set up x e) attrs) (set_typed up tables e attrs).
Definition RT (t : table_expr) : Prop := forall rels attrs, agree (safe_table t) (scope_of up x t rels attrs) (item_typed up tables t rels attrs).
Definition RK (c : result_column) : Prop := forall rels y, scope rels y -> forall l,
  agree (safe_column c) (requested up x y c l) (column_typed up tables rels c l).
Definition RR (c : result_columns) : Prop := forall rels y, scope rels y -> forall attrs given,
  agree (safe_columns c) (has (infer_columns up x y attrs c) given)
        (exists req, columns_typed up tables rels attrs c req /\ labelled up req given).

Lemma RE_list es rels y : Forall RE es -> scope rels y -> Forall (fun e => forall t, agree (safe e) (infer up x y e = ok t) (typed rels e t)) es.
Proof. intros H E. revert H. apply Forall_impl. intros e He t. apply He; exact E. Qed.

Lemma empty_scope : scope [] [].
Proof. reflexivity. Qed.

(** *** Queries *)

Lemma first_row_agree es : Forall RE es -> forall k attrs,
  agree (forallb safe es) (first_row (infer up x []) k es = ok attrs) (first_typed up tables k es attrs).
Proof.
  induction 1 as [|e es He Hes IH]; intros k attrs; cbn [first_row forallb].
  - split; [intros H; apply ok_inj in H as <-; constructor|]. intros _ _ H. inversion H; reflexivity.
  - split.
    + intros H. apply rbind_ok in H as (t & Et & H). apply rbind_ok in H as ([d n] & Es & H). apply pure_ok, scalar_ok in Es as ->.
      apply rbind_ok in H as (rest & Er & H). apply ok_inj in H as <-.
      apply (f_cons _ _ k e es d n (show_nat k)); [apply (He [] [] empty_scope); exact Et|apply (show_numeral up)|apply IH; exact Er].
    + intros Hg Hs H. apply andb_true_iff in Hs as [S1 S2]. inversion H as [|? ? ? d n s rest T N F]; subst.
      apply rbind_ok. exists (TyScalar d n). split; [apply (He [] [] empty_scope); assumption|].
      apply rbind_ok. exists (d, n). split; [apply pure_ok, scalar_ok; reflexivity|].
      apply rbind_ok. exists rest. split; [apply IH; assumption|].
      rewrite (numeral_inj _ _ _ N (show_numeral up k)). reflexivity.
Qed.

Lemma next_row_agree es : Forall RE es -> forall attrs attrs',
  agree (forallb safe es) (next_row (infer up x []) attrs es = ok attrs') (row_typed up tables attrs es attrs').
Proof.
  induction 1 as [|e es He Hes IH]; intros attrs attrs'; cbn [next_row forallb].
  - split.
    + intros H. assert (attrs' = []) as -> by (destruct attrs; apply ok_inj in H; congruence). constructor.
    + intros _ _ H. inversion H; destruct attrs; reflexivity.
  - destruct attrs as [|a attrs].
    + split; [intros H; apply ok_inj in H as <-; constructor|]. intros _ _ H. inversion H; reflexivity.
    + split.
      * intros H. apply rbind_ok in H as (t & Et & H). apply rbind_ok in H as (u & Eu & H). apply pure_ok in Eu.
        destruct u as [us|d n]; [discriminate|]. apply unify_scalar in Eu as (n1 & n2 & [= <- <-] & -> & ->).
        apply rbind_ok in H as (rest & Er & H). apply ok_inj in H as <-.
        constructor; [apply (He [] [] empty_scope); exact Et|apply IH; exact Er].
      * intros Hg Hs H. apply andb_true_iff in Hs as [S1 S2]. inversion H as [| |? ? ? ? n rest T F]; subst.
        apply rbind_ok. exists (TyScalar (a_type a) n). split; [apply (He [] [] empty_scope); assumption|].
        apply rbind_ok. exists (TyScalar (a_type a) (a_null a || n)).
        split; [apply pure_ok, unify_scalar; unfold attr_type; eauto|].
        apply rbind_ok. exists rest. split; [apply IH; assumption|reflexivity].
Qed.

Lemma next_rows_agree rows : Forall (Forall RE) rows -> forall attrs attrs',
  agree (forallb (forallb safe) rows) (fold_err (next_row (infer up x [])) attrs rows = ok attrs') (rows_typed up tables attrs rows attrs').
Proof.
  induction 1 as [|row rows Hr Hrs IH]; intros attrs attrs'; cbn [fold_err forallb].
  - split; [intros H; apply ok_inj in H as <-; constructor|]. intros _ _ H. inversion H; reflexivity.
  - split.
    + intros H. apply rbind_ok in H as (a1 & E1 & H). econstructor; [apply next_row_agree; eassumption|apply IH; exact H].
    + intros Hg Hs H. apply andb_true_iff in Hs as [S1 S2]. inversion H as [|? ? ? a1 ? T F]; subst.
      apply rbind_ok. exists a1. split; [apply next_row_agree; assumption|apply IH; assumption].
Qed.

(** A scope made by common table expressions. *)
Lemma ctes_ok common : forall y0 y,
  fold_err (fun y c => t <-? infer_cte up x c ;; pure (add_relation up y (cte_id c) (r_attrs t))) y0 common = ok y <->
  exists rels, Forall2 (fun c r => fst r = cte_id c /\ has (infer_cte up x c) (snd r)) common rels /\ add_relations up y0 rels = Ok y.
Proof.
  induction common as [|c common IH]; intros y0 y; cbn [fold_err].
  - split.
    + intros H. apply ok_inj in H as <-. exists []. split; [constructor|reflexivity].
    + intros (rels & F & A). inversion F; subst. cbn in A. injection A as <-. reflexivity.
  - rewrite rbind_ok. split.
    + intros (y1 & E & H). apply rbind_ok in E as (t & Et & E). apply pure_ok in E. apply IH in H as (rels & F & A).
      exists ((cte_id c, r_attrs t) :: rels). split; [constructor; [|exact F]; split; [reflexivity|exists t; auto]|]. cbn. rewrite E. exact A.
    + intros (rels & F & A). inversion F as [|? [n attrs] ? rels' [En (t & Et & Ea)] F']; subst. cbn in En, Et. cbn in Ea. cbn [add_relations] in A. subst n attrs.
      destruct (add_relation up y0 (cte_id c) (r_attrs t)) as [y1|] eqn:E; [|discriminate A].
      exists y1. split; [|apply IH; eauto]. apply rbind_ok. exists t. split; [exact Et|]. apply pure_ok. exact E.
Qed.

Lemma order_ok y (order : list (expr * option name * direction)) :
  fold_err (fun (_ : unit) o => t <-? infer up x y (fst (fst o)) ;; _ <-? pure (scalar t) ;; ok tt) tt order = ok tt <->
  Forall (fun o => exists d n, infer up x y (fst (fst o)) = ok (TyScalar d n)) order.
Proof.
  induction order as [|o order IH]; cbn [fold_err]; [split; [constructor|reflexivity]|]. rewrite rbind_ok. split.
  - intros ([] & E & H). apply rbind_ok in E as (t & Et & E). apply rbind_ok in E as ([d n] & Es & _). apply pure_ok, scalar_ok in Es as ->.
    constructor; [eauto|apply IH; exact H].
  - intros H. inversion H as [|? ? (d & n & Et) Hos]; subst. exists tt. split; [|apply IH; exact Hos].
    apply rbind_ok. exists (TyScalar d n). split; [exact Et|]. reflexivity.
Qed.

Lemma limit_part (rt : row_type) lim r :
  match lim with
  | None => ok rt
  | Some (rows, offset) =>
      n <-? infer up x [] rows ;; _ <-? pure (limit_number n) ;;
      match offset with
      | None => ok rt
      | Some o => n <-? infer up x [] o ;; _ <-? pure (limit_number n) ;; ok rt
      end
  end = ok r <->
  opt (fun l => infer up x [] (fst l) = ok (TyScalar DNumeric false) /\
                opt (fun e => infer up x [] e = ok (TyScalar DNumeric false)) (snd l)) lim /\ r = rt.
Proof.
  destruct lim as [[rows offset]|].
  - rewrite rbind_ok. split.
    + intros (n & En & H). apply rbind_ok in H as ([] & El & H). apply pure_ok, limit_ok in El as ->.
      destruct offset as [o|].
      * apply rbind_ok in H as (n & En' & H). apply rbind_ok in H as ([] & El & H). apply pure_ok, limit_ok in El as ->.
        apply ok_inj in H as <-. split; [|reflexivity]. constructor. cbn. split; [exact En|]. constructor. exact En'.
      * apply ok_inj in H as <-. split; [|reflexivity]. constructor. cbn. split; [exact En|constructor].
    + intros [H ->]. inversion H as [|? [H1 H2]]; subst. cbn in H1, H2. exists (TyScalar DNumeric false). split; [exact H1|].
      apply rbind_ok. exists tt. split; [reflexivity|]. inversion H2 as [|o Ho]; subst; [reflexivity|].
      apply rbind_ok. exists (TyScalar DNumeric false). split; [exact Ho|]. reflexivity.
  - split; [intros H; apply ok_inj in H as <-; split; [constructor|reflexivity]|]. intros [_ ->]. reflexivity.
Qed.

Lemma select_ok common e order lim attrs :
  has (infer_select up x (Select common e order lim)) attrs <->
  exists rels y, Forall2 (fun c r => fst r = cte_id c /\ has (infer_cte up x c) (snd r)) common rels /\ scope rels y /\
    has (infer_set up x e) attrs /\ Forall (fun o => exists d n, infer up x y (fst (fst o)) = ok (TyScalar d n)) order /\
    opt (fun l => infer up x [] (fst l) = ok (TyScalar DNumeric false) /\
                  opt (fun e => infer up x [] e = ok (TyScalar DNumeric false)) (snd l)) lim.
Proof.
  unfold has at 1. cbn [infer_select]. split.
  - intros (rt & H & A). apply rbind_ok in H as (y & Ey & H). apply ctes_ok in Ey as (rels & F & Sc).
    apply rbind_ok in H as (t & Et & H). apply rbind_ok in H as ([] & Eo & H). apply order_ok in Eo.
    apply limit_part in H as [L ->]. exists rels, y. split; [exact F|]. split; [exact Sc|]. split; [exists t; auto|]. auto.
  - intros (rels & y & F & Sc & (t & Et & A) & O & L). exists t. split; [|exact A]. apply rbind_ok. exists y.
    split; [apply ctes_ok; eauto|]. apply rbind_ok. exists t. split; [exact Et|]. apply rbind_ok. exists tt.
    split; [apply order_ok; exact O|]. apply limit_part. auto.
Qed.

Lemma scopes_ok from : forall rels attrs, scopes_of up x from rels attrs <->
  exists parts, Forall2 (fun t p => scope_of up x t (fst p) (snd p)) from parts /\ rels = flat_map fst parts /\ attrs = flat_map snd parts.
Proof.
  induction from as [|t from IH]; intros rels attrs; split.
  - intros H. inversion H; subst. exists []. split; [constructor|auto].
  - intros (parts & F & -> & ->). inversion F; subst. constructor.
  - intros H. inversion H as [|? ? r1 r2 a1 a2 H1 H2]; subst. apply IH in H2 as (parts & F & -> & ->).
    exists ((r1, a1) :: parts). split; [constructor; assumption|auto].
  - intros (parts & F & -> & ->). inversion F as [|? [r1 a1] ? parts' H1 H2]; subst. cbn. constructor; [exact H1|]. apply IH. eauto.
Qed.

Lemma condition_opt y e : condition up x y e <-> opt (fun e => exists n, infer up x y e = ok (TyScalar DLogical n)) e.
Proof.
  destruct e as [e|]; cbn; split; try (intros; constructor; assumption); auto.
  - intros H. inversion H; assumption.
Qed.

Lemma grouping_opt y gr : grouping up x y gr <->
  opt (fun g => Forall (fun e => exists t, infer up x y e = ok t) (fst g) /\
                opt (fun e => exists n, infer up x y e = ok (TyScalar DLogical n)) (snd g)) gr.
Proof.
  destruct gr as [[es having]|]; cbn; split; auto.
  - intros [H1 H2]. constructor. cbn. split; [exact H1|apply condition_opt; exact H2].
  - intros H. inversion H as [|? [H1 H2]]; subst. cbn in H1, H2. split; [exact H1|apply condition_opt; exact H2].
  - intros _. constructor.
Qed.

(** *** All together *)

Lemma distinct_scope rels : distinct up (map fst rels) -> exists y, scope rels y.
Proof. apply add_relations_ok. Qed.

Lemma scope_distinct rels y : scope rels y -> distinct up (map fst rels).
Proof. intros E. apply add_relations_ok. eauto. Qed.

Lemma rules_agree :
  (forall e, RE e) /\ (forall s, RSP s) /\ (forall s, RS s) /\ (forall c, RC c) /\ (forall e, RX e) /\ (forall t, RT t) /\
  (forall c, RR c) /\ (forall c, RK c).
Proof.
  apply sql_induction.
  - (* literals *) intros l rels y Sc t. cbn [infer]. rewrite literal_ok. apply agree_iff. split.
    + intros H. apply ok_inj in H as <-. constructor.
    + intros H. inversion H; reflexivity.
  - (* names *) intros q rels y Sc t. cbn [infer]. apply agree_iff. rewrite pure_ok, (refers_ok _ _ _ _ Sc). split.
    + constructor; assumption.
    + intros H. inversion H; assumption.
  - (* rows *) intros es IH rels y Sc t. cbn [infer safe]. pose proof (Forall2_agree g _ _ _ _ (RE_list _ _ _ IH Sc)) as A. split.
    + intros H. apply rbind_ok in H as (ts & E & H). apply ok_inj in H as <-. apply collect_ok in E. constructor. apply A; exact E.
    + intros Hg Hs H. inversion H as [| |? ? ts F| | | | | | |]; subst. apply rbind_ok. exists ts. split; [|reflexivity].
      apply collect_ok. apply A; assumption.
  - (* subqueries *) intros s IH rels y Sc t. cbn [infer safe]. split.
    + intros H. apply rbind_ok in H as (r & Er & H). apply pure_ok in H. unfold select_scalar in H.
      destruct (r_attrs r) as [|a [|b l]] eqn:Ea; try discriminate. injection H as <-. constructor. apply IH. exists r. auto.
    + intros Hg Hs H. inversion H as [| | | | | | | | |? ? a Ss]; subst. apply IH in Ss as (r & Er & Ea); [|assumption..].
      apply rbind_ok. exists r. split; [exact Er|]. apply pure_ok. unfold select_scalar. rewrite Ea. reflexivity.
  - (* unary *) intros op e IH rels y Sc t. cbn [infer safe]. split.
    + intros H. apply rbind_ok in H as (t0 & E & H). apply pure_ok, unary_ok in H. eapply t_unary; [apply (IH _ _ Sc); exact E|exact H].
    + intros Hg Hs H. inversion H as [| | |? ? ? t0 ? T U| | | | | |]; subst. apply rbind_ok. exists t0.
      split; [apply (IH _ _ Sc); assumption|apply pure_ok, unary_ok; exact U].
  - (* binary *) intros op l r IHl IHr rels y Sc t. cbn [infer safe]. split.
    + intros H. apply rbind_ok in H as (t1 & E1 & H). apply rbind_ok in H as (t2 & E2 & H). apply pure_ok, binary_ok in H.
      eapply t_binary; [apply (IHl _ _ Sc); exact E1|apply (IHr _ _ Sc); exact E2|exact H].
    + intros Hg Hs H. apply andb_true_iff in Hs as [S1 S2]. inversion H as [| | | |? ? ? ? t1 t2 ? T1 T2 U| | | | |]; subst.
      apply rbind_ok. exists t1. split; [apply (IHl _ _ Sc); assumption|]. apply rbind_ok. exists t2. split; [apply (IHr _ _ Sc); assumption|].
      apply pure_ok, binary_ok; exact U.
  - (* comparisons *) intros op l r IHl IHr rels y Sc t. cbn [infer safe]. split.
    + intros H. apply rbind_ok in H as (t1 & E1 & H). apply rbind_ok in H as (t2 & E2 & H). apply pure_ok, compare_ok in H.
      eapply t_compare; [apply (IHl _ _ Sc); exact E1|apply (IHr _ _ Sc); exact E2|exact H].
    + intros Hg Hs H. apply andb_true_iff in Hs as [S1 S2]. inversion H as [| | | | |? ? ? ? t1 t2 ? T1 T2 U| | | |]; subst.
      apply rbind_ok. exists t1. split; [apply (IHl _ _ Sc); assumption|]. apply rbind_ok. exists t2. split; [apply (IHr _ _ Sc); assumption|].
      apply pure_ok, compare_ok; exact U.
  - (* IN *) intros e s IHe IHs rels y Sc t. cbn [safe]. split.
    + intros H. apply in_iff in H as (d & n & r & a & Et & Er & Ea & <- & N & ->).
      eapply t_in; [apply (IHe _ _ Sc); exact Et|apply (IHs _ _ Sc); exists a; split; [exists r; auto|split; reflexivity]|].
      apply orb_true_iff. exact N.
    + intros Hg Hs H. apply andb_true_iff in Hs as [S1 S2]. inversion H as [| | | | | | | |? ? ? d n m T M N|]; subst.
      apply (IHs _ _ Sc) in M as (a & (r & Er & Ea) & <- & <-); [|assumption..]. apply in_iff.
      exists (a_type a), n, r, a. split; [apply (IHe _ _ Sc); assumption|]. apply orb_true_iff in N. auto.
  - (* BETWEEN *) intros e lo hi IHe IHlo IHhi rels y Sc t. cbn [infer safe]. split.
    + intros H. apply rbind_ok in H as (t1 & E1 & H). apply rbind_ok in H as (t2 & E2 & H). apply rbind_ok in H as (t3 & E3 & H).
      apply pure_ok, between_ok in H as (d & n1 & n2 & n3 & -> & -> & -> & O & ->).
      eapply t_between; [apply (IHe _ _ Sc)|apply (IHlo _ _ Sc)|apply (IHhi _ _ Sc)|]; eassumption.
    + intros Hg Hs H. apply andb_true_iff in Hs as [Hs S3]. apply andb_true_iff in Hs as [S1 S2].
      inversion H as [| | | | | |? ? ? ? d n1 n2 n3 T1 T2 T3 O| | |]; subst.
      apply rbind_ok. eexists. split; [apply (IHe _ _ Sc); eassumption|]. apply rbind_ok. eexists. split; [apply (IHlo _ _ Sc); eassumption|].
      apply rbind_ok. eexists. split; [apply (IHhi _ _ Sc); eassumption|]. apply pure_ok, between_ok. eauto 10.
  - (* CASE *) intros o whens els IHo IHw IHe rels y Sc t.
    assert (Gr : g -> safe (ECase o whens els) = true -> forall gd, exists u, guards (infer up x y) gd whens = Ret u).
    { cbn [safe]. intros Hg Hs gd. apply andb_true_iff in Hs as [Hs _]. apply andb_true_iff in Hs as [_ Hw].
      apply guards_returns. apply forallb_Forall in Hw. revert Hw. apply Forall_impl. intros w Hw. apply andb_true_iff in Hw as [Hw _].
      apply (proj1 (validation_returns up)); [exact Hw|exact (Hx Hg)|eapply scope_scalars; exact Sc]. }
    assert (Wn : Forall (fun w => forall d n, agree (safe (fst w) && safe (snd w)) (infer up x y (snd w) = ok (TyScalar d n))
                                    (typed rels (snd w) (TyScalar d n))) whens).
    { revert IHw. apply Forall_impl. intros w [_ H] d n. eapply agree_weaken; [|apply H; exact Sc].
      intros Hs. apply andb_true_iff in Hs as [_ Hs]. exact Hs. }
    assert (W : forall d ns, agree (forallb (fun p => safe (fst p) && safe (snd p)) whens)
                (Forall2 (fun w n => infer up x y (snd w) = ok (TyScalar d n)) whens ns)
                (Forall2 (fun w n => typed rels (snd w) (TyScalar d n)) whens ns)).
    { intros d ns. apply (Forall2_agree g (fun p => safe (fst p) && safe (snd p))). revert Wn. apply Forall_impl. auto. }
    assert (L : forall d m, agree (safe_opt safe els) (else_ok (infer up x y) els d m) (otherwise up tables rels d els m)).
    { intros d m. destruct els as [b|]; cbn.
      - cbn in IHe. split; [intros H; constructor; apply (IHe _ _ Sc); exact H|]. intros Hg Hs H. inversion H; subst. apply (IHe _ _ Sc); assumption.
      - split; [intros ->; constructor|]. intros _ _ H. inversion H; reflexivity. }
    assert (O : agree (safe_opt safe o) (opt (fun e => exists t, infer up x y e = ok t) o) (opt (fun e => exists t, typed rels e t) o)).
    { apply opt_agree. destruct o as [e|]; [|exact I]. cbn in *. apply agree_ex. intros t'. apply IHo; exact Sc. }
    assert (Core : forall u, (t <-? bodies (infer up x y) whens ;;
                       else_type (match els with None => None | Some e => Some (infer up x y e) end) t) = ok u ->
                     opt (fun e => exists t, infer up x y e = ok t) o -> typed rels (ECase o whens els) u).
    { intros u H Ho. apply case_ok in H as (Hn & d & ns & m & F & E & ->). eapply t_case; [exact Hn|apply O; exact Ho|apply W; exact F|apply L; exact E]. }
    split.
    + intros H. destruct o as [e|]; cbn [infer] in H.
      * apply rbind_ok in H as (te & Ee & H). destruct (guards _ _ whens) as [u| |]; try discriminate. cbn [bind] in H.
        apply Core; [exact H|]. constructor. eauto.
      * destruct (guards _ _ whens) as [u| |]; try discriminate. cbn [bind] in H. apply Core; [exact H|constructor].
    + intros Hg Hs H. specialize (Gr Hg Hs). cbn [safe] in Hs.
      apply andb_true_iff in Hs as [Hs S4]. apply andb_true_iff in Hs as [Hs S3]. apply andb_true_iff in Hs as [S1 S2].
      inversion H as [| | | | | | |? ? ? ? d ns m Hn Ho F E| |]; subst. apply O in Ho; [|assumption..]. apply W in F; [|assumption..]. apply L in E; [|assumption..].
      assert (C : (t <-? bodies (infer up x y) whens ;;
                   else_type (match els with None => None | Some e => Some (infer up x y e) end) t) = ok (TyScalar d (any ns || m)))
        by (apply case_ok; eauto 10).
      destruct o as [e|]; cbn [infer].
      * inversion Ho as [|? [te Te]]; subst. apply rbind_ok. exists te. split; [exact Te|].
        destruct (Gr (fun t => match is_compatible t te with Ok true => Ok tt | _ => Err tt end)) as [u Eu]. rewrite Eu. exact C.
      * destruct (Gr logical) as [u Eu]. rewrite Eu. exact C.
  - (* IN (SELECT) *) intros s IH rels y Sc d m. cbn [infer_spec safe_spec]. split.
    + intros (a & H & <- & <-). apply IH in H. constructor; exact H.
    + intros Hg Hs H. inversion H as [| |? ? a Ss]; subst. exists a. split; [apply IH; assumption|auto].
  - (* IN (list) *) intros es IH rels y Sc d m. cbn [infer_spec safe_spec].
    assert (A : forall d ns, agree (forallb safe es) (Forall2 (fun e n => infer up x y e = ok (TyScalar d n)) es ns)
                                (Forall2 (fun e n => typed rels e (TyScalar d n)) es ns)).
    { intros d' ns. apply (Forall2_agree g safe). revert IH. apply Forall_impl. intros e He n. apply He; exact Sc. }
    split.
    + intros (a & (r & H & Ea) & <- & <-). apply rbind_ok in H as (t & Et & H). apply rbind_ok in H as ([d n] & Es & H).
      apply pure_ok, scalar_ok in Es as ->. apply ok_inj in H as <-. cbn in Ea. injection Ea as <-. cbn.
      apply members_ok in Et as (Hn & ns & F & ->). constructor; [exact Hn|apply A; exact F].
    + intros Hg Hs H. apply andb_true_iff in Hs as [_ Hs]. inversion H as [? ? ? ns Hn F| |]; subst. apply A in F; [|assumption..].
      exists {| a_name := lit "_col0"; a_type := d; a_null := any ns |}. split; [|split; reflexivity].
      exists (plain_row [{| a_name := lit "_col0"; a_type := d; a_null := any ns |}]). split; [|reflexivity].
      apply rbind_ok. exists (TyScalar d (any ns)). split; [apply members_ok; eauto|]. reflexivity.
  - (* IN table *) intros q rels y Sc d m. cbn [infer_spec]. apply agree_iff. split.
    + intros (a & H & <- & <-). constructor. apply Ht. exact H.
    + intros H. inversion H as [|? ? a T|]; subst. apply Ht in T. exists a. auto.
  - (* SELECT *) intros common e order lim IHc IHx IHo IHl attrs. cbn [safe_select].
    assert (C : forall rels, agree (forallb safe_cte common)
              (Forall2 (fun c r => fst r = cte_id c /\ has (infer_cte up x c) (snd r)) common rels)
              (Forall2 (fun c r => fst r = cte_id c /\ common_table up tables c (snd r)) common rels)).
    { intros rels. apply (Forall2_agree g safe_cte). revert IHc. apply Forall_impl. intros c Hc r. destruct (Hc (snd r)) as [H1 H2].
      split; [intros [E H]|intros Hg Hs [E H]]; auto. }
    assert (O : forall rels y, scope rels y -> agree (forallb (fun o => safe (fst (fst o))) order)
              (Forall (fun o => exists d n, infer up x y (fst (fst o)) = ok (TyScalar d n)) order)
              (Forall (fun o => exists d n, typed rels (fst (fst o)) (TyScalar d n)) order)).
    { intros rels y Sc. apply (Forall_agree g (fun o : expr * option name * direction => safe (fst (fst o)))). revert IHo. apply Forall_impl.
      intros o Ho. apply agree_ex. intros d. apply agree_ex. intros n. apply Ho; exact Sc. }
    assert (L : agree (safe_opt (fun l => safe (fst l) && safe_opt safe (snd l)) lim)
              (opt (fun l => infer up x [] (fst l) = ok (TyScalar DNumeric false) /\
                             opt (fun e => infer up x [] e = ok (TyScalar DNumeric false)) (snd l)) lim)
              (opt (fun l => typed [] (fst l) (TyScalar DNumeric false) /\
                             opt (fun e => typed [] e (TyScalar DNumeric false)) (snd l)) lim)).
    { apply opt_agree. destruct lim as [[a b]|]; [|exact I]. cbn in *. destruct IHl as [I1 I2].
      apply agree_and; [apply I1; reflexivity|]. apply opt_agree. destruct b as [b|]; [|exact I]. cbn in *. apply I2; reflexivity. }
    split.
    + intros H. apply select_ok in H as (rels & y & F & Sc & Hx' & Ho & Hl).
      econstructor; [apply C; exact F|eapply scope_distinct; exact Sc|apply IHx; exact Hx'|apply (O _ _ Sc); exact Ho|apply L; exact Hl].
    + intros Hg Hs H. apply andb_true_iff in Hs as [Hs S4]. apply andb_true_iff in Hs as [Hs S3]. apply andb_true_iff in Hs as [S1 S2].
      inversion H as [? ? ? ? rels ? F D T Ho Hl]; subst. destruct (distinct_scope _ D) as [y Sc]. apply select_ok. exists rels, y.
      split; [apply C; assumption|]. split; [exact Sc|]. split; [apply IHx; assumption|]. split; [apply (O _ _ Sc); assumption|].
      apply L; [exact Hg| |exact Hl]. destruct lim as [[a b]|]; [|reflexivity]. exact S4.
  - (* WITH *) intros id columns q IH attrs. cbn [safe_cte]. destruct columns as [names|].
    + split.
      * intros (rt & H & <-). apply cte_columns in H as (r & attrs & Er & F & ->). cbn. econstructor; [apply IH; exists r; split; [exact Er|reflexivity]|exact F].
      * intros Hg Hs H. inversion H as [|? ? ? attrs0 ? T F]; subst. apply IH in T as (r & Er & <-); [|assumption..].
        eexists. split; [apply cte_columns; eexists _, _; split; [exact Er|]; split; [exact F|reflexivity]|reflexivity].
    + assert (E : has (infer_cte up x (Cte id None q)) attrs <-> has (infer_select up x q) attrs).
      { unfold has. cbn [infer_cte]. split; intros (r & H & A); exists r; (split; [|exact A]).
        - apply rbind_ok in H as (r' & Er & H). apply ok_inj in H as <-. exact Er.
        - apply rbind_ok. exists r. auto. }
      split; [intros H; apply E in H; constructor; apply IH; exact H|]. intros Hg Hs H. inversion H; subst. apply E, IH; assumption.
  - (* VALUES *) intros rows IH attrs. cbn [safe_set]. split.
    + intros (rt & H & <-). destruct rows as [|row rows]; [discriminate|]. cbn [infer_set values_type] in H. inversion IH; subst.
      apply rbind_ok in H as (ts & E1 & H). apply rbind_ok in H as (ts' & E2 & H). apply ok_inj in H as <-. cbn.
      econstructor; [apply first_row_agree; eassumption|apply next_rows_agree; eassumption].
    + intros Hg Hs H. apply andb_true_iff in Hs as [_ Hs]. inversion H as [row rest a1 ? T1 T2| |]; subst. inversion IH; subst.
      cbn [forallb] in Hs. apply andb_true_iff in Hs as [S1 S2]. exists (plain_row attrs). split; [|reflexivity]. cbn [infer_set values_type].
      apply rbind_ok. exists a1. split; [apply first_row_agree; assumption|]. apply rbind_ok. exists attrs.
      split; [apply next_rows_agree; assumption|reflexivity].
  - (* SELECT ... FROM *) intros mode columns from wh group IHr IHf IHw IHg attrs. cbn [safe_set].
    assert (F : forall parts, agree (forallb safe_table from) (Forall2 (fun t p => scope_of up x t (fst p) (snd p)) from parts)
              (Forall2 (fun t p => item_typed up tables t (fst p) (snd p)) from parts)).
    { intros parts. apply (Forall2_agree g safe_table). revert IHf. apply Forall_impl. intros t Hi p. apply Hi. }
    assert (W : forall rels y, scope rels y -> agree (safe_opt safe wh)
              (opt (fun e => exists n, infer up x y e = ok (TyScalar DLogical n)) wh)
              (opt (fun e => exists n, typed rels e (TyScalar DLogical n)) wh)).
    { intros rels y Sc. apply opt_agree. destruct wh as [e|]; [|exact I]. cbn in *. apply agree_ex. intros n. apply IHw; exact Sc. }
    assert (G : forall rels y, scope rels y -> agree (safe_opt (fun g => forallb safe (fst g) && safe_opt safe (snd g)) group)
              (opt (fun g => Forall (fun e => exists t, infer up x y e = ok t) (fst g) /\
                             opt (fun e => exists n, infer up x y e = ok (TyScalar DLogical n)) (snd g)) group)
              (opt (fun g => Forall (fun e => exists t, typed rels e t) (fst g) /\
                             opt (fun e => exists n, typed rels e (TyScalar DLogical n)) (snd g)) group)).
    { intros rels y Sc. apply opt_agree. destruct group as [[gs h]|]; [|exact I]. cbn in *. destruct IHg as [I1 I2]. apply agree_and.
      - apply (Forall_agree g safe). revert I1. apply Forall_impl. intros e He. apply agree_ex. intros t. apply He; exact Sc.
      - apply opt_agree. destruct h as [h|]; [|exact I]. cbn in *. apply agree_ex. intros n. apply I2; exact Sc. }
    split.
    + intros (rt & H & <-). apply query_iff in H as (rels & cols & y & Ss & Sc & Hw & Hg & Hc).
      apply scopes_ok in Ss as (parts & Fp & -> & ->). apply condition_opt in Hw. apply grouping_opt in Hg.
      destruct (proj1 (IHr _ _ Sc (flat_map snd parts) (r_attrs rt))) as (req & T & Lb); [exists rt; auto|].
      econstructor; [apply F; exact Fp|eapply scope_distinct; exact Sc|apply (W _ _ Sc); exact Hw|apply (G _ _ Sc); exact Hg|exact T|exact Lb].
    + intros Hg Hs H. apply andb_true_iff in Hs as [Hs S4]. apply andb_true_iff in Hs as [Hs S3]. apply andb_true_iff in Hs as [S1 S2].
      inversion H as [|? ? ? ? ? parts req ? Fp D Hw Hgr T Lb|]; subst. destruct (distinct_scope _ D) as [y Sc].
      assert (Hc : has (infer_columns up x y (flat_map snd parts) columns) attrs) by (apply (IHr _ _ Sc); eauto).
      destruct Hc as (rt & Hc & Ea). exists rt. split; [|exact Ea]. apply query_iff. exists (flat_map fst parts), (flat_map snd parts), y.
      split; [apply scopes_ok; exists parts; split; [apply F; assumption|auto]|]. split; [exact Sc|].
      split; [apply condition_opt, (W _ _ Sc); assumption|]. split; [|exact Hc]. apply grouping_opt, (G _ _ Sc); [exact Hg| |exact Hgr].
      destruct group as [[gs h]|]; [exact S4|reflexivity].
  - (* set operations *) intros op l r IHl IHr attrs. cbn [safe_set]. split.
    + intros (rt & H & <-). apply set_operation in H as (rl & rr & res & El & Er & M & ->). cbn.
      econstructor; [apply IHl; exists rl; split; [exact El|reflexivity]|apply IHr; exists rr; split; [exact Er|reflexivity]|exact M].
    + intros Hg Hs H. apply andb_true_iff in Hs as [S1 S2]. inversion H as [| |? ? ? a1 a2 ? T1 T2 M]; subst.
      apply IHl in T1 as (rl & El & <-); [|assumption..]. apply IHr in T2 as (rr & Er & <-); [|assumption..].
      exists (plain_row attrs). split; [|reflexivity]. apply set_operation. eauto 10.
  - (* FROM table *) intros q alias rels attrs. cbn [safe_table]. apply agree_iff. split.
    + intros H. inversion H as [? ? r id Er E| |]; subst. constructor. apply Ht. exists r. auto.
    + intros H. inversion H as [? ? ? T| |]; subst. apply Ht in T as (r & Er & <-). eapply so_named; [exact Er|reflexivity].
  - (* FROM subquery *) intros s alias IH rels attrs. cbn [safe_table]. split.
    + intros H. inversion H as [|? ? r Er|]; subst. constructor. apply IH. exists r. auto.
    + intros Hg Hs H. inversion H as [|? ? ? T|]; subst. apply IH in T as (r & Er & <-); [|assumption..]. constructor. exact Er.
  - (* joins *) intros l r op c IHl IHr _ rels attrs. cbn [safe_table]. split.
    + intros H. inversion H as [| |? ? ? ? r1 r2 a1 a2 S1 S2]; subst. constructor; [apply IHl|apply IHr]; assumption.
    + intros Hg Hs H. apply andb_true_iff in Hs as [Q1 Q2]. inversion H as [| |? ? ? ? r1 r2 a1 a2 S1 S2]; subst.
      constructor; [apply IHl|apply IHr]; assumption.
  - (* star *) intros rels y Sc attrs given. destruct (select_all up x y attrs) as (rt & E & Lb). split.
    + intros (rt' & E' & <-). rewrite E in E'. apply ok_inj in E' as <-. exists attrs. split; [constructor|exact Lb].
    + intros _ _ (req & T & Lb'). inversion T; subst. exists rt. split; [exact E|]. eapply labelled_fun; [exact Lb|exact Lb'].
  - (* select lists *) intros l IH rels y Sc attrs given. cbn [safe_columns].
    assert (A : forall reqs, agree (forallb safe_column l) (Forall2 (requested up x y) l reqs) (Forall2 (column_typed up tables rels) l reqs)).
    { intros reqs. apply (Forall2_agree g safe_column). revert IH. apply Forall_impl. intros c Hc b. apply Hc; exact Sc. }
    split.
    + intros (rt & E & <-). apply select_list in E as (reqs & F & Lb). exists (List.concat reqs). split; [constructor; apply A; exact F|exact Lb].
    + intros Hg Hs (req & T & Lb). inversion T as [|? ? ? reqs F]; subst. apply A in F; [|assumption..].
      assert (X : fold_err (infer_column up x y) ([], []) l = ok (push_all up ([], []) (List.concat reqs))) by (apply columns_ok; eauto).
      exists (plain_row (fst (push_all up ([], []) (List.concat reqs)))). split.
      * cbn [infer_columns]. apply rbind_ok. eexists. split; [exact X|]. destruct (push_all up ([], []) (List.concat reqs)); reflexivity.
      * cbn. destruct (push_all_spec up (List.concat reqs) [] ([], []) (counts_nil up)) as (h' & new & H1 & _ & H3 & H4 & _).
        rewrite H1. cbn. eapply labelled_fun; [split; [exact H3|exact H4]|exact Lb].
  - (* r.* *) intros n rels y Sc l. apply agree_iff. rewrite (star_ok up rels x y n l Sc). split.
    + intros (m & attrs & I & S & St). econstructor; eassumption.
    + intros H. inversion H; subst. eauto 10.
  - (* expressions *) intros e rename IH rels y Sc l. cbn [requested safe_column]. split.
    + intros (d & n & E & ->). constructor. apply (IH _ _ Sc); exact E.
    + intros Hg Hs H. inversion H as [? ? ? d n T|]; subst. exists d, n. split; [apply (IH _ _ Sc); assumption|reflexivity].
Qed.

(** ** Statements *)

Lemma infer_agree rels y e t : scope rels y -> agree (safe e) (infer up x y e = ok t) (typed rels e t).
Proof. intros Sc. apply (proj1 rules_agree); exact Sc. Qed.

Lemma select_agree s attrs : agree (safe_select s) (has (infer_select up x s) attrs) (selects up tables s attrs).
Proof. apply (proj1 (proj2 (proj2 rules_agree))). Qed.

Lemma set_agree e attrs : agree (safe_set e) (has (infer_set up x e) attrs) (set_typed up tables e attrs).
Proof. apply (proj1 (proj2 (proj2 (proj2 (proj2 rules_agree))))). Qed.

Lemma filter_agree q attrs y wh : scope [(last q [], attrs)] y ->
  agree (safe_opt safe wh) (filtered up x y wh) (filter_typed up tables q attrs wh).
Proof.
  intros Sc. unfold filter_typed.
  apply (agree_trans g _ _ (opt (fun e => exists n, infer up x y e = ok (TyScalar DLogical n)) wh)).
  - apply condition_opt.
  - apply opt_agree. destruct wh as [e|]; [|exact I]. cbn. apply agree_ex. intros n. apply infer_agree; exact Sc.
Qed.

Lemma assignable_agree rels y attrs l : scope rels y ->
  agree (forallb (fun a => safe (snd a)) l)
    (assignable up (fun e d n => infer up x y e = ok (TyScalar d n)) attrs l)
    (assignable up (fun e d n => typed rels e (TyScalar d n)) attrs l).
Proof.
  intros Sc. unfold assignable.
  assert (A : agree (forallb (fun a => safe (snd a)) l)
    (Forall (fun a => exists t null, infer up x y (snd a) = ok (TyScalar t null) /\
                        Forall (fun n => exists c, column_of up attrs n c /\ takes c t null) (fst a)) l)
    (Forall (fun a => exists t null, typed rels (snd a) (TyScalar t null) /\
                        Forall (fun n => exists c, column_of up attrs n c /\ takes c t null) (fst a)) l)).
  { apply (Forall_agree g (fun a : list name * expr => safe (snd a))). apply Forall_forall. intros a _. apply agree_ex. intros d.
    apply agree_ex. intros n. destruct (infer_agree rels y (snd a) (TyScalar d n) Sc) as [A1 A2]. split; [intros [H K]|intros Hg Hs [H K]]; auto. }
  destruct A as [A1 A2]. split; [intros [H K]|intros Hg Hs [H K]]; auto.
Qed.

Lemma scope_one id attrs : exists y, scope [(id, attrs)] y.
Proof. apply add_relations_ok. repeat constructor. Qed.

Lemma last_snoc (q : list name) id : last (q ++ [id]) [] = id.
Proof. apply last_last. Qed.

Lemma tables_split q attrs : tables q attrs -> exists q' id, q = q' ++ [id].
Proof. intros T. apply Ht in T as (r & Er & _). destruct (resolve_last up x q r Er) as (q' & id & E & _). eauto. Qed.

Lemma statement_agree s : agree (safe_statement s) (validate_statement up x s = ok tt) (statement_typed up tables s).
Proof.
  destruct s as [s|i|d|u]; cbn [validate_statement safe_statement].
  - split.
    + intros H. apply rbind_ok in H as (r & Er & _). econstructor. apply select_agree. exists r. split; [exact Er|reflexivity].
    + intros Hg Hs H. inversion H as [? attrs T| | |]; subst. apply select_agree in T as (r & Er & _); [|assumption..].
      apply rbind_ok. exists r. auto.
  - split.
    + intros H. apply insert_iff in H as (t & v & Et & Ev & St).
      eapply st_insert; [apply Ht; exists t; split; [exact Et|reflexivity]|apply set_agree; exists v; split; [exact Ev|reflexivity]|exact St].
    + intros Hg Hs H. inversion H as [|? attrs values Tt T St| |]; subst. apply Ht in Tt as (t & Et & <-). apply set_agree in T as (v & Ev & <-); [|assumption..].
      apply insert_iff. exists t, v. auto.
  - split.
    + intros H. apply delete_iff in H as (t & q & id & y & Et & Eq & Ey & F).
      eapply st_delete; [apply Ht; exists t; split; [exact Et|reflexivity]|]. apply (filter_agree _ _ y); [|exact F].
      rewrite Eq, last_snoc. exact Ey.
    + intros Hg Hs H. inversion H as [| | |? attrs T F]; subst. destruct (tables_split _ _ T) as (q & id & Eq). apply Ht in T as (t & Et & <-).
      destruct (scope_one id (r_attrs t)) as [y Ey]. apply delete_iff. exists t, q, id, y. split; [exact Et|]. split; [exact Eq|].
      split; [exact Ey|]. apply (filter_agree (d_table d) (r_attrs t) y); [rewrite Eq, last_snoc; exact Ey|exact Hg|exact Hs|exact F].
  - split.
    + intros H. apply update_iff in H as (t & q & id & y & Et & Eq & Ey & A & F).
      assert (Ey' : scope [(last (u_table u) [], r_attrs t)] y) by (rewrite Eq, last_snoc; exact Ey).
      eapply st_update; [apply Ht; exists t; split; [exact Et|reflexivity]| |].
      * apply (assignable_agree _ y _ _ Ey'); exact A.
      * apply (filter_agree _ _ y _ Ey'); exact F.
    + intros Hg Hs H. apply andb_true_iff in Hs as [S1 S2]. inversion H as [| |? attrs T A F|]; subst.
      destruct (tables_split _ _ T) as (q & id & Eq). apply Ht in T as (t & Et & <-).
      destruct (scope_one id (r_attrs t)) as [y Ey].
      assert (Ey' : scope [(last (u_table u) [], r_attrs t)] y) by (rewrite Eq, last_snoc; exact Ey).
      apply update_iff. exists t, q, id, y. split; [exact Et|]. split; [exact Eq|]. split; [exact Ey|].
      split; [apply (assignable_agree _ y _ _ Ey'); assumption|apply (filter_agree _ _ y _ Ey'); assumption].
Qed.

Lemma sql_agree s : agree (safe_sql s) (validate up x s = ok tt) (sql_typed up tables s).
Proof.
  destruct s as [s|s|q path|q]; cbn [validate safe_sql].
  - destruct (statement_agree s) as [A B]. split; [intros H; constructor; auto|]. intros Hg Hs H. inversion H; subst. auto.
  - destruct (statement_agree s) as [A B]. split; [intros H; constructor; auto|]. intros Hg Hs H. inversion H; subst. auto.
  - apply agree_iff. split; [constructor|reflexivity].
  - apply agree_iff. split.
    + intros H. apply rbind_ok in H as (r & Er & _). econstructor. apply Ht. exists r. split; [exact Er|reflexivity].
    + intros H. inversion H as [| | |? attrs T]; subst. apply Ht in T as (r & Er & _). apply rbind_ok. eauto.
Qed.

End Proofs.
