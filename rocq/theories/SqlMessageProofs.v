(** * The complaint of the validation is the one the rules of blame give *)

From Coq Require Import Strings.String.
From Verif Require Import Base StrModel SqlNameModel SqlModel SqlNameProofs SqlTypeProofs SqlSpec SqlScope SqlEval
  SqlInd SqlSafeSpec SqlPanic SqlStmtSpec SqlStmt SqlColumnsSpec SqlColumns SqlFromSpec SqlFrom SqlRules SqlRulesBase
  SqlRulesNames SqlRulesProofs SqlMessageModel SqlBlame SqlMessageDrop SqlMessageBase.
Local Open Scope list_scope.

Local Arguments rbind : simpl never.
Local Arguments mbind : simpl never.
Local Arguments drop : simpl never.

Lemma members_cons f e l : members_say f (e :: l) = (r <- f e ;; members_say_rest f r l).
Proof. reflexivity. Qed.

Lemma ret_inj {A} (a b : A) : Ret a = Ret b -> a = b.
Proof. intros [= ->]. reflexivity. Qed.

Section Proofs.
Context (up : Z -> list Z) (x : set_context) (g : Prop) (Hx : g -> registered up x).
Notation agree := (agree g).
Notation same := (name_eqb up).

Context (tables : list name -> list attribute -> Prop)
  (Ht : forall q attrs, (exists r, resolve_table up x q = ok r /\ r_attrs r = attrs) <-> tables q attrs).
Context (no_table : list name -> complaint -> Prop) (Hn : forall q c, resolve_say up x q = merr c <-> no_table q c).

Notation typed := (typed up tables).
Notation wrong := (wrong up tables no_table).
Notation scope rels y := (add_relations up [] rels = Ok y).

(** ** What succeeds *)

Lemma say_typed rels y e t : scope rels y -> infer_say up x y e = mok t -> typed rels e t.
Proof. intros Sc H. apply (infer_agree up x g Hx tables Ht rels y e t Sc). rewrite <- infer_drop. apply mok_drop; exact H. Qed.

Lemma typed_say rels y e t : g -> safe e = true -> scope rels y -> typed rels e t -> infer_say up x y e = mok t.
Proof. intros Hg Hs Sc H. apply mok_drop. rewrite infer_drop. apply (infer_agree up x g Hx tables Ht rels y e t Sc); assumption. Qed.

Lemma say_has rels y e t : scope rels y -> infer_say up x y e = mok t -> has_type up tables rels e.
Proof. intros Sc H. exists t. eapply say_typed; eassumption. Qed.

Definition gives (m : mres row_type) (attrs : list attribute) : Prop := exists r, m = mok r /\ r_attrs r = attrs.

Lemma gives_has m r attrs : drop m = r -> (gives m attrs <-> has r attrs).
Proof. intros <-. unfold gives, has. split; intros (t & E & A); exists t; (split; [apply mok_drop; exact E|exact A]). Qed.

Lemma select_gives s attrs : agree (safe_select s) (gives (infer_select_say up x s) attrs) (selects up tables s attrs).
Proof. eapply agree_trans; [apply gives_has, select_drop|]. apply (select_agree up x g Hx tables Ht). Qed.

Lemma set_gives e attrs : agree (safe_set e) (gives (infer_set_say up x e) attrs) (set_typed up tables e attrs).
Proof. eapply agree_trans; [apply gives_has, set_drop|]. apply (set_agree up x g Hx tables Ht). Qed.

Lemma cte_gives c attrs : agree (safe_cte c) (gives (infer_cte_say up x c) attrs) (common_table up tables c attrs).
Proof.
  eapply agree_trans; [apply gives_has, cte_drop|].
  apply (proj1 (proj2 (proj2 (proj2 (rules_agree up x g Hx tables Ht))))).
Qed.

Lemma table_gives q attrs : gives (resolve_say up x q) attrs <-> tables q attrs.
Proof. rewrite (gives_has _ _ _ (resolve_drop up x q)). apply Ht. Qed.

Lemma item_gives rels y t y' attrs : scope rels y -> infer_table_say up x y t = mok (y', attrs) ->
  exists rels', item_typed up tables t rels' attrs /\ scope (rels ++ rels') y'.
Proof.
  intros Sc H. apply mok_drop in H. rewrite table_drop in H. apply infer_table_ok in H as (rels' & S & A). exists rels'.
  split; [apply (proj1 (proj2 (proj2 (proj2 (proj2 (proj2 (rules_agree up x g Hx tables Ht))))))); exact S|].
  rewrite add_relations_app, Sc. exact A.
Qed.

Lemma gives_item rels y t rels' attrs : g -> safe_table t = true -> scope rels y -> item_typed up tables t rels' attrs ->
  distinct up (map fst (rels ++ rels')) -> exists y', infer_table_say up x y t = mok (y', attrs) /\ scope (rels ++ rels') y'.
Proof.
  intros Hg Hs Sc T D. destruct (distinct_scope up _ D) as [y' Sc']. exists y'. split; [|exact Sc'].
  apply mok_drop. rewrite table_drop. apply infer_table_ok. exists rels'.
  split; [apply (proj1 (proj2 (proj2 (proj2 (proj2 (proj2 (rules_agree up x g Hx tables Ht))))))); assumption|].
  rewrite add_relations_app, Sc in Sc'. exact Sc'.
Qed.

Lemma say_returns rels y e : g -> safe e = true -> scope rels y -> returns (infer_say up x y e).
Proof.
  intros Hg Hs Sc. eapply drop_returns; [apply infer_drop|].
  apply (proj1 (validation_returns up)); [exact Hs|exact (Hx Hg)|eapply scope_scalars; exact Sc].
Qed.

(** ** What fails *)

Definition WE (e : expr) : Prop := forall rels y, scope rels y -> forall c,
  agree (safe e) (infer_say up x y e = merr c) (wrong rels e c).
Definition WSP (s : set_spec) : Prop := forall rels y, scope rels y -> forall c,
  agree (safe_spec s) (infer_spec_say up x y s = merr c) (wrong_spec up tables no_table rels s c).
Definition WS (s : select) : Prop := forall c, agree (safe_select s) (infer_select_say up x s = merr c) (wrong_select up tables no_table s c).
Definition WC (k : cte) : Prop := forall c, agree (safe_cte k) (infer_cte_say up x k = merr c) (wrong_cte up tables no_table k c).
Definition WX (e : set_expr) : Prop := forall c, agree (safe_set e) (infer_set_say up x e = merr c) (wrong_set up tables no_table e c).
Definition WT (t : table_expr) : Prop := forall rels y, scope rels y -> forall c,
  agree (safe_table t) (infer_table_say up x y t = merr c) (wrong_item up tables no_table rels t c).
Definition WR (k : result_columns) : Prop := forall rels y, scope rels y -> forall attrs c,
  agree (safe_columns k) (infer_columns_say up x y attrs k = merr c) (wrong_columns up tables no_table rels k c).
Definition WK (k : result_column) : Prop := forall rels y, scope rels y -> forall st c,
  agree (safe_column k) (infer_column_say up x y st k = merr c) (wrong_column up tables no_table rels k c).

(** An expression whose type has to pass a test. *)
Lemma unfit_agree {A} rels y e (fits : stype -> Prop) (test : stype -> result A unit) k : WE e -> scope rels y ->
  (forall t, test t = Err tt <-> ~ fits t) -> forall c,
  agree (safe e) ((t <-! infer_say up x y e ;; or_say k (test t)) = merr c) (unfit (typed rels) (wrong rels) fits k e c).
Proof.
  intros He Sc T c. destruct (He _ _ Sc c) as [A1 A2]. unfold agree, unfit. rewrite mbind_err. split.
  - intros [H|(t & Et & H)]; [auto|]. right. apply say_err in H as [H ->]. split; [|reflexivity]. exists t.
    split; [eapply say_typed; eassumption|apply T; exact H].
  - intros Hg Hs [H|[(t & Et & H) ->]]; [auto|]. right. exists t. split; [eapply typed_say; eassumption|].
    apply say_err. split; [apply T; exact H|reflexivity].
Qed.

Lemma test_split {A B T} (m : mres T) k (test : T -> result A unit) (f : T -> A -> mres B) c : (forall t a, f t a <> merr c) ->
  ((t <-! m ;; a <-! or_say k (test t) ;; f t a) = merr c <-> (t <-! m ;; or_say k (test t)) = merr c).
Proof.
  intros N. rewrite !mbind_err. split; (intros [H|(t & Et & H)]; [auto|right; exists t; split; [exact Et|]]).
  - apply mbind_err in H as [H|(a & _ & H)]; [exact H|destruct (N _ _ H)].
  - apply mbind_err. auto.
Qed.

Lemma fits_agree {A} rels y e (fits : stype -> Prop) (test : stype -> result A unit) k : scope rels y ->
  (forall t, test t = Err tt <-> ~ fits t) ->
  agree (safe e) (exists a, (t <-! infer_say up x y e ;; or_say k (test t)) = mok a) (exists t, typed rels e t /\ ~ ~ fits t).
Proof.
  intros Sc T. split.
  - intros [a H]. apply mbind_ok in H as (t & Et & H). apply say_ok in H. exists t. split; [eapply say_typed; eassumption|].
    intros N. apply T in N. congruence.
  - intros Hg Hs (t & Et & F). destruct (test t) as [a|[]] eqn:E; [|destruct F; apply T; exact E]. exists a. apply mbind_ok. exists t.
    split; [eapply typed_say; eassumption|]. apply say_ok; exact E.
Qed.

Lemma has_agree rels y e : scope rels y -> agree (safe e) (exists t, infer_say up x y e = mok t) (has_type up tables rels e).
Proof.
  intros Sc. split; [intros [t H]; eapply say_has; eassumption|]. intros Hg Hs [t H]. exists t. eapply typed_say; eassumption.
Qed.

(** *** Lists *)

Lemma exprs_agree rels y es : Forall WE es -> scope rels y -> forall c,
  agree (forallb safe es) (at_first (fun e => exists t, infer_say up x y e = mok t) (fun e c => infer_say up x y e = merr c) es c)
    (at_first (has_type up tables rels) (wrong rels) es c).
Proof.
  intros H Sc. apply at_first_agree. revert H. apply Forall_impl. intros e He. split; [apply has_agree; exact Sc|]. intros c. apply He; exact Sc.
Qed.

Lemma last_agree rels y es : Forall WE es -> scope rels y -> forall c,
  agree (forallb safe es) (last_err (infer_say up x y) es c) (last_wrong up tables no_table rels es c).
Proof.
  intros H Sc c. revert H. induction es as [|e es IH]; intros H; [split; [|intros _ _]; intros K; inversion K|].
  inversion H as [|? ? He Hes]; subst. destruct (IH Hes) as [A1 A2]. cbn [forallb].
  assert (F : agree (forallb safe es) (Forall (fun e => exists t, infer_say up x y e = mok t) es) (Forall (has_type up tables rels) es)).
  { apply Forall_agree. apply Forall_forall. intros e' _. apply has_agree; exact Sc. }
  split.
  - intros K. inversion K; subst; [apply lw_here; [apply (He _ _ Sc); assumption|apply F; assumption]|apply lw_later; auto].
  - intros Hg Hs K. apply andb_true_iff in Hs as [S1 S2].
    inversion K; subst; [apply le_here; [apply (He _ _ Sc); assumption|apply F; assumption]|apply le_later; auto].
Qed.

Lemma results_agree rels y l : Forall (fun p => WE (snd p)) l -> scope rels y -> forall c t,
  agree (forallb (fun p => safe (fst p) && safe (snd p)) l) (results_err (infer_say up x y) t l c) (wrong_results up tables no_table rels t l c).
Proof.
  intros H Sc c. induction H as [|[w e] l He Hl IH]; intros t; cbn [forallb fst snd].
  - split; [|intros _ _]; intros K; inversion K.
  - split.
    + intros K. inversion K; subst.
      * apply wr_wrong. apply (He _ _ Sc); assumption.
      * eapply wr_unlike; [eapply say_typed; eassumption|assumption].
      * eapply wr_row; [eapply say_typed; eassumption|assumption].
      * eapply wr_next; [eapply say_typed; eassumption|apply IH; assumption].
    + intros Hg Hs K. apply andb_true_iff in Hs as [S1 S2]. apply andb_true_iff in S1 as [_ S1]. inversion K; subst.
      * apply re_wrong. apply (He _ _ Sc); assumption.
      * eapply re_unlike; [eapply typed_say; eassumption|assumption].
      * eapply re_row; [eapply typed_say; eassumption|assumption].
      * eapply re_next; [eapply typed_say; eassumption|apply IH; assumption].
Qed.

(** *** VALUES *)

Lemma first_row_wrong es : Forall WE es -> forall k c,
  agree (forallb safe es) (first_row_say (infer_say up x []) k es = merr c)
    (at_first (fun e => exists t, typed [] e t /\ is_scalar t) (unfit (typed []) (wrong []) is_scalar CValueScalar) es c).
Proof.
  induction 1 as [|e es He Hes IH]; intros k c; cbn [first_row_say forallb].
  - split; [discriminate|]. intros _ _ K; inversion K.
  - destruct (unfit_agree [] [] e is_scalar scalar CValueScalar He eq_refl scalar_err c) as [U1 U2]. unfold agree. rewrite at_first_cons. split.
    + intros H. apply mbind_err in H as [H|(t & Et & H)]; [left; apply U1, mbind_err; auto|].
      apply mbind_err in H as [H|([d n] & Es & H)]; [left; apply U1, mbind_err; eauto|]. apply say_ok, scalar_ok in Es as ->.
      apply mbind_err in H as [H|(rest & _ & H)]; [|discriminate]. right. split; [|eapply IH; exact H].
      exists (TyScalar d n). split; [eapply say_typed; [reflexivity|exact Et]|eexists _, _; reflexivity].
    + intros Hg Hs. apply andb_true_iff in Hs as [S1 S2]. intros [H|[(t & Et & (d & n & ->)) H]].
      * apply U2 in H; [|assumption..]. apply mbind_err in H as [H|(t & Et & H)]; apply mbind_err; [auto|right]. exists t. split; [exact Et|].
        apply mbind_err. auto.
      * apply mbind_err. right. exists (TyScalar d n). split; [apply (typed_say [] []); [exact Hg|exact S1|reflexivity|assumption]|]. apply mbind_err. right. exists (d, n).
        split; [reflexivity|]. apply mbind_err. left. apply IH; assumption.
Qed.

Lemma next_row_wrong es : Forall WE es -> forall attrs c,
  agree (forallb safe es) (next_row_say (infer_say up x []) attrs es = merr c) (wrong_row up tables no_table attrs es c).
Proof.
  induction 1 as [|e es He Hes IH]; intros attrs c; cbn [next_row_say forallb].
  - destruct attrs; (split; [discriminate|]); intros _ _ K; inversion K.
  - destruct attrs as [|a attrs]; [split; [discriminate|]; intros _ _ K; inversion K|]. split.
    + intros H. apply mbind_err in H as [H|(t & Et & H)]; [apply ww_wrong, (He [] [] eq_refl); exact H|].
      apply mbind_err in H as [H|(u & Eu & H)].
      * apply ret_inj in H. apply unify_err in H. eapply ww_unlike; [eapply say_typed; [reflexivity|exact Et]|exact H].
      * apply ret_inj in Eu. destruct u as [us|d n]; [discriminate|].
        assert (Eu' : unify (attr_type a) t = Ok (TyScalar d n)) by (rewrite <- unify_bare, Eu; reflexivity).
        apply unify_scalar in Eu' as (n1 & n2 & [= <- <-] & -> & ->).
        apply mbind_err in H as [H|(rest & _ & H)]; [|discriminate]. eapply ww_next; [eapply say_typed; [reflexivity|exact Et]|]. eapply IH; exact H.
    + intros Hg Hs H. apply andb_true_iff in Hs as [S1 S2]. apply mbind_err. inversion H as [? ? ? ? ? H'|? ? ? ? t ? T U|? ? ? ? n ? T R]; subst.
      * left. apply (He [] [] eq_refl); assumption.
      * right. exists t. split; [apply (typed_say [] []); [exact Hg|exact S1|reflexivity|assumption]|]. apply mbind_err. left. unfold merr. f_equal. apply unify_err; exact U.
      * right. exists (TyScalar (a_type a) n). split; [apply (typed_say [] []); [exact Hg|exact S1|reflexivity|assumption]|]. apply mbind_err. right.
        exists (TyScalar (a_type a) (a_null a || n)). split.
        -- unfold mok. f_equal. apply bare_ok. rewrite unify_bare. apply unify_scalar. unfold attr_type. eauto.
        -- apply mbind_err. left. apply IH; assumption.
Qed.

Lemma rules_RE es : Forall (RE up x g tables) es.
Proof. apply Forall_forall. intros e _. apply (proj1 (rules_agree up x g Hx tables Ht)). Qed.

Lemma next_drop attrs es : drop (next_row_say (infer_say up x []) attrs es) = next_row (infer up x []) attrs es.
Proof.
  revert attrs. induction es as [|e es IH]; intros [|a attrs]; cbn [next_row_say next_row]; try reflexivity.
  apply drop_mbind; [apply infer_drop|]. intros t. apply drop_mbind; [rewrite drop_ret, unify_bare; reflexivity|]. intros [us|d n]; [reflexivity|].
  apply drop_mbind; [apply IH|]. reflexivity.
Qed.

Lemma first_drop es : forall k, drop (first_row_say (infer_say up x []) k es) = first_row (infer up x []) k es.
Proof.
  induction es as [|e es IH]; intros k; cbn [first_row_say first_row]; try reflexivity.
  apply drop_mbind; [apply infer_drop|]. intros t. apply drop_mbind; [apply drop_say|]. intros [d n]. apply drop_mbind; [apply IH|]. reflexivity.
Qed.

Lemma rows_wrong rows : Forall (Forall WE) rows -> forall attrs c,
  agree (forallb (forallb safe) rows) (fold_say (next_row_say (infer_say up x [])) attrs rows = merr c)
    (wrong_rows up tables no_table attrs rows c).
Proof.
  induction 1 as [|row rows Hr Hrs IH]; intros attrs c; cbn [fold_say forallb].
  - split; [discriminate|]. intros _ _ K; inversion K.
  - pose proof (next_row_agree up x g tables row (rules_RE row) attrs) as N. split.
    + intros H. apply mbind_err in H as [H|(attrs' & E & H)]; [apply wv_here, next_row_wrong; assumption|].
      eapply wv_next; [apply N; rewrite <- next_drop; apply mok_drop; exact E|apply IH; exact H].
    + intros Hg Hs H. apply andb_true_iff in Hs as [S1 S2]. apply mbind_err. inversion H as [? ? ? ? H'|? ? ? attrs' ? T R]; subst.
      * left. apply next_row_wrong; assumption.
      * right. exists attrs'. split; [apply mok_drop; rewrite next_drop; apply N; assumption|apply IH; assumption].
Qed.

(** *** WITH and FROM *)

Lemma common_wrong common : Forall WC common -> forall rels y, scope rels y -> forall c,
  agree (forallb safe_cte common)
    (fold_say (fun y k => t <-! infer_cte_say up x k ;; relation_say up y (cte_id k) (r_attrs t)) y common = merr c)
    (wrong_common up tables no_table rels common c).
Proof.
  induction 1 as [|k common Hk Hc IH]; intros rels y Sc c; cbn [fold_say forallb].
  - split; [discriminate|]. intros _ _ K; inversion K.
  - split.
    + intros H. apply mbind_err in H as [H|(y' & Ey & H)].
      * apply mbind_err in H as [H|(t & Et & H)]; [apply wc_here, Hk; exact H|].
        apply (relation_err up rels) in H as [I ->]; [|exact Sc]. eapply wc_twice; [apply cte_gives; exists t; split; [exact Et|reflexivity]|exact I].
      * apply mbind_ok in Ey as (t & Et & Ey). apply (relation_good up rels) in Ey; [|exact Sc].
        eapply wc_next; [apply cte_gives; exists t; split; [exact Et|reflexivity]|eapply scope_fresh; exact Ey|eapply IH; eassumption].
    + intros Hg Hs H. apply andb_true_iff in Hs as [S1 S2]. apply mbind_err. inversion H as [? ? ? ? H'|? ? ? attrs T I|? ? ? attrs ? T I R]; subst.
      * left. apply mbind_err. left. apply Hk; assumption.
      * left. apply mbind_err. right. apply cte_gives in T as (t & Et & <-); [|assumption..]. exists t. split; [exact Et|].
        apply (relation_err up rels); auto.
      * right. apply cte_gives in T as (t & Et & <-); [|assumption..].
        destruct (relation_fresh up rels y (cte_id k) (r_attrs t) Sc I) as [y' Ey]. exists y'. split; [apply mbind_ok; eauto|].
        apply (relation_good up rels) in Ey; [|exact Sc]. eapply IH; eassumption.
Qed.

Lemma ctes_agree common rels : agree (forallb safe_cte common)
  (Forall2 (fun c r => fst r = cte_id c /\ has (infer_cte up x c) (snd r)) common rels)
  (Forall2 (fun c r => fst r = cte_id c /\ common_table up tables c (snd r)) common rels).
Proof.
  apply (Forall2_agree g safe_cte). apply Forall_forall. intros k _ r.
  destruct (proj1 (proj2 (proj2 (proj2 (rules_agree up x g Hx tables Ht)))) k (snd r)) as [H1 H2].
  split; [intros [E K]|intros Hg Hs [E K]]; auto.
Qed.

Lemma common_good common y : fold_say (fun y k => t <-! infer_cte_say up x k ;; relation_say up y (cte_id k) (r_attrs t)) [] common = mok y ->
  exists rels, commons up tables common rels /\ scope rels y.
Proof.
  intros H. apply mok_drop in H.
  rewrite (drop_fold _ (fun y c => t <-? infer_cte up x c ;; pure (add_relation up y (cte_id c) (r_attrs t)))) in H.
  - apply ctes_ok in H as (rels & F & Sc). exists rels. split; [|exact Sc]. constructor; [|eapply scope_distinct; exact Sc].
    apply ctes_agree; exact F.
  - apply Forall_forall. intros k _ s. apply drop_mbind; [apply cte_drop|]. intros t. apply relation_drop.
Qed.

Lemma common_all common rels : g -> forallb safe_cte common = true -> commons up tables common rels -> exists y,
  fold_say (fun y k => t <-! infer_cte_say up x k ;; relation_say up y (cte_id k) (r_attrs t)) [] common = mok y /\ scope rels y.
Proof.
  intros Hg Hs H. inversion H as [? ? F D]; subst. destruct (distinct_scope up _ D) as [y Sc]. exists y. split; [|exact Sc].
  apply mok_drop. rewrite (drop_fold _ (fun y c => t <-? infer_cte up x c ;; pure (add_relation up y (cte_id c) (r_attrs t)))).
  - apply ctes_ok. exists rels. split; [|exact Sc].
    apply ctes_agree; assumption.
  - apply Forall_forall. intros k _ s. apply drop_mbind; [apply cte_drop|]. intros t. apply relation_drop.
Qed.

Notation from_fold := (fun '(y, attrs) t => '(y', attrs') <-! infer_table_say up x y t ;; mok (y', attrs ++ attrs')).

Lemma from_wrong from : Forall WT from -> forall rels y attrs, scope rels y -> forall c,
  agree (forallb safe_table from) (fold_say from_fold (y, attrs) from = merr c) (wrong_from up tables no_table rels from c).
Proof.
  induction 1 as [|t from Hk Hc IH]; intros rels y attrs Sc c; cbn [fold_say forallb].
  - split; [discriminate|]. intros _ _ K; inversion K.
  - split.
    + intros H. apply mbind_err in H as [H|([y' all] & Ey & H)].
      * apply mbind_err in H as [H|([y' attrs'] & _ & H)]; [|discriminate]. apply wf_here. apply (Hk _ _ Sc); exact H.
      * apply mbind_ok in Ey as ([y1 attrs'] & Et & Ey). apply mok_inj in Ey as [= -> <-].
        destruct (item_gives _ _ _ _ _ Sc Et) as (rels' & T & Sc'). eapply wf_next; [exact T|eapply scope_distinct; exact Sc'|].
        eapply IH; eassumption.
    + intros Hg Hs H. apply andb_true_iff in Hs as [S1 S2]. apply mbind_err. inversion H as [? ? ? ? H'|? ? ? rels' attrs' ? T D R]; subst.
      * left. apply mbind_err. left. apply (Hk _ _ Sc); assumption.
      * right. destruct (gives_item _ _ _ _ _ Hg S1 Sc T D) as (y' & Ey & Sc'). exists (y', attrs ++ attrs').
        split; [apply mbind_ok; exists (y', attrs'); auto|]. eapply IH; eassumption.
Qed.

Lemma from_drop from : forall s, drop (fold_say from_fold s from) =
  fold_err (fun '(y, attrs) t => '(y', attrs') <-? infer_table up x y t ;; ok (y', attrs ++ attrs')) s from.
Proof.
  intros s. apply drop_fold. apply Forall_forall. intros t _ [y attrs]. apply drop_mbind; [apply table_drop|]. intros [y' attrs']. reflexivity.
Qed.

Lemma items_agree from parts : agree (forallb safe_table from)
  (Forall2 (fun t p => scope_of up x t (fst p) (snd p)) from parts) (Forall2 (fun t p => item_typed up tables t (fst p) (snd p)) from parts).
Proof.
  apply (Forall2_agree g safe_table). apply Forall_forall. intros t _ p.
  apply (proj1 (proj2 (proj2 (proj2 (proj2 (proj2 (rules_agree up x g Hx tables Ht))))))).
Qed.

Lemma from_good from y attrs : fold_say from_fold ([], []) from = mok (y, attrs) ->
  exists rels, items up tables from rels attrs /\ scope rels y.
Proof.
  intros H. apply mok_drop in H. rewrite from_drop in H. apply from_ok in H as (rels & new & S & Sc & ->). exists rels. split; [|exact Sc].
  apply scopes_ok in S as (parts & F & -> & ->). cbn [app]. constructor; [|eapply scope_distinct; exact Sc].
  apply items_agree; exact F.
Qed.

Lemma from_all from rels attrs : g -> forallb safe_table from = true -> items up tables from rels attrs ->
  exists y, fold_say from_fold ([], []) from = mok (y, attrs) /\ scope rels y.
Proof.
  intros Hg Hs H. inversion H as [? parts F D]; subst. destruct (distinct_scope up _ D) as [y Sc]. exists y. split; [|exact Sc].
  apply mok_drop. rewrite from_drop. apply from_ok. exists (flat_map fst parts), (flat_map snd parts). split; [|auto].
  apply scopes_ok. exists parts. split; [|auto].
  apply items_agree; assumption.
Qed.

(** *** ORDER BY, LIMIT, WHERE *)

Lemma scalar_fits rels e : (exists t, typed rels e t /\ is_scalar t) <-> exists d n, typed rels e (TyScalar d n).
Proof. split; [intros (t & T & d & n & ->); eauto|intros (d & n & T); exists (TyScalar d n); split; [exact T|eexists _, _; reflexivity]]. Qed.

Lemma order_good rels y e : scope rels y ->
  agree (safe e) ((t <-! infer_say up x y e ;; _ <-! or_say COrderScalar (scalar t) ;; mok tt) = mok tt) (exists t, typed rels e t /\ is_scalar t).
Proof.
  intros Sc. split.
  - intros H. apply mbind_ok in H as (t & Et & H). apply mbind_ok in H as ([d n] & Es & _). apply say_ok, scalar_ok in Es as ->.
    exists (TyScalar d n). split; [eapply say_typed; eassumption|eexists _, _; reflexivity].
  - intros Hg Hs (t & T & d & n & ->). apply mbind_ok. exists (TyScalar d n). split; [eapply typed_say; eassumption|]. reflexivity.
Qed.

Lemma condition_wrong rels y e k : WE e -> scope rels y -> forall c,
  agree (safe e) ((t <-! infer_say up x y e ;; or_say k (logical t)) = merr c) (unfit (typed rels) (wrong rels) is_truth k e c).
Proof. intros He Sc. apply unfit_agree; [exact He|exact Sc|exact logical_err]. Qed.

Lemma condition_good rels y k o : scope rels y ->
  agree (safe_opt safe o) (match o with None => mok tt | Some e => t <-! infer_say up x y e ;; or_say k (logical t) end = mok tt)
    (opt (fun e => exists n, typed rels e (TyScalar DLogical n)) o).
Proof.
  intros Sc. destruct o as [e|]; cbn; [|split; [constructor|reflexivity]]. split.
  - intros H. apply mbind_ok in H as (t & Et & H). apply say_ok, logical_ok in H as (n & ->). constructor. exists n. eapply say_typed; eassumption.
  - intros Hg Hs H. inversion H as [|? (n & T)]; subst. apply mbind_ok. exists (TyScalar DLogical n). split; [eapply typed_say; eassumption|].
    apply say_ok, logical_ok. eauto.
Qed.

Lemma groups_good rels y gs : scope rels y ->
  agree (forallb safe gs) (fold_say (fun (_ : unit) e => _ <-! infer_say up x y e ;; mok tt) tt gs = mok tt) (Forall (has_type up tables rels) gs).
Proof.
  intros Sc. eapply agree_trans; [apply (fold_unit_ok (fun e => _ <-! infer_say up x y e ;; mok tt))|]. apply Forall_agree.
  apply Forall_forall. intros e _. split.
  - intros H. apply mbind_ok in H as (t & Et & _). eapply say_has; eassumption.
  - intros Hg Hs [t H]. apply mbind_ok. exists t. split; [eapply typed_say; eassumption|reflexivity].
Qed.

Lemma groups_wrong rels y gs : Forall WE gs -> scope rels y -> forall c,
  agree (forallb safe gs) (fold_say (fun (_ : unit) e => _ <-! infer_say up x y e ;; mok tt) tt gs = merr c)
    (at_first (has_type up tables rels) (wrong rels) gs c).
Proof.
  intros H Sc c. eapply agree_trans; [apply (fold_unit_err (fun e => _ <-! infer_say up x y e ;; mok tt))|].
  eapply agree_trans; [|apply (exprs_agree rels y gs H Sc)]. apply at_first_ext.
  - intros e. rewrite mbind_ok. split; [intros (t & Et & _); eauto|intros (t & Et); eauto].
  - intros e k. rewrite mbind_err. split; [intros [E|(t & _ & E)]; [exact E|discriminate]|auto].
Qed.

(** *** Result columns *)

Lemma column_req y c st st' : infer_column_say up x y st c = mok st' -> exists req, requested up x y c req.
Proof.
  intros H. apply mok_drop in H. rewrite column_drop in H.
  assert (F : fold_err (infer_column up x y) st [c] = ok st') by (cbn [fold_err]; apply rbind_ok; eauto).
  apply columns_ok in F as (reqs & F & _). inversion F; subst. eauto.
Qed.

Lemma req_column y c req st : requested up x y c req -> exists st', infer_column_say up x y st c = mok st'.
Proof.
  intros H. assert (F : exists st', fold_err (infer_column up x y) st [c] = ok st').
  { eexists. apply columns_ok. exists [req]. split; [repeat constructor; exact H|reflexivity]. }
  destruct F as [st' F]. cbn [fold_err] in F. apply rbind_ok in F as (s & E & F). exists s. apply mok_drop. rewrite column_drop. exact E.
Qed.

Lemma column_typed_req rels y c req : scope rels y -> agree (safe_column c) (requested up x y c req) (column_typed up tables rels c req).
Proof. intros Sc. apply (proj2 (proj2 (proj2 (proj2 (proj2 (proj2 (proj2 (rules_agree up x g Hx tables Ht)))))))); exact Sc. Qed.

Lemma columns_wrong rels y l : Forall WK l -> scope rels y -> forall st c,
  agree (forallb safe_column l) (fold_say (fun st c => infer_column_say up x y st c) st l = merr c)
    (at_first (fun k => exists req, column_typed up tables rels k req) (wrong_column up tables no_table rels) l c).
Proof.
  intros H Sc. induction H as [|k l Hk Hl IH]; intros st c; cbn [fold_say forallb].
  - split; [discriminate|]. intros _ _ K; inversion K.
  - split.
    + intros H. apply mbind_err in H as [H|(st' & E & H)]; [apply at_here; apply (Hk _ _ Sc st); exact H|].
      apply at_next; [|eapply IH; exact H]. apply column_req in E as [req R]. exists req. apply (column_typed_req rels y); assumption.
    + intros Hg Hs H. apply andb_true_iff in Hs as [S1 S2]. apply mbind_err. inversion H as [? ? ? H'|? ? ? [req R] H']; subst.
      * left. apply (Hk _ _ Sc); assumption.
      * right. apply (column_typed_req rels y) in R; [|assumption..]. destruct (req_column y k req st R) as [st' E]. exists st'.
        split; [exact E|]. apply IH; assumption.
Qed.


(** *** All together *)

Lemma blame_agree :
  (forall e, WE e) /\ (forall s, WSP s) /\ (forall s, WS s) /\ (forall c, WC c) /\ (forall e, WX e) /\ (forall t, WT t) /\
  (forall c, WR c) /\ (forall c, WK c).
Proof.
  apply sql_induction.
  - (* literals *) intros l rels y Sc c. cbn [infer_say]. split; [discriminate|]. intros _ _ H; inversion H.
  - (* names *) intros q rels y Sc c. cbn [infer_say]. apply agree_iff. split.
    + intros H. apply ret_inj, (misnamed_ok up rels y q c Sc) in H. constructor; exact H.
    + intros H. inversion H; subst. unfold merr. f_equal. apply (misnamed_ok up rels y q c Sc); assumption.
  - (* rows *) intros es IH rels y Sc c. cbn [infer_say safe]. destruct (exprs_agree rels y es IH Sc c) as [A1 A2]. split.
    + intros H. apply mbind_err in H as [H|(ts & _ & H)]; [|discriminate]. apply collect_err in H. constructor. auto.
    + intros Hg Hs H. inversion H; subst. apply mbind_err. left. apply collect_err. auto.
  - (* subqueries *) intros s IH rels y Sc c. cbn [infer_say safe]. split.
    + intros H. apply mbind_err in H as [H|(r & Er & H)]; [apply w_select, IH; exact H|]. apply say_err in H as [H ->].
      eapply w_select_columns; [apply select_gives; exists r; split; [exact Er|reflexivity]|]. unfold select_scalar in H.
      destruct (r_attrs r) as [|a [|b l]]; discriminate.
    + intros Hg Hs H. apply mbind_err. inversion H as [| | | | | | | | | | | | | | | | | | | | | | | | | | | | | ? ? ? H'|? ? attrs T L]; subst.
      * left. apply IH; assumption.
      * right. apply select_gives in T as (r & Er & <-); [|assumption..]. exists r. split; [exact Er|]. apply say_err. split; [|reflexivity].
        unfold select_scalar. destruct (r_attrs r) as [|a [|b l]]; try reflexivity. cbn in L. contradiction.
  - (* unary *) intros op e IH rels y Sc c. cbn [infer_say safe]. split.
    + intros H. apply mbind_err in H as [H|(t & Et & H)]; [apply w_unary, (IH _ _ Sc); exact H|].
      apply unary_err in H as [H ->]. eapply w_unary_type; [eapply say_typed; eassumption|exact H].
    + intros Hg Hs H. apply mbind_err. inversion H; subst.
      * left. apply (IH _ _ Sc); assumption.
      * right. eexists. split; [eapply typed_say; eassumption|]. apply unary_err. auto.
  - (* binary *) intros op l r IHl IHr rels y Sc c. cbn [infer_say safe]. split.
    + intros H. apply mbind_err in H as [H|(t1 & E1 & H)]; [apply w_binary_left, (IHl _ _ Sc); exact H|].
      apply mbind_err in H as [H|(t2 & E2 & H)]; [eapply w_binary_right; [eapply say_has; eassumption|apply (IHr _ _ Sc); exact H]|].
      apply binary_err in H as [H ->]. eapply w_binary_type; [eapply say_typed; eassumption..|exact H].
    + intros Hg Hs H. apply andb_true_iff in Hs as [S1 S2]. apply mbind_err. inversion H as [| | | | ? ? ? ? ? H'|? ? ? ? ? [t T] H'|? ? ? ? t1 t2 T1 T2 N| | | | | | | | | | | | | | | | | | | | | | | | ]; subst.
      * left. apply (IHl _ _ Sc); assumption.
      * right. exists t. split; [eapply typed_say; eassumption|]. apply mbind_err. left. apply (IHr _ _ Sc); assumption.
      * right. exists t1. split; [eapply typed_say; eassumption|]. apply mbind_err. right. exists t2. split; [eapply typed_say; eassumption|].
        apply binary_err. auto.
  - (* comparisons *) intros op l r IHl IHr rels y Sc c. cbn [infer_say safe]. split.
    + intros H. apply mbind_err in H as [H|(t1 & E1 & H)]; [apply w_compare_left, (IHl _ _ Sc); exact H|].
      apply mbind_err in H as [H|(t2 & E2 & H)]; [eapply w_compare_right; [eapply say_has; eassumption|apply (IHr _ _ Sc); exact H]|].
      apply (say_typed _ _ _ _ Sc) in E1. apply (say_typed _ _ _ _ Sc) in E2. apply compare_err in H as [[I U]|[(I & N & ->)|[(I & N & ->)|(-> & N & ->)]]].
      * eapply w_equal; eassumption.
      * eapply w_order_rows; eassumption.
      * destruct N as (d1 & n1 & d2 & n2 & -> & -> & N). eapply w_order_type; eassumption.
      * eapply w_like; eassumption.
    + intros Hg Hs H. apply andb_true_iff in Hs as [S1 S2].
      assert (K : forall t1 t2, typed rels l t1 -> typed rels r t2 -> compare_say op t1 t2 = merr c ->
                  infer_say up x y l = merr c \/ (exists a, infer_say up x y l = mok a /\ (t2 <-! infer_say up x y r ;; compare_say op a t2) = merr c)).
      { intros t1 t2 T1 T2 E. right. exists t1. split; [eapply typed_say; eassumption|]. apply mbind_err. right. exists t2.
        split; [eapply typed_say; eassumption|exact E]. }
      apply mbind_err. inversion H as [| | | | | | | ? ? ? ? ? H'|? ? ? ? ? [t T] H'|? ? ? ? t1 t2 ? I T1 T2 U|? ? ? ? t1 t2 I T1 T2 N|? ? ? ? d1 n1 d2 n2 I T1 T2 N|? ? ? t1 t2 T1 T2 N| | | | | | | | | | | | | | | | | | ]; subst.
      * left. apply (IHl _ _ Sc); assumption.
      * right. exists t. split; [eapply typed_say; eassumption|]. apply mbind_err. left. apply (IHr _ _ Sc); assumption.
      * eapply K; [eassumption..|]. apply compare_err. auto.
      * eapply K; [eassumption..|]. apply compare_err. auto.
      * eapply K; [eassumption..|]. apply compare_err. right. right. left. split; [exact I|]. split; [|reflexivity]. eauto 10.
      * eapply K; [eassumption..|]. apply compare_err. auto 10.
  - (* IN *) intros e s IHe IHs rels y Sc c. cbn [infer_say safe].
    assert (M : forall d n, agree (safe_spec s) (exists r a, infer_spec_say up x y s = mok r /\ r_attrs r = [a] /\ attr_type a = TyScalar d n)
                  (members_typed up tables rels s d n)).
    { intros d n. eapply agree_trans; [|apply (proj1 (proj2 (rules_agree up x g Hx tables Ht)) s rels y Sc d n)]. unfold has. split.
      - intros (r & a & E & A & T). injection T as <- <-. exists a. split; [|auto]. exists r. split; [rewrite <- spec_drop; apply mok_drop; exact E|exact A].
      - intros (a & (r & E & A) & <- & <-). exists r, a. split; [apply mok_drop; rewrite spec_drop; exact E|]. auto. }
    split.
    + intros H. apply mbind_err in H as [H|(t & Et & H)]; [apply w_in_left, (IHe _ _ Sc); exact H|].
      apply mbind_err in H as [H|(r & Er & H)]; [eapply w_in_right; [eapply say_has; eassumption|apply (IHs _ _ Sc); exact H]|].
      apply ret_inj, in_err in H as [[L ->]|(a & A & [U|(d & -> & T & ->)])].
      * destruct s as [s|es|q]; cbn [infer_spec_say] in Er.
        -- eapply w_in_select; [eapply say_has; eassumption|apply select_gives; exists r; split; [exact Er|reflexivity]|exact L].
        -- apply mbind_ok in Er as (t' & _ & Er). apply mbind_ok in Er as ([d n] & _ & Er). apply mok_inj in Er as <-. cbn in L. contradiction.
        -- eapply w_in_table; [eapply say_has; eassumption|apply table_gives; exists r; split; [exact Er|reflexivity]|exact L].
      * eapply w_in_type; [eapply say_typed; eassumption| |exact U]. apply M. eauto.
      * eapply w_in_not_null; [eapply say_typed; eassumption|]. apply M. eauto.
    + intros Hg Hs H. apply andb_true_iff in Hs as [S1 S2].
      assert (K : forall t r, typed rels e t -> infer_spec_say up x y s = mok r -> in_say t r = Err c ->
                infer_say up x y e = merr c \/ (exists a, infer_say up x y e = mok a /\ (r <-! infer_spec_say up x y s ;; Ret (in_say a r)) = merr c)).
      { intros t r T E I. right. exists t. split; [eapply typed_say; eassumption|]. apply mbind_err. right. exists r. split; [exact E|]. rewrite I. reflexivity. }
      apply mbind_err.
      inversion H as [| | | | | | | | | | | | | | | | | | | | | | | ? ? ? ? H'|? ? ? ? [t T] H'|? ? s' attrs [t T] Q L|? ? q attrs [t T] Q L|? ? ? t d n ? T Q U|? ? ? d T Q| |]; subst.
      * left. apply (IHe _ _ Sc); assumption.
      * right. exists t. split; [eapply typed_say; eassumption|]. apply mbind_err. left. apply (IHs _ _ Sc); assumption.
      * apply select_gives in Q as (r & Er & <-); [|assumption..]. eapply K; [exact T|exact Er|]. apply in_err. auto.
      * apply table_gives in Q as (r & Er & <-). eapply K; [exact T|exact Er|]. apply in_err. auto.
      * apply M in Q as (r & a & Er & A & E); [|assumption..]. eapply K; [exact T|exact Er|]. apply in_err. right. exists a. rewrite E. auto.
      * apply M in Q as (r & a & Er & A & E); [|assumption..]. eapply K; [exact T|exact Er|]. apply in_err. right. exists a. rewrite E. eauto 10.
  - (* BETWEEN *) intros e lo hi IHe IHlo IHhi rels y Sc c. cbn [infer_say safe]. split.
    + intros H. apply mbind_err in H as [H|(t1 & E1 & H)]; [apply w_between_1, (IHe _ _ Sc); exact H|].
      apply (say_typed _ _ _ _ Sc) in E1.
      apply mbind_err in H as [H|(t2 & E2 & H)]; [apply w_between_2; [exists t1; exact E1|apply (IHlo _ _ Sc); exact H]|].
      apply (say_typed _ _ _ _ Sc) in E2.
      apply mbind_err in H as [H|(t3 & E3 & H)]; [apply w_between_3; [exists t1; exact E1|exists t2; exact E2|apply (IHhi _ _ Sc); exact H]|].
      apply (say_typed _ _ _ _ Sc) in E3. apply between_err in H as [[N ->]|[(d1 & n1 & d2 & n2 & d3 & n3 & -> & -> & -> & N) ->]].
      * eapply w_between_rows; eassumption.
      * eapply w_between_type; eassumption.
    + intros Hg Hs H. apply andb_true_iff in Hs as [Hs S3]. apply andb_true_iff in Hs as [S1 S2]. apply mbind_err.
      inversion H as [| | | | | | | | | | | | | ? ? ? ? ? H'|? ? ? ? ? [t1 T1] H'|? ? ? ? ? [t1 T1] [t2 T2] H'|? ? ? ? t1 t2 t3 T1 T2 T3 N|? ? ? ? d1 n1 d2 n2 d3 n3 T1 T2 T3 N| | | | | | | | | | | | | ]; subst.
      * left. apply (IHe _ _ Sc); assumption.
      * right. exists t1. split; [eapply typed_say; eassumption|]. apply mbind_err. left. apply (IHlo _ _ Sc); assumption.
      * right. exists t1. split; [eapply typed_say; eassumption|]. apply mbind_err. right. exists t2. split; [eapply typed_say; eassumption|].
        apply mbind_err. left. apply (IHhi _ _ Sc); assumption.
      * right. exists t1. split; [eapply typed_say; eassumption|]. apply mbind_err. right. exists t2. split; [eapply typed_say; eassumption|].
        apply mbind_err. right. exists t3. split; [eapply typed_say; eassumption|]. apply between_err. auto.
      * right. eexists. split; [eapply typed_say; eassumption|]. apply mbind_err. right. eexists. split; [eapply typed_say; eassumption|].
        apply mbind_err. right. eexists. split; [eapply typed_say; eassumption|]. apply between_err. right. split; [|reflexivity].
        eexists _, _, _, _, _, _. eauto.
  - (* CASE *) intros o whens els IHo IHw IHe rels y Sc c.
    assert (Gr : g -> safe (ECase o whens els) = true -> forall gd, exists u, guards (fun e => drop (infer_say up x y e)) gd whens = Ret u).
    { cbn [safe]. intros Hg Hs gd. apply andb_true_iff in Hs as [Hs _]. apply andb_true_iff in Hs as [_ Hw].
      apply guards_returns. apply forallb_Forall in Hw. revert Hw. apply Forall_impl. intros w Hw. apply andb_true_iff in Hw as [Hw _].
      rewrite infer_drop. apply (proj1 (validation_returns up)); [exact Hw|exact (Hx Hg)|eapply scope_scalars; exact Sc]. }
    assert (IHb : Forall (fun p => WE (snd p)) whens) by (revert IHw; apply Forall_impl; tauto).
    set (core := t <-! bodies_say (infer_say up x y) whens ;;
                 else_say (match els with None => None | Some e => Some (infer_say up x y e) end) t).
    assert (Core : core = merr c -> opt (has_type up tables rels) o -> wrong rels (ECase o whens els) c).
    { intros H Ho. apply case_err in H as [(w & e & l & -> & H)|(b & d & ns & -> & N & F & H)].
      - inversion IHb as [|? ? He Hl]; subst. cbn in He. destruct H as [H|(t & Et & H)].
        + apply w_case_first; [exact Ho|apply (He _ _ Sc); exact H].
        + eapply w_case_results; [exact Ho|eapply say_typed; eassumption|apply (results_agree rels y l Hl Sc); exact H].
      - assert (F' : Forall2 (fun w n => typed rels (snd w) (TyScalar d n)) whens ns).
        { clear -F Sc Ht Hx. induction F; constructor; [eapply say_typed; eassumption|assumption]. }
        destruct H as [H|(t & Et & H)].
        + eapply w_case_else; [exact Ho|exact N|exact F'|apply (IHe _ _ Sc); exact H].
        + eapply w_case_else_type; [exact Ho|exact N|exact F'|eapply say_typed; eassumption|exact H]. }
    split.
    + intros H. destruct o as [e|]; cbn [infer_say] in H.
      * apply mbind_err in H as [H|(te & Ee & H)]; [apply w_case_operand, (IHo _ _ Sc); exact H|].
        destruct (guards _ _ whens) as [u| |]; try discriminate. apply Core; [exact H|]. constructor. eapply say_has; eassumption.
      * destruct (guards _ _ whens) as [u| |]; try discriminate. apply Core; [exact H|constructor].
    + intros Hg Hs H. specialize (Gr Hg Hs). cbn [safe] in Hs.
      apply andb_true_iff in Hs as [Hs S4]. apply andb_true_iff in Hs as [Hs S3]. apply andb_true_iff in Hs as [S1 S2].
      assert (K : (exists e, o = Some e /\ wrong rels e c) \/ opt (has_type up tables rels) o /\ core = merr c).
      { assert (F' : forall d ns, Forall2 (fun w n => typed rels (snd w) (TyScalar d n)) whens ns ->
                     Forall2 (fun w n => infer_say up x y (snd w) = mok (TyScalar d n)) whens ns).
        { intros d ns F. clear -F Sc Ht Hx Hg S3. induction F as [|[w e] n l ns T F IH]; constructor; cbn [forallb fst snd] in *;
            apply andb_true_iff in S3 as [S3 S3']; [|auto]. apply andb_true_iff in S3 as [_ S3]. eapply typed_say; eassumption. }
        inversion H as [| | | | | | | | | | | | | | | | | | ? e ? ? ? H'|? ? w e l ? ? Ho H'|? ? w e t l ? ? Ho T H'|? ? ? b d ns ? Ho N F H'|? ? ? b d ns t ? Ho N F T U| | | | | | | | ]; subst.
        - left. eauto.
        - right. split; [exact Ho|]. inversion IHb as [|? ? He Hl]; subst. cbn [forallb fst snd] in S3. apply andb_true_iff in S3 as [S3 S3'].
          apply andb_true_iff in S3 as [_ S3]. apply (case_err (infer_say up x y) ((w, e) :: l) els). left. exists w, e, l. split; [reflexivity|]. left. apply (He _ _ Sc); assumption.
        - right. split; [exact Ho|]. inversion IHb as [|? ? He Hl]; subst. cbn [forallb fst snd] in S3. apply andb_true_iff in S3 as [S3 S3'].
          apply andb_true_iff in S3 as [_ S3]. apply (case_err (infer_say up x y) ((w, e) :: l) els). left. exists w, e, l. split; [reflexivity|]. right. exists t.
          split; [eapply typed_say; eassumption|]. apply (results_agree rels y l Hl Sc); assumption.
        - right. split; [exact Ho|]. apply (case_err (infer_say up x y) whens (Some b)). right. exists b, d, ns. split; [reflexivity|]. split; [exact N|]. split; [auto|].
          left. apply (IHe _ _ Sc); assumption.
        - right. split; [exact Ho|]. apply (case_err (infer_say up x y) whens (Some b)). right. exists b, d, ns. split; [reflexivity|]. split; [exact N|]. split; [auto|].
          right. exists t. split; [eapply typed_say; eassumption|exact U]. }
      destruct o as [e|]; cbn [infer_say].
      * apply mbind_err. destruct K as [(e' & [= <-] & K)|[Ho K]]; [left; apply (IHo _ _ Sc); assumption|].
        right. inversion Ho as [|? [te Te]]; subst. exists te. split; [eapply typed_say; eassumption|].
        destruct (Gr (fun t => match is_compatible t te with Ok true => Ok tt | _ => Err tt end)) as [u Eu]. rewrite Eu. exact K.
      * destruct K as [(e' & [=] & _)|[_ K]]. destruct (Gr logical) as [u Eu]. rewrite Eu. exact K.
  - (* IN (SELECT) *) intros s IH rels y Sc c. cbn [infer_spec_say safe_spec]. split.
    + intros H. apply wp_select, IH; exact H.
    + intros Hg Hs H. inversion H; subst. apply IH; assumption.
  - (* IN (list) *) intros es IH rels y Sc c. cbn [safe_spec].
    change (infer_spec_say up x y (SpList es)) with
      (t <-! members_say (infer_say up x y) es ;;
       '(d, n) <-! or_say CSetScalar (scalar t) ;; mok (plain_row [{| a_name := lit "_col0"; a_type := d; a_null := n |}])).
    assert (Fw : forall es t, Forall (fun e => exists u, infer_say up x y e = mok u /\ alike t u) es -> Forall (fun e => exists u, typed rels e u /\ alike t u) es).
    { intros l t. apply Forall_impl. intros e (u & E & A). exists u. split; [eapply say_typed; eassumption|exact A]. }
    assert (Ms : forall es t, Forall WE es -> agree (forallb safe es) (miss (infer_say up x y) t es c)
        (at_first (fun e => exists u, typed rels e u /\ alike t u) (fun e c => exists u, typed rels e u /\ unlike t u c) es c)).
    { intros l t Hl. apply at_first_agree. apply Forall_forall. intros e _. split; [|intros k]; (split; [intros (u & E & A)|intros Hg Hs (u & E & A)]); exists u;
        (split; [|exact A]); (eapply say_typed; eassumption) || (eapply typed_say; eassumption). }
    split.
    + intros H. destruct es as [|e es]; [discriminate|]. inversion IH as [|? ? He Hes]; subst. apply mbind_err in H as [H|(t & Et & H)].
      * rewrite members_cons in H. destruct (infer_say up x y e) as [[t|k]| |] eqn:E; try discriminate; cbn [bind] in H; apply members_rest_fwd in H as [H|[F H]].
        -- apply wp_member, lw_later. apply (last_agree rels y es Hes Sc); exact H.
        -- eapply wp_unlike; [eapply say_typed; eassumption| |apply (Ms es t Hes); exact H].
           revert F. apply Forall_impl. intros e' [u Eu]. eapply say_has; eassumption.
        -- apply wp_member, lw_later. apply (last_agree rels y es Hes Sc); exact H.
        -- subst k. apply wp_member, lw_here; [apply (He _ _ Sc); exact E|]. revert F. apply Forall_impl. intros e' [u Eu]. eapply say_has; eassumption.
      * apply mbind_err in H as [H|([d n] & _ & H)]; [|discriminate]. apply say_err in H as [H ->]. destruct t as [ts|d n]; [|discriminate].
        rewrite members_cons in Et. destruct (infer_say up x y e) as [[t|k]| |] eqn:E; try discriminate; cbn [bind] in Et; apply members_rest_good in Et as (a & Ea & Al & F); [|discriminate].
        injection Ea as <-. destruct t as [us|d n]; [|inversion Al].
        eapply wp_rows; [eapply say_typed; [exact Sc|exact E]|]. apply Fw. exact F.
    + intros Hg Hs H. apply andb_true_iff in Hs as [_ Hs]. apply mbind_err.
      assert (R : Forall (fun e => returns (infer_say up x y e)) es).
      { apply forallb_Forall in Hs. revert Hs. apply Forall_impl. intros e Hs. eapply say_returns; eassumption. }
      inversion H as [| |? ? ? H'|? e es' t ? T F M|? e es' ts T F]; subst.
      * left. apply (last_agree rels y es IH Sc) in H'; [|assumption..].
        destruct es as [|e es']; [inversion H'|]. inversion R as [|? ? [r Er] R']; subst. rewrite members_cons, Er. cbn [bind].
        apply members_rest_bwd; [exact R'|]. inversion H' as [? ? ? E F|? ? ? E]; subst; [|auto]. rewrite Er in E. apply ret_inj in E as ->. auto.
      * left. inversion R as [|? ? _ R']; subst. inversion IH as [|? ? He Hes]; subst. cbn [forallb] in Hs. apply andb_true_iff in Hs as [S1 S2].
        rewrite members_cons, (typed_say _ _ _ _ Hg S1 Sc T). cbn [bind mok]. apply members_rest_bwd; [exact R'|]. right. split.
        -- apply forallb_Forall in S2. revert F S2. clear -Hg Sc Ht Hx. intros F S2. induction F as [|e l [u Eu] F IHF]; constructor; inversion S2; subst; [|auto].
           exists u. eapply typed_say; eassumption.
        -- apply (Ms es' t Hes); assumption.
      * right. inversion R as [|? ? _ R']; subst. cbn [forallb] in Hs. apply andb_true_iff in Hs as [S1 S2].
        destruct (members_rest_all (infer_say up x y) es' (TyTuple ts)) as (t & Et & Al).
        { apply forallb_Forall in S2. revert F S2. clear -Hg Sc Ht Hx. intros F S2. induction F as [|e l (u & Eu & Au) F IHF]; constructor; inversion S2; subst; [|auto].
          exists u. split; [eapply typed_say; eassumption|exact Au]. }
        exists t. split; [rewrite members_cons, (typed_say _ _ _ _ Hg S1 Sc T); exact Et|]. inversion Al; subst. reflexivity.
  - (* IN table *) intros q rels y Sc c. cbn [infer_spec_say]. apply agree_iff. rewrite Hn. split; [constructor; assumption|]. intros H; inversion H; assumption.
  - (* SELECT *) intros common e order lim IHc IHx IHo IHl c. cbn [infer_select_say safe_select].
    assert (Og : forall rels y, scope rels y -> agree (forallb (fun o => safe (fst (fst o))) order)
              (fold_say (fun (_ : unit) o => t <-! infer_say up x y (fst (fst o)) ;; _ <-! or_say COrderScalar (scalar t) ;; mok tt) tt order = mok tt)
              (Forall (fun o => exists t, typed rels (fst (fst o)) t /\ is_scalar t) order)).
    { intros rels y Sc. eapply agree_trans; [apply (fold_unit_ok (fun o : expr * option name * direction => t <-! infer_say up x y (fst (fst o)) ;; _ <-! or_say COrderScalar (scalar t) ;; mok tt))|].
      apply (Forall_agree g (fun o : expr * option name * direction => safe (fst (fst o)))). apply Forall_forall. intros o _. apply order_good; exact Sc. }
    assert (Ow : forall rels y, scope rels y -> agree (forallb (fun o => safe (fst (fst o))) order)
              (fold_say (fun (_ : unit) o => t <-! infer_say up x y (fst (fst o)) ;; _ <-! or_say COrderScalar (scalar t) ;; mok tt) tt order = merr c)
              (at_first (fun o => exists t, typed rels (fst (fst o)) t /\ is_scalar t)
                 (fun o => unfit (typed rels) (wrong rels) is_scalar COrderScalar (fst (fst o))) order c)).
    { intros rels y Sc. eapply agree_trans; [apply (fold_unit_err (fun o : expr * option name * direction => t <-! infer_say up x y (fst (fst o)) ;; _ <-! or_say COrderScalar (scalar t) ;; mok tt))|].
      apply (at_first_agree g (fun o : expr * option name * direction => safe (fst (fst o)))). revert IHo. apply Forall_impl. intros o Ho. split; [apply order_good; exact Sc|].
      intros k. eapply agree_trans; [|apply (unfit_agree rels y (fst (fst o)) is_scalar scalar COrderScalar Ho Sc scalar_err)].
      apply test_split. discriminate. }
    split.
    + intros H. apply mbind_err in H as [H|(y & Ey & H)]; [apply ws_common, (common_wrong common IHc [] [] eq_refl); exact H|].
      apply common_good in Ey as (rels & Cm & Sc). apply mbind_err in H as [H|(t & Et & H)]; [eapply ws_set; [exact Cm|apply IHx; exact H]|].
      assert (T : set_typed up tables e (r_attrs t)) by (apply set_gives; exists t; auto).
      apply mbind_err in H as [H|([] & Eo & H)]; [eapply ws_order; [exact Cm|exact T|apply (Ow rels y Sc); exact H]|].
      apply (Og rels y Sc) in Eo. destruct lim as [[rows offset]|]; [|discriminate]. cbn in IHl. destruct IHl as [I1 I2].
      apply mbind_err in H as [H|(n & En & H)]; [eapply ws_limit; [eassumption..|]; left; apply (I1 [] [] eq_refl); exact H|].
      apply mbind_err in H as [H|([] & El & H)].
      * eapply ws_limit; [eassumption..|]. right. apply say_err in H as [H ->]. apply limit_err in H. split; [|reflexivity]. exists n.
        split; [eapply say_typed; [reflexivity|exact En]|exact H].
      * apply say_ok, limit_ok in El as ->. destruct offset as [o|]; [|discriminate].
        assert (Tn : typed [] rows (TyScalar DNumeric false)) by (eapply say_typed; [reflexivity|exact En]).
        eapply ws_offset; [eassumption..|]. apply mbind_err in H as [H|(m & Em & H)]; [left; apply (I2 [] [] eq_refl); exact H|].
        apply mbind_err in H as [H|(? & _ & H)]; [|discriminate]. right. apply say_err in H as [H ->]. apply limit_err in H. split; [|reflexivity].
        exists m. split; [eapply say_typed; [reflexivity|exact Em]|exact H].
    + intros Hg Hs H. apply andb_true_iff in Hs as [Hs S4]. apply andb_true_iff in Hs as [Hs S3]. apply andb_true_iff in Hs as [S1 S2].
      apply mbind_err. inversion H as [? ? ? ? ? H'|? ? ? ? rels ? Cm H'|? ? ? ? rels attrs ? Cm T H'|? ? ? rows offset rels attrs ? Cm T O H'|? ? ? rows offset rels attrs ? Cm T O Tn H']; subst.
      * left. apply (common_wrong common IHc [] [] eq_refl); assumption.
      * right. destruct (common_all common rels Hg S1 Cm) as (y & Ey & Sc). exists y. split; [exact Ey|]. apply mbind_err. left. apply IHx; assumption.
      * right. destruct (common_all common rels Hg S1 Cm) as (y & Ey & Sc). exists y. split; [exact Ey|]. apply set_gives in T as (t & Et & _); [|assumption..].
        apply mbind_err. right. exists t. split; [exact Et|]. apply mbind_err. left. apply (Ow rels y Sc); assumption.
      * right. destruct (common_all common rels Hg S1 Cm) as (y & Ey & Sc). exists y. split; [exact Ey|]. apply set_gives in T as (t & Et & _); [|assumption..].
        apply mbind_err. right. exists t. split; [exact Et|]. apply mbind_err. right. exists tt. split; [apply (Og rels y Sc); assumption|].
        cbn in IHl. destruct IHl as [I1 I2]. apply andb_true_iff in S4 as [S4 S5]. apply mbind_err. destruct H' as [H'|[(n & Tn & N) ->]]; [left; apply (I1 [] [] eq_refl); assumption|].
        right. exists n. split; [apply (typed_say [] []); [exact Hg|exact S4|reflexivity|exact Tn]|]. apply mbind_err. left. apply say_err.
        split; [apply limit_err; exact N|reflexivity].
      * right. destruct (common_all common rels Hg S1 Cm) as (y & Ey & Sc). exists y. split; [exact Ey|]. apply set_gives in T as (t & Et & _); [|assumption..].
        apply mbind_err. right. exists t. split; [exact Et|]. apply mbind_err. right. exists tt. split; [apply (Og rels y Sc); assumption|].
        cbn in IHl. destruct IHl as [I1 I2]. apply andb_true_iff in S4 as [S4 S5]. apply mbind_err. right. exists (TyScalar DNumeric false).
        split; [apply (typed_say [] []); [exact Hg|exact S4|reflexivity|exact Tn]|]. apply mbind_err. right. exists tt. split; [reflexivity|].
        apply mbind_err. destruct H' as [H'|[(n & Tm & N) ->]]; [left; apply (I2 [] [] eq_refl); assumption|]. right. exists n.
        split; [apply (typed_say [] []); [exact Hg|exact S5|reflexivity|exact Tm]|]. apply mbind_err. left. apply say_err.
        split; [apply limit_err; exact N|reflexivity].
  - (* WITH *) intros id columns q IH c. cbn [infer_cte_say safe_cte]. split.
    + intros H. apply mbind_err in H as [H|(t & Et & H)]; [apply wt_query, IH; exact H|]. destruct columns as [names|]; [|discriminate].
      apply mbind_err in H as [H|(attrs & _ & H)]; [|discriminate]. apply ret_inj, pick_err in H.
      eapply wt_names; [apply select_gives; exists t; split; [exact Et|reflexivity]|exact H].
    + intros Hg Hs H. apply mbind_err. inversion H as [? ? ? ? H'|? names ? attrs ? T H']; subst; [left; apply IH; assumption|right].
      apply select_gives in T as (t & Et & <-); [|assumption..]. exists t. split; [exact Et|]. apply mbind_err. left. unfold merr. f_equal.
      apply pick_err; exact H'.
  - (* VALUES *) intros rows IH c. cbn [infer_set_say safe_set]. split.
    + intros H. destruct rows as [|row rows]; [discriminate|]. cbn [values_say] in H. inversion IH as [|? ? Hr Hrs]; subst.
      apply mbind_err in H as [H|(ts & E & H)]; [eapply wx_first, first_row_wrong; eassumption|].
      apply mbind_err in H as [H|(? & _ & H)]; [|discriminate]. eapply wx_rows; [|eapply rows_wrong; eassumption].
      apply (first_row_agree up x g tables row (rules_RE row)). rewrite <- first_drop. apply mok_drop; exact E.
    + intros Hg Hs H. apply andb_true_iff in Hs as [_ Hs]. inversion H as [row rest ? H'|row rest attrs ? T H'| | | | | | | |]; subst; inversion IH as [|? ? Hr Hrs]; subst;
        cbn [forallb] in Hs; apply andb_true_iff in Hs as [S1 S2]; cbn [values_say]; apply mbind_err.
      * left. apply first_row_wrong; assumption.
      * right. exists attrs. split.
        -- apply mok_drop. rewrite first_drop. apply (first_row_agree up x g tables row (rules_RE row)); assumption.
        -- apply mbind_err. left. apply rows_wrong; assumption.
  - (* SELECT ... FROM *) intros mode columns from wh group IHr IHf IHw IHg c. cbn [infer_set_say safe_set]. split.
    + intros H. apply mbind_err in H as [H|([y attrs] & Ef & H)]; [apply wx_from, (from_wrong from IHf [] [] [] eq_refl); exact H|].
      apply from_good in Ef as (rels & It & Sc). apply mbind_err in H as [H|([] & Ew & H)].
      * destruct wh as [e|]; [|discriminate]. eapply wx_where; [exact It|]. apply (condition_wrong rels y e CWhere IHw Sc); exact H.
      * apply (condition_good rels y CWhere wh Sc) in Ew. apply mbind_err in H as [H|([] & Eg & H)].
        -- destruct group as [[gs having]|]; [|discriminate]. cbn in IHg. destruct IHg as [I1 I2].
           apply mbind_err in H as [H|([] & E1 & H)]; [eapply wx_group; [exact It|exact Ew|apply (groups_wrong rels y gs I1 Sc); exact H]|].
           apply (groups_good rels y gs Sc) in E1. destruct having as [e|]; [|discriminate].
           eapply wx_having; [exact It|exact Ew|exact E1|]. apply (condition_wrong rels y e CHaving I2 Sc); exact H.
        -- eapply wx_columns; [exact It|exact Ew| |apply (IHr _ _ Sc attrs); exact H].
           destruct group as [[gs having]|]; [|constructor]. constructor. cbn [fst snd]. apply mbind_ok in Eg as ([] & E1 & E2).
           split; [apply (groups_good rels y gs Sc); exact E1|apply (condition_good rels y CHaving having Sc); exact E2].
    + intros Hg Hs H. apply andb_true_iff in Hs as [Hs S4]. apply andb_true_iff in Hs as [Hs S3]. apply andb_true_iff in Hs as [S1 S2].
      apply mbind_err. inversion H as [| |? ? ? ? ? ? H'|? ? ? e ? rels attrs ? It H'|? ? ? ? gs having rels attrs ? It W H'|? ? ? ? gs e rels attrs ? It W G H'|? ? ? ? ? rels attrs ? It W G H'| | |]; subst.
      * left. apply (from_wrong from IHf [] [] [] eq_refl); assumption.
      * right. destruct (from_all from rels attrs Hg S2 It) as (y & Ef & Sc). exists (y, attrs). split; [exact Ef|]. apply mbind_err. left.
        apply (condition_wrong rels y e CWhere IHw Sc); assumption.
      * right. destruct (from_all from rels attrs Hg S2 It) as (y & Ef & Sc). exists (y, attrs). split; [exact Ef|]. apply mbind_err. right. exists tt.
        split; [apply (condition_good rels y CWhere wh Sc); assumption|]. cbn in IHg. destruct IHg as [I1 I2]. apply andb_true_iff in S4 as [S4 S5].
        apply mbind_err. left. apply mbind_err. left. apply (groups_wrong rels y gs I1 Sc); assumption.
      * right. destruct (from_all from rels attrs Hg S2 It) as (y & Ef & Sc). exists (y, attrs). split; [exact Ef|]. apply mbind_err. right. exists tt.
        split; [apply (condition_good rels y CWhere wh Sc); assumption|]. cbn in IHg. destruct IHg as [I1 I2]. apply andb_true_iff in S4 as [S4 S5].
        apply mbind_err. left. apply mbind_err. right. exists tt. split; [apply (groups_good rels y gs Sc); assumption|].
        apply (condition_wrong rels y e CHaving I2 Sc); assumption.
      * right. destruct (from_all from rels attrs Hg S2 It) as (y & Ef & Sc). exists (y, attrs). split; [exact Ef|]. apply mbind_err. right. exists tt.
        split; [apply (condition_good rels y CWhere wh Sc); assumption|]. apply mbind_err. right. exists tt. split; [|apply (IHr _ _ Sc attrs); assumption].
        destruct group as [[gs having]|]; [|reflexivity]. inversion G as [|? [G1 G2]]; subst. cbn [fst snd] in *. apply andb_true_iff in S4 as [S4 S5].
        apply mbind_ok. exists tt. split; [apply (groups_good rels y gs Sc); assumption|apply (condition_good rels y CHaving having Sc); assumption].
  - (* set operations *) intros op l r IHl IHr c. cbn [infer_set_say safe_set]. split.
    + intros H. apply mbind_err in H as [H|(t1 & E1 & H)]; [apply wx_left, IHl; exact H|].
      assert (T1 : set_typed up tables l (r_attrs t1)) by (apply set_gives; exists t1; auto).
      apply mbind_err in H as [H|(t2 & E2 & H)]; [eapply wx_right; [exact T1|apply IHr; exact H]|].
      assert (T2 : set_typed up tables r (r_attrs t2)) by (apply set_gives; exists t2; auto).
      apply mbind_err in H as [H|(? & _ & H)]; [|discriminate]. apply ret_inj, unify_columns_err in H as [-> (i & a & b & Ea & Eb & N)].
      eapply wx_types; eassumption.
    + intros Hg Hs H. apply andb_true_iff in Hs as [S1 S2]. apply mbind_err.
      inversion H as [| | | | | | |? ? ? ? H'|? ? ? attrs ? T H'|? ? ? a1 a2 i a b T1 T2 Ea Eb N]; subst.
      * left. apply IHl; assumption.
      * right. apply set_gives in T as (t1 & E1 & _); [|assumption..]. exists t1. split; [exact E1|]. apply mbind_err. left. apply IHr; assumption.
      * right. apply set_gives in T1 as (t1 & E1 & <-); [|assumption..]. apply set_gives in T2 as (t2 & E2 & <-); [|assumption..].
        exists t1. split; [exact E1|]. apply mbind_err. right. exists t2. split; [exact E2|]. apply mbind_err. left. unfold merr. f_equal.
        apply unify_columns_err. eauto 10.
  - (* FROM table *) intros q alias rels y Sc c. cbn [infer_table_say safe_table]. apply agree_iff.
    assert (Ln : forall r, resolve_say up x q = mok r -> (match alias with Some id => Ret id | None => last_name q end) =
                 Ret (match alias with Some a => a | None => last q [] end)).
    { intros r E. destruct alias; [reflexivity|]. apply (resolved_last up x q r). rewrite <- resolve_drop. apply mok_drop; exact E. }
    rewrite mbind_err. split.
    + intros [H|(r & Er & H)]; [apply wi_table, Hn; exact H|]. rewrite (Ln r Er) in H. cbn [bind] in H.
      apply mbind_err in H as [H|(? & _ & H)]; [|discriminate]. apply (relation_err up rels) in H as [I ->]; [|exact Sc].
      eapply wi_twice; [apply table_gives; exists r; split; [exact Er|reflexivity]|reflexivity|exact I].
    + intros H. inversion H as [? ? ? ? H'|? ? ? attrs n T E I| | |]; subst; [left; apply Hn; assumption|right].
      apply table_gives in T as (r & Er & <-). exists r. split; [exact Er|]. rewrite (Ln r Er). cbn [bind]. apply mbind_err. left.
      apply (relation_err up rels); auto.
  - (* FROM subquery *) intros s alias IH rels y Sc c. cbn [infer_table_say safe_table]. split.
    + intros H. apply mbind_err in H as [H|(r & _ & H)]; [|discriminate]. apply wi_select, IH; exact H.
    + intros Hg Hs H. inversion H; subst. apply mbind_err. left. apply IH; assumption.
  - (* joins *) intros l r op k IHl IHr _ rels y Sc c. cbn [infer_table_say safe_table]. split.
    + intros H. apply mbind_err in H as [H|([y1 a1] & E1 & H)]; [apply wi_left, (IHl _ _ Sc); exact H|].
      destruct (item_gives _ _ _ _ _ Sc E1) as (rels' & T & Sc'). apply mbind_err in H as [H|([y2 a2] & _ & H)]; [|discriminate].
      eapply wi_right; [exact T|eapply scope_distinct; exact Sc'|apply (IHr _ _ Sc'); exact H].
    + intros Hg Hs H. apply andb_true_iff in Hs as [S1 S2]. apply mbind_err. inversion H as [| | |? ? ? ? ? ? H'|? ? ? ? ? rels' attrs ? T D H']; subst.
      * left. apply (IHl _ _ Sc); assumption.
      * right. destruct (gives_item _ _ _ _ _ Hg S1 Sc T D) as (y' & Ey & Sc'). exists (y', attrs). split; [exact Ey|].
        apply mbind_err. left. apply (IHr _ _ Sc'); assumption.
  - (* star *) intros rels y Sc attrs c. cbn [infer_columns_say]. split; [discriminate|]. intros _ _ H; inversion H.
  - (* select lists *) intros l IH rels y Sc attrs c. cbn [infer_columns_say safe_columns].
    destruct (columns_wrong rels y l IH Sc ([], []) c) as [A1 A2]. split.
    + intros H. apply mbind_err in H as [H|([cols m] & _ & H)]; [|discriminate]. constructor. auto.
    + intros Hg Hs H. inversion H; subst. apply mbind_err. left. auto.
  - (* r.* *) intros n rels y Sc st c. cbn [infer_column_say]. apply agree_iff. destruct (scope_holds _ _ _ Sc) as [_ Hy]. rewrite Hy.
    destruct (find_rel up rels n) as [attrs|] eqn:F.
    + assert (I : in_scope up rels n) by (apply in_scope_rel; congruence). split.
      * destruct (relation_columns up st (rel_map up attrs)); discriminate.
      * intros H. inversion H; contradiction.
    + apply not_in_scope in F. destruct (enter_none_cases (named up n (flat_map snd rels))) as [E|[[t E]|E]].
      * rewrite E. assert (Z0 : named up n (flat_map snd rels) = []) by (destruct (named up n (flat_map snd rels)) as [|a [|b l]]; [reflexivity|discriminate..]).
        split; [intros H; injection H as <-; constructor; assumption|]. intros H. inversion H; subst; [reflexivity|congruence].
      * assert (Z0 : named up n (flat_map snd rels) <> []) by (intros E0; rewrite E0 in E; discriminate).
        rewrite E. split; [intros H; injection H as <-; constructor; assumption|]. intros H. inversion H; subst; [congruence|reflexivity].
      * assert (Z0 : named up n (flat_map snd rels) <> []) by (intros E0; rewrite E0 in E; discriminate).
        rewrite E. split; [intros H; injection H as <-; constructor; assumption|]. intros H. inversion H; subst; [congruence|reflexivity].
  - (* expressions *) intros e rename IH rels y Sc st c. cbn [infer_column_say safe_column].
    destruct (unfit_agree rels y e is_scalar scalar CColumnScalar IH Sc scalar_err c) as [U1 U2].
    assert (X : forall (f : data_type * bool -> mres (list attribute * nmap nat)), (forall a, f a <> merr c) ->
        ((t <-! infer_say up x y e ;; a <-! or_say CColumnScalar (scalar t) ;; f a) = merr c <-> (t <-! infer_say up x y e ;; or_say CColumnScalar (scalar t)) = merr c)).
    { intros f Nf. apply (test_split (infer_say up x y e) CColumnScalar scalar (fun _ a => f a)). intros _ a. apply Nf. }
    specialize (X (fun '(d, n) => mok (push_column up st (match rename with None => lit "col" | Some n => n end) d n))). split.
    + intros H. apply X in H; [constructor; auto|]. intros [d n]. discriminate.
    + intros Hg Hs H. inversion H; subst. apply X; [intros [d n]; discriminate|]. auto.
Qed.

Lemma infer_wrong rels y e c : scope rels y -> agree (safe e) (infer_say up x y e = merr c) (wrong rels e c).
Proof. intros Sc. apply (proj1 blame_agree); exact Sc. Qed.

Lemma select_wrong s c : agree (safe_select s) (infer_select_say up x s = merr c) (wrong_select up tables no_table s c).
Proof. apply (proj1 (proj2 (proj2 blame_agree))). Qed.

Lemma set_wrong e c : agree (safe_set e) (infer_set_say up x e = merr c) (wrong_set up tables no_table e c).
Proof. apply (proj1 (proj2 (proj2 (proj2 (proj2 blame_agree))))). Qed.

End Proofs.
