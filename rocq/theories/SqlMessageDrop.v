(** * The functions with messages and those without agree *)

From Verif Require Import Base StrModel SqlNameModel SqlModel SqlInd SqlTypeProofs SqlMessageModel.
Local Open Scope list_scope.

Local Arguments rbind : simpl never.
Local Arguments mbind : simpl never.
Local Arguments drop : simpl never.

Lemma drop_ok {A} (a : A) : drop (mok a) = ok a.
Proof. reflexivity. Qed.

Lemma drop_say {A} c (r : result A unit) : drop (or_say c r) = pure r.
Proof. destruct r as [a|[]]; reflexivity. Qed.

Lemma drop_mbind {A B} (m : mres A) (f : A -> mres B) n g :
  drop m = n -> (forall a, drop (f a) = g a) -> drop (mbind m f) = rbind n g.
Proof.
  intros <- H. destruct m as [[a|c]| |]; try reflexivity. unfold mbind, rbind. cbn. apply H.
Qed.

Lemma drop_bind {A B} (m : outcome A) (f : A -> mres B) g :
  (forall a, drop (f a) = g a) -> drop (bind m f) = bind m g.
Proof. intros H. destruct m as [a| |]; cbn; [apply H|reflexivity..]. Qed.

Lemma drop_fold {S A} (f : S -> A -> mres S) g l : Forall (fun a => forall s, drop (f s a) = g s a) l ->
  forall s, drop (fold_say f s l) = fold_err g s l.
Proof.
  induction 1 as [|a l Ha Hl IH]; intros s; cbn [fold_say fold_err]; [reflexivity|].
  apply drop_mbind; [apply Ha|exact IH].
Qed.

Lemma drop_collect {A B} (f : A -> mres B) g l : Forall (fun a => drop (f a) = g a) l ->
  drop (collect_say f l) = collect g l.
Proof.
  induction 1 as [|a l Ha Hl IH]; cbn [collect_say collect]; [reflexivity|].
  apply drop_mbind; [exact Ha|]. intros b. apply drop_mbind; [exact IH|]. reflexivity.
Qed.

Definition bare {A} (r : result A complaint) : result A unit := match r with Ok a => Ok a | Err _ => Err tt end.

Lemma drop_ret {A} (r : result A complaint) : drop (Ret r) = pure (bare r).
Proof. destruct r; reflexivity. Qed.

Section Drop.
Context (up : Z -> list Z).

Lemma compat_bare a : forall b, bare (compat_say a b) = is_compatible a b.
Proof.
  induction a as [d n|ts IH] using stype_induction; intros [us|d' n']; cbn; try reflexivity.
  - destruct (dt_eqb d d'); reflexivity.
  - destruct (negb _); [reflexivity|].
    assert (H : forall us acc, bare (compat_say_fold compat_say acc ts us) = compat_fold is_compatible (bare acc) ts us).
    { clear us. induction IH as [|t ts Ht Hts IHl]; intros us acc; [destruct us; reflexivity|].
      destruct us as [|u us]; [reflexivity|]. cbn [compat_say_fold compat_fold]. rewrite IHl. f_equal. rewrite <- Ht.
      destruct acc, (compat_say t u); reflexivity. }
    apply H.
Qed.

Lemma unify_bare a : forall b, bare (unify_say a b) = unify a b.
Proof.
  induction a as [d n|ts IH] using stype_induction; intros [us|d' n']; cbn; try reflexivity.
  - destruct (dt_eqb d d'); reflexivity.
  - destruct (negb _); [reflexivity|].
    assert (H : forall us acc, bare (unify_say_fold unify_say acc ts us) = unify_fold unify acc ts us).
    { induction IH as [|t ts Ht Hts IHl]; intros us0 acc; [destruct us0; reflexivity|].
      destruct us0 as [|u us0]; [reflexivity|]. cbn. rewrite <- Ht. destruct (unify_say t u); [apply IHl|reflexivity]. }
    rewrite <- H. destruct (unify_say_fold _ _ _ _); reflexivity.
Qed.

Lemma name_bare y q : bare (name_say up y q) = name_type up y q.
Proof.
  destruct q as [|a [|b [|c q]]]; cbn; try reflexivity.
  - destruct (nget up y a) as [[]|]; reflexivity.
  - destruct (nget up y a) as [[]|]; try reflexivity. destruct (nget up m b); reflexivity.
Qed.

Lemma resolve_drop x q : drop (resolve_say up x q) = resolve_table up x q.
Proof.
  destruct q as [|a [|b [|c q]]]; cbn; try reflexivity.
  - destruct (nget up (x_tables x) a); [reflexivity|]. destruct (nget up (x_namespaces x) (x_default x)) as [ns|]; [|reflexivity].
    unfold ok_or. destruct (nget up ns a); reflexivity.
  - destruct (nget up (x_tables x) a); [reflexivity|]. destruct (nget up (x_namespaces x) a) as [ns|]; [|reflexivity].
    unfold ok_or. destruct (nget up ns b); reflexivity.
Qed.

Lemma compare_drop op l r : drop (compare_say op l r) = pure (compare_type op l r).
Proof.
  assert (H : drop (Ret (match compat_say l r with Ok n => Ok (TyScalar DLogical n) | Err e => Err e end)) =
    pure (match is_compatible l r with Ok n => Ok (TyScalar DLogical n) | Err e => Err e end)).
  { rewrite <- compat_bare. destruct (compat_say l r); reflexivity. }
  destruct op; try exact H; destruct l as [|d1 n1], r as [|d2 n2]; cbn; try reflexivity; try (destruct (_ && _); reflexivity); destruct d1; try reflexivity; destruct d2; reflexivity.
Qed.

Lemma between_drop e lo hi : drop (between_say e lo hi) = pure (between_type e lo hi).
Proof. destruct e, lo, hi; cbn; try reflexivity. destruct (_ && _); reflexivity. Qed.

Lemma case_step_bare acc b : bare (case_step_say acc b) = case_step acc b.
Proof.
  unfold case_step_say, case_step. rewrite <- compat_bare. destruct (compat_say b acc); cbn; [|reflexivity]. destruct b; reflexivity.
Qed.

Lemma in_bare t r : bare (in_say t r) = in_type t r.
Proof.
  unfold in_say, in_type. destruct (r_attrs r) as [|a [|b l]]; try reflexivity. rewrite <- compat_bare.
  destruct (compat_say t (attr_type a)) as [[]|]; reflexivity.
Qed.

Lemma unify_columns_bare l : forall r, bare (unify_columns_say l r) = unify_columns l r.
Proof.
  induction l as [|a l IH]; intros [|b r]; cbn [unify_columns_say unify_columns]; try reflexivity.
  rewrite <- unify_bare. destruct (unify_say (attr_type a) (attr_type b)) as [[us|d n]|]; cbn [bare]; try reflexivity.
  rewrite <- IH. destruct (unify_columns_say l r); reflexivity.
Qed.

Lemma pick_bare attrs names : bare (pick_columns_say up attrs names) = pick_columns up attrs names.
Proof.
  induction names as [|n names IH]; cbn; [reflexivity|]. destruct (find_column up attrs n); [|reflexivity].
  rewrite <- IH. destruct (pick_columns_say up attrs names); reflexivity.
Qed.

Lemma guards_ext (f g : expr -> res stype) h l : Forall (fun p => f (fst p) = g (fst p)) l -> guards f h l = guards g h l.
Proof.
  induction 1 as [|[a b] l Ha Hl IH]; cbn; [reflexivity|]. cbn in Ha. rewrite Ha. destruct (g a) as [[t|]| |]; cbn; try reflexivity.
  destruct (h t); [exact IH|reflexivity].
Qed.

Lemma bodies_drop f g l : Forall (fun p : expr * expr => drop (f (snd p)) = g (snd p)) l ->
  drop (bodies_say f l) = bodies g l.
Proof.
  intros H. destruct H as [|[a b] l Ha Hl]; [reflexivity|]. cbn [bodies_say bodies]. apply drop_mbind; [exact Ha|].
  induction Hl as [|[a' b'] l Hb Hl IH]; intros t; cbn [bodies_say_rest bodies_rest]; [reflexivity|].
  apply drop_mbind; [exact Hb|]. intros u. apply drop_mbind; [|exact IH]. rewrite drop_ret, case_step_bare. reflexivity.
Qed.

Lemma else_drop els els' t : match els, els' with Some a, Some b => drop a = b | None, None => True | _, _ => False end ->
  drop (else_say els t) = else_type els' t.
Proof.
  destruct els as [m|], els' as [m'|]; cbn; intros H; try contradiction; destruct t as [us|d n]; try reflexivity.
  apply drop_mbind; [exact H|]. intros b. apply drop_mbind; [|reflexivity]. rewrite drop_ret, compat_bare. reflexivity.
Qed.

Lemma members_drop f g l : Forall (fun e => drop (f e) = g e) l -> drop (members_say f l) = members g l.
Proof.
  intros H. destruct H as [|e l He Hl]; [reflexivity|]. cbn [members_say members].
  assert (R : forall acc, drop (members_say_rest f acc l) = members_rest g (bare acc) l).
  { clear He. induction Hl as [|e' l He Hl IH]; intros acc; cbn [members_say_rest members_rest]; [apply drop_ret|].
    rewrite <- He. destruct (f e') as [[t|c]| |]; unfold drop at 2; cbn [bind]; try reflexivity.
    - rewrite IH. f_equal. destruct acc; cbn; [|reflexivity]. rewrite unify_bare. reflexivity.
    - rewrite IH. reflexivity. }
  rewrite <- He. destruct (f e) as [[t|c]| |]; unfold drop at 2; cbn [bind]; try reflexivity; apply R.
Qed.

Lemma values_drop f g rows : Forall (Forall (fun e => drop (f e) = g e)) rows -> drop (values_say f rows) = values_type g rows.
Proof.
  intros H. destruct H as [|row rows Hr Hrs]; [reflexivity|]. cbn [values_say values_type]. apply drop_mbind.
  - generalize 0%nat. induction Hr as [|e row He Hr IH]; intros k; cbn [first_row_say first_row]; [reflexivity|].
    apply drop_mbind; [exact He|]. intros t. apply drop_mbind; [apply drop_say|]. intros [d n].
    apply drop_mbind; [apply IH|]. reflexivity.
  - intros types. apply drop_mbind; [|reflexivity]. apply drop_fold. revert Hrs. apply Forall_impl. clear.
    intros row H. induction H as [|e row He Hr IH]; intros [|a types]; cbn [next_row_say next_row]; try reflexivity.
    apply drop_mbind; [exact He|]. intros t. apply drop_mbind; [rewrite drop_ret, unify_bare; reflexivity|].
    intros [us|d n]; [reflexivity|]. apply drop_mbind; [apply IH|]. reflexivity.
Qed.

Lemma relation_drop y n attrs : drop (relation_say up y n attrs) = pure (add_relation up y n attrs).
Proof. apply drop_say. Qed.

Notation PE := (fun e => forall x y, drop (infer_say up x y e) = infer up x y e).

Lemma infer_drops :
  (forall e, PE e) /\
  (forall s, forall x y, drop (infer_spec_say up x y s) = infer_spec up x y s) /\
  (forall s, forall x, drop (infer_select_say up x s) = infer_select up x s) /\
  (forall c, forall x, drop (infer_cte_say up x c) = infer_cte up x c) /\
  (forall e, forall x, drop (infer_set_say up x e) = infer_set up x e) /\
  (forall t, forall x y, drop (infer_table_say up x y t) = infer_table up x y t) /\
  (forall c, forall x y attrs, drop (infer_columns_say up x y attrs c) = infer_columns up x y attrs c) /\
  (forall c, forall x y st, drop (infer_column_say up x y st c) = infer_column up x y st c).
Proof.
  apply sql_induction.
  - reflexivity.
  - intros q x y. cbn. rewrite drop_ret, name_bare. reflexivity.
  - intros es IH x y. cbn. apply drop_mbind; [|reflexivity]. apply drop_collect. revert IH. apply Forall_impl. auto.
  - intros s IH x y. cbn. apply drop_mbind; [apply IH|]. intros r. apply drop_say.
  - intros op e IH x y. cbn. apply drop_mbind; [apply IH|]. intros t. apply drop_say.
  - intros op l r IHl IHr x y. cbn. apply drop_mbind; [apply IHl|]. intros t. apply drop_mbind; [apply IHr|]. intros u. apply drop_say.
  - intros op l r IHl IHr x y. cbn. apply drop_mbind; [apply IHl|]. intros t. apply drop_mbind; [apply IHr|]. intros u. apply compare_drop.
  - intros e s IHe IHs x y. cbn. apply drop_mbind; [apply IHe|]. intros t. apply drop_mbind; [apply IHs|]. intros u.
    rewrite drop_ret, in_bare. reflexivity.
  - intros e lo hi IHe IHlo IHhi x y. cbn. apply drop_mbind; [apply IHe|]. intros t. apply drop_mbind; [apply IHlo|]. intros u.
    apply drop_mbind; [apply IHhi|]. intros v. apply between_drop.
  - intros o whens els IHo IHw IHe x y.
    assert (W1 : Forall (fun p => drop (infer_say up x y (fst p)) = infer up x y (fst p)) whens) by (revert IHw; apply Forall_impl; intros p [H _]; apply H).
    assert (W2 : Forall (fun p => drop (infer_say up x y (snd p)) = infer up x y (snd p)) whens) by (revert IHw; apply Forall_impl; intros p [_ H]; apply H).
    assert (L : forall t, drop (else_say (match els with None => None | Some e => Some (infer_say up x y e) end) t) =
                else_type (match els with None => None | Some e => Some (infer up x y e) end) t)
      by (intros t; apply else_drop; destruct els; [apply IHe|exact I]).
    destruct o as [e|]; cbn [infer_say infer].
    + apply drop_mbind; [apply IHo|]. intros te. rewrite (guards_ext _ (infer up x y)) by exact W1. apply drop_bind. intros _.
      apply drop_mbind; [apply bodies_drop; exact W2|exact L].
    + rewrite (guards_ext _ (infer up x y)) by exact W1. apply drop_bind. intros _.
      apply drop_mbind; [apply bodies_drop; exact W2|exact L].
  - intros s IH x y. apply IH.
  - intros es IH x y. cbn. apply drop_mbind; [apply members_drop; revert IH; apply Forall_impl; auto|]. intros t.
    apply drop_mbind; [apply drop_say|]. intros [d n]. reflexivity.
  - intros q x y. apply resolve_drop.
  - intros common e order lim IHc IHx IHo IHl x. cbn [infer_select_say infer_select].
    apply drop_mbind.
    + apply drop_fold. revert IHc. apply Forall_impl. intros c Hc y. apply drop_mbind; [apply Hc|]. intros t. apply relation_drop.
    + intros y. apply drop_mbind; [apply IHx|]. intros t. apply drop_mbind.
      * apply drop_fold. revert IHo. apply Forall_impl. intros o Ho _. apply drop_mbind; [apply Ho|]. intros u.
        apply drop_mbind; [apply drop_say|reflexivity].
      * intros _. destruct lim as [[rows offset]|]; [|reflexivity]. destruct IHl as [I1 I2]. cbn in I1, I2.
        apply drop_mbind; [apply I1|]. intros n. apply drop_mbind; [apply drop_say|]. intros _.
        destruct offset as [o|]; [|reflexivity]. apply drop_mbind; [apply I2|]. intros m. apply drop_mbind; [apply drop_say|reflexivity].
  - intros id columns q IH x. cbn. apply drop_mbind; [apply IH|]. intros t. destruct columns as [names|]; [|reflexivity].
    apply drop_mbind; [rewrite drop_ret, pick_bare; reflexivity|reflexivity].
  - intros rows IH x. cbn. apply values_drop. revert IH. apply Forall_impl. intros r. apply Forall_impl. auto.
  - intros mode columns from wh group IHr IHf IHw IHg x. cbn [infer_set_say infer_set]. apply drop_mbind.
    + apply drop_fold. revert IHf. apply Forall_impl. intros t Hi [y attrs]. apply drop_mbind; [apply Hi|]. intros [y' attrs']. reflexivity.
    + intros [y attrs]. apply drop_mbind.
      * destruct wh as [e|]; [|reflexivity]. apply drop_mbind; [apply IHw|]. intros t. apply drop_say.
      * intros _. apply drop_mbind; [|intros _; apply IHr].
        destruct group as [[gs having]|]; [|reflexivity]. destruct IHg as [I1 I2]. cbn in I1, I2. apply drop_mbind.
        -- apply drop_fold. revert I1. apply Forall_impl. intros e He _. apply drop_mbind; [apply He|reflexivity].
        -- intros _. destruct having as [e|]; [|reflexivity]. apply drop_mbind; [apply I2|]. intros t. apply drop_say.
  - intros op l r IHl IHr x. cbn. apply drop_mbind; [apply IHl|]. intros t1. apply drop_mbind; [apply IHr|]. intros t2.
    apply drop_mbind; [rewrite drop_ret, unify_columns_bare; reflexivity|reflexivity].
  - intros q alias x y. cbn. apply drop_mbind; [apply resolve_drop|]. intros r. apply drop_bind. intros id.
    apply drop_mbind; [apply relation_drop|reflexivity].
  - intros s alias IH x y. cbn. apply drop_mbind; [apply IH|reflexivity].
  - intros l r op c IHl IHr _ x y. cbn. apply drop_mbind; [apply IHl|]. intros [y1 a1]. apply drop_mbind; [apply IHr|]. intros [y2 a2]. reflexivity.
  - reflexivity.
  - intros l IH x y attrs. cbn. apply drop_mbind; [|intros [cols g]; reflexivity]. apply drop_fold. revert IH. apply Forall_impl. auto.
  - intros n x y st. cbn. destruct (nget up y n) as [[]|]; try reflexivity. apply drop_bind. reflexivity.
  - intros e rename IH x y st. cbn. apply drop_mbind; [apply IH|]. intros t. apply drop_mbind; [apply drop_say|]. intros [d n]. reflexivity.
Qed.

Lemma infer_drop x y e : drop (infer_say up x y e) = infer up x y e.
Proof. apply (proj1 infer_drops). Qed.

Lemma select_drop x s : drop (infer_select_say up x s) = infer_select up x s.
Proof. apply (proj1 (proj2 (proj2 infer_drops))). Qed.

Lemma cte_drop x c : drop (infer_cte_say up x c) = infer_cte up x c.
Proof. apply (proj1 (proj2 (proj2 (proj2 infer_drops)))). Qed.

Lemma set_drop x e : drop (infer_set_say up x e) = infer_set up x e.
Proof. apply (proj1 (proj2 (proj2 (proj2 (proj2 infer_drops))))). Qed.

Lemma spec_drop x y s : drop (infer_spec_say up x y s) = infer_spec up x y s.
Proof. apply (proj1 (proj2 infer_drops)). Qed.

Lemma table_drop x y t : drop (infer_table_say up x y t) = infer_table up x y t.
Proof. apply (proj1 (proj2 (proj2 (proj2 (proj2 (proj2 infer_drops)))))). Qed.

Lemma columns_drop x y attrs c : drop (infer_columns_say up x y attrs c) = infer_columns up x y attrs c.
Proof. apply (proj1 (proj2 (proj2 (proj2 (proj2 (proj2 (proj2 infer_drops))))))). Qed.

Lemma column_drop x y st c : drop (infer_column_say up x y st c) = infer_column up x y st c.
Proof. apply (proj2 (proj2 (proj2 (proj2 (proj2 (proj2 (proj2 infer_drops))))))). Qed.

Lemma initialize_drop db dflt ctes : drop (initialize_say up db dflt ctes) = initialize up db dflt ctes.
Proof.
  apply drop_fold. apply Forall_forall. intros c _ x. apply drop_mbind; [apply cte_drop|]. intros t.
  unfold define_relation_say, define_relation. destruct (nget up (x_tables x) (cte_id c)); reflexivity.
Qed.

Lemma insert_column_drop q m a n : drop (insert_column_say up q m a n) = pure (insert_column up m a n).
Proof.
  unfold insert_column_say, insert_column. destruct (nget up m n) as [[t null]|]; [|reflexivity]. destruct (_ || _); reflexivity.
Qed.

Lemma assign_column_drop m t null s n : drop (assign_column_say up m t null s n) = pure (assign_column up m t null s n).
Proof.
  unfold assign_column_say, assign_column. destruct (nget up s n); [reflexivity|]. destruct (nget up m n) as [[d b]|]; [|reflexivity].
  destruct (_ || _); reflexivity.
Qed.

Lemma find_exists {A} (f : A -> bool) l : existsb f l = match find f l with Some _ => true | None => false end.
Proof. induction l as [|a l IH]; cbn; [reflexivity|]. destruct (f a); [reflexivity|exact IH]. Qed.

Lemma validate_drop x s : drop (validate_say up x s) = validate up x s.
Proof.
  assert (St : forall s, drop (validate_statement_say up x s) = validate_statement up x s).
  { intros [q|i|d|u]; cbn [validate_statement_say validate_statement].
    - apply drop_mbind; [apply select_drop|reflexivity].
    - unfold validate_insert_say, validate_insert. apply drop_mbind; [apply resolve_drop|]. intros t.
      apply drop_mbind; [apply set_drop|]. intros v. apply drop_mbind.
      + destruct (i_columns i) as [cols|].
        * destruct (negb _); [reflexivity|]. apply drop_fold. apply Forall_forall. intros e _ m. apply insert_column_drop.
        * apply drop_fold. apply Forall_forall. intros e _ m. apply insert_column_drop.
      + intros m. rewrite find_exists. destruct (find _ m); reflexivity.
    - unfold validate_delete_say, validate_delete. apply drop_mbind; [apply resolve_drop|]. intros t. apply drop_bind. intros id.
      apply drop_mbind; [apply relation_drop|]. intros y. destruct (d_where d) as [e|]; [|reflexivity].
      apply drop_mbind; [apply infer_drop|]. intros st. apply drop_say.
    - unfold validate_update_say, validate_update. apply drop_mbind; [apply resolve_drop|]. intros t. apply drop_bind. intros id.
      apply drop_mbind; [apply relation_drop|]. intros y. apply drop_mbind.
      + apply drop_fold. apply Forall_forall. intros a _ s0. apply drop_mbind; [apply infer_drop|]. intros st.
        apply drop_mbind; [apply drop_say|]. intros [d n]. apply drop_fold. apply Forall_forall. intros c _ s1. apply assign_column_drop.
      + intros _. destruct (u_where u) as [e|]; [|reflexivity]. apply drop_mbind; [apply infer_drop|]. intros st. apply drop_say. }
  destruct s as [s|s|q path|q]; cbn [validate_say validate]; [apply St|apply St|reflexivity|].
  apply drop_mbind; [apply resolve_drop|reflexivity].
Qed.

End Drop.
