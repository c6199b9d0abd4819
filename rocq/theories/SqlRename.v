(** * Validation sees names only through their equality *)

From Coq Require Import Strings.String.
From Verif Require Import Base StrModel SqlNameModel SqlModel SqlNameProofs SqlInd SqlRespell SqlSim SqlRespellProofs SqlRenameSpec.
Local Open Scope list_scope.
Local Open Scope nat_scope.

Lemma Forall2_map_r {A B} (R : A -> B -> Prop) (g : A -> B) l : Forall (fun a => R a (g a)) l -> Forall2 R l (map g l).
Proof. induction 1; cbn; constructor; auto. Qed.

Section Rename.
Variables (up : Z -> list Z) (f : name -> name).
Hypothesis Hf : renaming up f.
Notation nget := (nget up).
Notation nput := (nput up).

(** Maps that give the same, or related, answers for a name and its new name. *)
Definition seen {V W : Type} (R : V -> W -> Prop) (m : nmap V) (m' : nmap W) : Prop :=
  sorted up m /\ sorted up m' /\ forall k, optsim R (nget m k) (nget m' (f k)).

Definition isame (i i' : symbol) : Prop :=
  match i, i' with
  | SyAttribute t, SyAttribute t' => t = t'
  | SyConflict, SyConflict => True
  | SyRelation m, SyRelation m' => seen eq m m'
  | _, _ => False
  end.
Definition ysame : symbols -> symbols -> Prop := seen isame.

(** Tables with renamed columns; results with columns of the same types. *)
Definition renamed (a a' : attribute) : Prop := a_name a' = f (a_name a) /\ a_type a' = a_type a /\ a_null a' = a_null a.
Definition tnamed (t t' : row_type) : Prop := Forall2 renamed (r_attrs t) (r_attrs t').
Definition like (a a' : attribute) : Prop := a_type a' = a_type a /\ a_null a' = a_null a.
Definition llike : list attribute -> list attribute -> Prop := Forall2 like.
Definition tlike (t t' : row_type) : Prop := llike (r_attrs t) (r_attrs t').

Lemma seen_nil {V W} (R : V -> W -> Prop) : seen R [] [].
Proof. split; [constructor|]. split; [constructor|]. intros k. exact I. Qed.

Lemma seen_put {V W} (R : V -> W -> Prop) m m' k v v' : seen R m m' -> R v v' -> seen R (nput m k v) (nput m' (f k) v').
Proof.
  intros (S1 & S2 & H) Hv. split; [apply nput_sorted, S1|]. split; [apply nput_sorted, S2|]. intros j.
  rewrite !nget_nput by assumption. rewrite Hf. destruct (name_eqb up j k); [exact Hv|apply H].
Qed.

Lemma last_seen {V W} (R : V -> W -> Prop) l l' k :
  Forall2 (fun e e' => fst e' = f (fst e) /\ R (snd e) (snd e')) l l' -> optsim R (last_entry up l k) (last_entry up l' (f k)).
Proof.
  induction 1 as [|[a v] [b w] l l' [E H] Hl IH]; [exact I|]. cbn [fst snd] in *. subst b. cbn [last_entry].
  destruct (last_entry up l k), (last_entry up l' (f k)); cbn [optsim] in *; try contradiction; auto.
  rewrite Hf. destruct (name_eqb up k a); cbn [optsim]; auto.
Qed.

Lemma seen_collect {V W} (R : V -> W -> Prop) l l' :
  Forall2 (fun e e' => fst e' = f (fst e) /\ R (snd e) (snd e')) l l' -> seen R (ncollect up l) (ncollect up l').
Proof.
  intros H. split; [apply ncollect_sorted|]. split; [apply ncollect_sorted|]. intros k. rewrite !nget_ncollect. apply last_seen, H.
Qed.

Lemma renamed_type a a' : renamed a a' -> attr_type a' = attr_type a.
Proof. intros (_ & H1 & H2). unfold attr_type. congruence. Qed.

Lemma like_type a a' : like a a' -> attr_type a' = attr_type a.
Proof. intros (H1 & H2). unfold attr_type. congruence. Qed.

Lemma renamed_like l l' : Forall2 renamed l l' -> llike l l'.
Proof. induction 1 as [|a a' l l' (_ & H) Hl IH]; constructor; [exact H|exact IH]. Qed.

Lemma add_attribute_same y y' a a' : ysame y y' -> renamed a a' -> ysame (add_attribute up y a) (add_attribute up y' a').
Proof.
  intros Hy Ha. pose proof (proj2 (proj2 Hy) (a_name a)) as G. unfold add_attribute. rewrite (proj1 Ha), (renamed_type a a' Ha).
  destruct (nget y (a_name a)) as [[t| |m]|], (nget y' (f (a_name a))) as [[t'| |m']|]; cbn in G; try contradiction; auto;
    apply seen_put; cbn; auto.
Qed.

Lemma add_relation_same y y' n l l' : ysame y y' -> Forall2 renamed l l' ->
  esim ysame (add_relation up y n l) (add_relation up y' (f n) l').
Proof.
  intros Hy Hl. unfold add_relation.
  assert (G : ysame (fold_left (add_attribute up) l y) (fold_left (add_attribute up) l' y')).
  { revert y y' Hy. induction Hl; intros y0 y0' Hy; cbn [fold_left]; auto using add_attribute_same. }
  assert (M : seen eq (ncollect up (map (fun a => (a_name a, attr_type a)) l)) (ncollect up (map (fun a => (a_name a, attr_type a)) l'))).
  { apply seen_collect. clear -Hl. induction Hl as [|a a' l l' Ha Hl IH]; cbn [map]; constructor; [|exact IH]. cbn [fst snd].
    split; [apply Ha|]. symmetry. apply renamed_type, Ha. }
  pose proof (proj2 (proj2 G) n) as K. revert K.
  destruct (nget (fold_left (add_attribute up) l y) n) as [[t| |m]|],
    (nget (fold_left (add_attribute up) l' y') (f n)) as [[t'| |m']|]; cbn; try contradiction; auto; intros _;
    apply seen_put; auto.
Qed.

Lemma name_type_same y y' q : ysame y y' -> name_type up y q = name_type up y' (map f q).
Proof.
  intros (_ & _ & H). destruct q as [|r [|n [|]]]; try reflexivity; cbn [name_type map].
  - pose proof (H r) as K. revert K.
    destruct (nget y r) as [[t| |m]|], (nget y' (f r)) as [[t'| |m']|]; cbn; try contradiction; try reflexivity. congruence.
  - pose proof (H r) as K. revert K.
    destruct (nget y r) as [[t| |m]|], (nget y' (f r)) as [[t'| |m']|]; cbn; try contradiction; try reflexivity.
    intros (_ & _ & M). specialize (M n). destruct (nget m n), (nget m' (f n)); cbn in M; try contradiction; congruence.
Qed.

Lemma in_type_like t r r' : tlike r r' -> in_type t r = in_type t r'.
Proof. unfold tlike, in_type. intros [|a a' l l' Ha [|]]; auto. rewrite (like_type _ _ Ha). reflexivity. Qed.

Lemma select_scalar_like r r' : tlike r r' -> select_scalar r = select_scalar r'.
Proof. unfold tlike, select_scalar. intros [|a a' l l' Ha [|]]; auto. rewrite (like_type _ _ Ha). reflexivity. Qed.

Lemma push_like s s' n n' t null : llike (fst s) (fst s') -> llike (fst (push_column up s n t null)) (fst (push_column up s' n' t null)).
Proof.
  intros H. unfold push_column. destruct (generate_column_name up n (snd s)), (generate_column_name up n' (snd s')). cbn [fst].
  apply Forall2_app; [exact H|]. repeat constructor.
Qed.

Lemma all_columns_like l l' : llike l l' -> llike (all_columns up l) (all_columns up l').
Proof.
  intros H. unfold all_columns.
  assert (G : forall s s', llike (fst s) (fst s') -> llike
    (fst (fold_left (fun st a => push_column up st (a_name a) (a_type a) (a_null a)) l s))
    (fst (fold_left (fun st a => push_column up st (a_name a) (a_type a) (a_null a)) l' s'))).
  { induction H as [|a a' l l' (Ht & Hu) Hl IH]; intros s s' Hs; cbn [fold_left]; [exact Hs|]. apply IH.
    rewrite Ht, Hu. apply push_like; assumption. }
  apply G. constructor.
Qed.

Lemma unify_columns_like l l' r r' : llike l l' -> llike r r' -> esim llike (unify_columns l r) (unify_columns l' r').
Proof.
  intros Hl. revert r r'. induction Hl as [|a a' l l' Ha Hl IH]; intros r r' Hr; [constructor|].
  destruct Hr as [|b b' r r' Hb Hr]; [constructor|]. cbn [unify_columns].
  rewrite (like_type _ _ Ha), (like_type _ _ Hb). destruct (unify (attr_type a) (attr_type b)) as [[ts|t n]|e]; cbn; auto.
  specialize (IH _ _ Hr). destruct (unify_columns l r), (unify_columns l' r'); cbn in *; try contradiction; auto.
  constructor; [|exact IH]. split; reflexivity.
Qed.

Lemma last_name_same q : osim (fun n n' => n' = f n) (last_name q) (last_name (map f q)).
Proof. unfold last_name. rewrite <- map_rev. destruct (rev q); cbn; auto. Qed.

Section Contexts.
Variables (x x' : set_context).
Hypothesis HT : forall q, rsim tnamed (resolve_table up x q) (resolve_table up x' (map f q)).

Definition RE e := simple_expr e = true ->
  forall y y', ysame y y' -> rsim eq (infer up x y e) (infer up x' y' (re_expr f e)).
Definition RSP s := simple_spec s = true ->
  forall y y', ysame y y' -> rsim tlike (infer_spec up x y s) (infer_spec up x' y' (re_spec f s)).
Definition RS s := simple_select s = true -> rsim tlike (infer_select up x s) (infer_select up x' (re_select f s)).
Definition RX e := simple_set e = true -> rsim tlike (infer_set up x e) (infer_set up x' (re_set f e)).
Definition RT t := simple_from t = true -> forall y y', ysame y y' ->
  rsim (fun a b => ysame (fst a) (fst b) /\ llike (snd a) (snd b)) (infer_table up x y t) (infer_table up x' y' (re_table f t)).
Definition RR c := simple_columns c = true -> forall y y' a a', ysame y y' -> llike a a' ->
  rsim tlike (infer_columns up x y a c) (infer_columns up x' y' a' (re_columns f c)).
Definition RK c := simple_column c = true -> forall y y' s s', ysame y y' -> llike (fst s) (fst s') ->
  rsim (fun s s' => llike (fst s) (fst s')) (infer_column up x y s c) (infer_column up x' y' s' (re_column f c)).

Definition okay (y y' : symbols) (e e' : expr) : Prop := rsim eq (infer up x y e) (infer up x' y' e').

Lemma okay_list es y y' : Forall RE es -> forallb simple_expr es = true -> ysame y y' ->
  Forall2 (okay y y') es (map (re_expr f) es).
Proof.
  intros H Hs Hy. apply Forall2_map_r. rewrite Forall_forall in *. rewrite forallb_forall in Hs. intros e He.
  exact (H e He (Hs e He) y y' Hy).
Qed.

Lemma guards_like ws ws' y y' g : Forall2 (fun p p' => okay y y' (fst p) (fst p') /\ okay y y' (snd p) (snd p')) ws ws' ->
  osim eq (guards (infer up x y) g ws) (guards (infer up x' y') g ws').
Proof.
  induction 1 as [|[a b] [a' b'] ws ws' [H1 H2] Hw IH]; [reflexivity|]. cbn [guards fst snd] in *.
  apply rsim_eq_inv in H1. rewrite H1. destruct (infer up x' y' a') as [[t|e]| |]; cbn; auto. destruct (g t); cbn; auto.
Qed.

Lemma bodies_like ws ws' y y' : Forall2 (fun p p' => okay y y' (fst p) (fst p') /\ okay y y' (snd p) (snd p')) ws ws' ->
  rsim eq (bodies (infer up x y) ws) (bodies (infer up x' y') ws').
Proof.
  assert (G : forall ws ws', Forall2 (fun p p' => okay y y' (fst p) (fst p') /\ okay y y' (snd p) (snd p')) ws ws' ->
    forall acc, rsim eq (bodies_rest (infer up x y) acc ws) (bodies_rest (infer up x' y') acc ws')).
  { induction 1 as [|[a b] [a' b'] vs vs' [H1 H2] Hw IH]; intros acc; [reflexivity|]. cbn [bodies_rest fst snd] in *.
    apply (rsim_bind eq); [exact H2|]. intros t ? <-. apply (rsim_bind eq); [apply rsim_eq|]. intros acc' ? <-. apply IH. }
  intros [|[a b] [a' b'] vs vs' [H1 H2] Hw]; [exact I|]. cbn [bodies fst snd] in *.
  apply (rsim_bind eq); [exact H2|]. intros t ? <-. apply G, Hw.
Qed.

Lemma members_like es es' y y' : Forall2 (okay y y') es es' -> rsim eq (members (infer up x y) es) (members (infer up x' y') es').
Proof.
  assert (G : forall es es', Forall2 (okay y y') es es' ->
    forall acc, rsim eq (members_rest (infer up x y) acc es) (members_rest (infer up x' y') acc es')).
  { induction 1 as [|e e' vs vs' He Hv IH]; intros acc; cbn [members_rest]; [apply rsim_eq|].
    apply rsim_eq_inv in He. rewrite He. destruct (infer up x' y' e') as [r| |]; cbn [bind]; [apply IH|exact I|exact I]. }
  intros [|e e' vs vs' He Hv]; [exact I|]. cbn [members].
  apply rsim_eq_inv in He. rewrite He. destruct (infer up x' y' e') as [r| |]; cbn [bind]; [apply G, Hv|exact I|exact I].
Qed.

Lemma first_row_like es es' y y' : Forall2 (okay y y') es es' -> forall n,
  rsim llike (first_row (infer up x y) n es) (first_row (infer up x' y') n es').
Proof.
  induction 1 as [|e e' vs vs' He Hv IH]; intros n; [constructor|]. cbn [first_row].
  apply (rsim_bind eq); [exact He|]. intros t ? <-. apply (rsim_bind eq); [apply rsim_eq|]. intros [d u] ? <-.
  apply (rsim_bind llike); [apply IH|]. intros r r' Hr. constructor; [|exact Hr]. repeat split.
Qed.

Lemma next_row_like es es' y y' l l' : Forall2 (okay y y') es es' -> llike l l' ->
  rsim llike (next_row (infer up x y) l es) (next_row (infer up x' y') l' es').
Proof.
  intros H. revert l l'. induction H as [|e e' vs vs' He Hv IH]; intros l l' Hl; [constructor|].
  destruct Hl as [|a a' l l' Ha Hl]; [constructor|]. cbn [next_row].
  apply (rsim_bind eq); [exact He|]. intros t ? <-. rewrite (like_type _ _ Ha).
  apply (rsim_bind eq); [apply rsim_eq|]. intros [ts|d u] ? <-; [exact I|].
  apply (rsim_bind llike); [apply IH, Hl|]. intros r r' Hr. constructor; [|exact Hr]. split; reflexivity.
Qed.

Lemma opt_okay o y y' : if_some RE o -> match o with None => true | Some e => simple_expr e end = true -> ysame y y' ->
  optsim (okay y y') o (option_map (re_expr f) o).
Proof. destruct o as [e|]; cbn [if_some option_map optsim]; auto. intros H Hs Hy. exact (H Hs y y' Hy). Qed.

Lemma logical_okay o o' y y' : optsim (okay y y') o o' ->
  rsim eq match o with None => ok tt | Some e => t <-? infer up x y e ;; pure (logical t) end
          match o' with None => ok tt | Some e => t <-? infer up x' y' e ;; pure (logical t) end.
Proof.
  destruct o as [e|], o' as [e'|]; cbn [optsim]; try contradiction; [|reflexivity]. intros H.
  apply (rsim_bind eq); [exact H|]. intros t ? <-. apply rsim_eq.
Qed.

Lemma rename_all :
  (forall e, RE e) /\ (forall s, RSP s) /\ (forall s, RS s) /\ (forall c : cte, True) /\ (forall e, RX e) /\ (forall t, RT t) /\
  (forall c, RR c) /\ (forall c, RK c).
Proof.
  apply sql_induction.
  - intros l Hs y y' Hy. apply rsim_eq.
  - intros q Hs y y' Hy. cbn [infer re_expr]. rewrite (name_type_same y y' q Hy). apply rsim_eq.
  - intros es H Hs y y' Hy. cbn [infer re_expr]. apply (rsim_bind (Forall2 eq)).
    + apply (collect_sim (okay y y') eq); [apply okay_list; assumption|]. auto.
    + intros ts ts' K. replace ts' with ts; [reflexivity|]. clear -K. induction K; congruence.
  - intros s H Hs y y' Hy. cbn [infer re_expr]. apply (rsim_bind tlike); [exact (H Hs)|]. intros r r' Hr.
    rewrite (select_scalar_like _ _ Hr). apply rsim_eq.
  - intros op e H Hs y y' Hy. cbn [infer re_expr]. apply (rsim_bind eq); [exact (H Hs _ _ Hy)|]. intros t ? <-. apply rsim_eq.
  - intros op l r H1 H2 Hs y y' Hy. cbn [infer re_expr]. apply andb_prop in Hs as [S1 S2].
    apply (rsim_bind eq); [exact (H1 S1 _ _ Hy)|]. intros t ? <-. apply (rsim_bind eq); [exact (H2 S2 _ _ Hy)|]. intros t2 ? <-. apply rsim_eq.
  - intros op l r H1 H2 Hs y y' Hy. cbn [infer re_expr]. apply andb_prop in Hs as [S1 S2].
    apply (rsim_bind eq); [exact (H1 S1 _ _ Hy)|]. intros t ? <-. apply (rsim_bind eq); [exact (H2 S2 _ _ Hy)|]. intros t2 ? <-. apply rsim_eq.
  - intros e s H1 H2 Hs y y' Hy. cbn [infer re_expr]. apply andb_prop in Hs as [S1 S2].
    apply (rsim_bind eq); [exact (H1 S1 _ _ Hy)|]. intros t ? <-.
    apply (rsim_bind tlike); [exact (H2 S2 _ _ Hy)|]. intros r r' Hr. rewrite (in_type_like _ _ _ Hr). apply rsim_eq.
  - intros e lo hi H1 H2 H3 Hs y y' Hy. cbn [infer re_expr]. apply andb_prop in Hs as [S1 S2]. apply andb_prop in S2 as [S2 S3].
    apply (rsim_bind eq); [exact (H1 S1 _ _ Hy)|]. intros t ? <-. apply (rsim_bind eq); [exact (H2 S2 _ _ Hy)|]. intros t2 ? <-.
    apply (rsim_bind eq); [exact (H3 S3 _ _ Hy)|]. intros t3 ? <-. apply rsim_eq.
  - intros o ws els Ho Hw He Hs y y' Hy. cbn [simple_expr] in Hs. apply andb_prop in Hs as [S1 S2]. apply andb_prop in S2 as [S2 S3].
    pose proof (opt_okay _ y y' Ho S1 Hy) as So. pose proof (opt_okay _ y y' He S3 Hy) as Se.
    assert (Sw : Forall2 (fun p p' => okay y y' (fst p) (fst p') /\ okay y y' (snd p) (snd p')) ws
                   (map (fun p => (re_expr f (fst p), re_expr f (snd p))) ws)).
    { apply Forall2_map_r. rewrite Forall_forall in *. rewrite forallb_forall in S2. intros p Hp.
      destruct (Hw p Hp) as [K1 K2]. specialize (S2 p Hp). apply andb_prop in S2 as [T1 T2]. split; [exact (K1 T1 _ _ Hy)|exact (K2 T2 _ _ Hy)]. }
    assert (Sl : optsim (rsim eq) (match els with None => None | Some e => Some (infer up x y e) end)
                       (match option_map (re_expr f) els with None => None | Some e => Some (infer up x' y' e) end)).
    { destruct els; cbn in *; auto. }
    destruct o as [c|]; cbn [option_map optsim] in So; cbn [infer re_expr option_map].
    + apply (rsim_bind eq); [exact So|]. intros t ? <-.
      apply (osim_bind eq); [apply guards_like, Sw|]. intros _ _ _.
      apply (rsim_bind eq); [apply bodies_like, Sw|]. intros tb ? <-. apply else_sim, Sl.
    + apply (osim_bind eq); [apply guards_like, Sw|]. intros _ _ _.
      apply (rsim_bind eq); [apply bodies_like, Sw|]. intros tb ? <-. apply else_sim, Sl.
  - intros s H Hs y y' Hy. exact (H Hs).
  - intros es H Hs y y' Hy. cbn [infer_spec re_spec].
    apply (rsim_bind eq); [apply members_like, okay_list; assumption|]. intros t ? <-.
    apply (rsim_bind eq); [apply rsim_eq|]. intros [d u] ? <-. repeat constructor.
  - intros q Hs y y' Hy. cbn [infer_spec re_spec]. eapply rsim_impl; [|apply HT]. intros r r' Hr. apply renamed_like, Hr.
  - intros common e order lim Hc He Ho Hl Hs. cbn [simple_select] in Hs. apply andb_prop in Hs as [S0 Hs].
    destruct common as [|]; [|discriminate]. apply andb_prop in Hs as [S1 Hs]. apply andb_prop in Hs as [S2 S3].
    cbn [infer_select re_select map fold_err rbind bind ok].
    apply (rsim_bind tlike); [exact (He S1)|]. intros t t' Ht. apply (rsim_bind eq).
    { apply (fold_err_sim eq (fun o o' => okay [] [] (fst (fst o)) (fst (fst o')))); [| |reflexivity].
      - apply Forall2_map_r. rewrite Forall_forall in *. rewrite forallb_forall in S2. intros o Hin. cbn [fst].
        exact (Ho o Hin (S2 o Hin) _ _ (seen_nil _)).
      - intros [] [] o o' Hin _ Eo. apply (rsim_bind eq); [exact Eo|]. intros u ? <-.
        apply (rsim_bind eq); [apply rsim_eq|]. intros. reflexivity. }
    intros _ _ _. destruct lim as [[rows off]|]; cbn [option_map fst snd]; [|exact Ht].
    cbn [if_some fst snd] in *. destruct Hl as [Hl1 Hl2]. apply andb_prop in S3 as [S3 S4].
    apply (rsim_bind eq); [exact (Hl1 S3 _ _ (seen_nil _))|]. intros n ? <-.
    apply (rsim_bind eq); [apply rsim_eq|]. intros _ _ _.
    pose proof (opt_okay _ [] [] Hl2 S4 (seen_nil _)) as So.
    destruct off as [o|]; cbn [option_map optsim] in So |- *; [|exact Ht].
    apply (rsim_bind eq); [exact So|]. intros m ? <-. apply (rsim_bind eq); [apply rsim_eq|]. intros _ _ _. exact Ht.
  - auto.
  - intros rows H Hs. cbn [infer_set re_set]. cbn [simple_set] in Hs.
    assert (G : Forall2 (Forall2 (okay [] [])) rows (map (map (re_expr f)) rows)).
    { apply Forall2_map_r. rewrite Forall_forall in *. rewrite forallb_forall in Hs. intros r Hr.
      apply okay_list; [exact (H r Hr)|exact (Hs r Hr)|apply seen_nil]. }
    destruct rows as [|r rs]; [exact I|]. inversion G as [|? ? ? ? Hr Hrs]; subst. cbn [map].
    apply (rsim_bind llike); [exact (first_row_like _ _ _ _ Hr _)|]. intros a a' Ha.
    apply (rsim_bind llike); [|intros b b' Hb; exact Hb].
    apply (fold_err_sim llike _ _ _ _ _ Hrs); [|exact Ha]. intros s s' r0 r0' _ Hs0 Hr0. apply next_row_like; assumption.
  - intros mode columns from wh group Hc Hfr Hw Hg Hs. cbn [infer_set re_set]. cbn [simple_set] in Hs.
    apply andb_prop in Hs as [S1 Hs]. apply andb_prop in Hs as [S2 Hs]. apply andb_prop in Hs as [S3 S4].
    apply (rsim_bind (fun a b => ysame (fst a) (fst b) /\ llike (snd a) (snd b))).
    { assert (E : Forall2 (fun t t' => t' = re_table f t) from (map (re_table f) from)) by (clear; induction from; cbn; constructor; auto).
      apply (fold_err_sim _ _ _ _ _ _ E); [|split; [apply seen_nil|constructor]].
      intros [y l] [y' l'] t ? Hin [Hy Hl] ->. cbn [fst snd] in Hy, Hl. rewrite Forall_forall in Hfr. rewrite forallb_forall in S2.
      apply (rsim_bind _ _ _ _ _ _ (Hfr t Hin (S2 t Hin) y y' Hy)).
      intros [y1 l1] [y1' l1'] [Hy1 Hl1]. split; [exact Hy1|]. apply Forall2_app; assumption. }
    intros [y l] [y' l'] [Hy Hl]. cbn [fst snd] in Hy, Hl.
    apply (rsim_bind eq); [apply logical_okay, opt_okay; assumption|]. intros _ _ _.
    apply (rsim_bind eq); [|intros _ _ _; apply Hc; assumption].
    destruct group as [[gs having]|]; cbn [option_map fst snd]; [|reflexivity].
    destruct Hg as [Hg1 Hg2]. cbn [fst snd] in *. apply andb_prop in S4 as [S4 S5].
    apply (rsim_bind eq).
    { pose proof (okay_list _ y y' Hg1 S4 Hy) as G.
      apply (fold_err_sim eq _ _ _ _ _ G); [|reflexivity]. intros [] [] e e' _ _ He.
      apply (rsim_bind eq); [exact He|]. intros; reflexivity. }
    intros _ _ _. apply logical_okay, opt_okay; auto.
  - intros op l r H1 H2 Hs. cbn [infer_set re_set]. apply andb_prop in Hs as [S1 S2].
    apply (rsim_bind tlike); [exact (H1 S1)|]. intros t1 t1' Ht1.
    apply (rsim_bind tlike); [exact (H2 S2)|]. intros t2 t2' Ht2.
    apply (rsim_bind llike); [apply rsim_pure, unify_columns_like; assumption|]. intros a a' Ha. exact Ha.
  - intros q alias Hs y y' Hy. cbn [infer_table re_table].
    apply (rsim_bind _ _ _ _ _ _ (HT q)). intros r r' Hr.
    apply (osim_bind (fun n n' => n' = f n)); [destruct alias as [n|]; cbn [option_map]; [reflexivity|apply last_name_same]|].
    intros n ? ->. apply (rsim_bind ysame); [apply rsim_pure, add_relation_same; assumption|].
    intros y1 y1' Hy1. split; [exact Hy1|apply renamed_like, Hr].
  - intros s alias H Hs y y' Hy. cbn [infer_table re_table].
    apply (rsim_bind tlike); [exact (H Hs)|]. intros r r' Hr. split; [exact Hy|exact Hr].
  - intros l r op c H1 H2 _ Hs y y' Hy. cbn [infer_table re_table]. apply andb_prop in Hs as [S1 S2].
    apply (rsim_bind _ _ _ _ _ _ (H1 S1 _ _ Hy)). intros [y1 a1] [y1' a1'] [Hy1 Ha1].
    apply (rsim_bind _ _ _ _ _ _ (H2 S2 _ _ Hy1)). intros [y2 a2] [y2' a2'] [Hy2 Ha2].
    split; [exact Hy2|]. apply Forall2_app; assumption.
  - intros Hs y y' a a' Hy Ha. cbn [infer_columns re_columns]. apply all_columns_like, Ha.
  - intros l H Hs y y' a a' Hy Ha. cbn [infer_columns re_columns].
    apply (rsim_bind (fun s s' => llike (fst s) (fst s'))); [|intros [s1 s2] [s1' s2'] Hss; exact Hss].
    assert (E : Forall2 (fun c c' => c' = re_column f c) l (map (re_column f) l)) by (clear; induction l; cbn; constructor; auto).
    apply (fold_err_sim _ _ _ _ _ _ E); [|constructor].
    intros s s' c ? Hin Hss ->. rewrite Forall_forall in H. cbn [simple_columns] in Hs. rewrite forallb_forall in Hs.
    exact (H c Hin (Hs c Hin) _ _ _ _ Hy Hss).
  - intros n Hs. discriminate.
  - intros e rename H Hs y y' s s' Hy Hss. cbn [infer_column re_column].
    apply (rsim_bind eq); [exact (H Hs _ _ Hy)|]. intros t ? <-. apply (rsim_bind eq); [apply rsim_eq|]. intros [d u] ? <-.
    apply push_like, Hss.
Qed.

Lemma where_rename o y y' : simple_where o = true -> ysame y y' ->
  rsim eq match o with None => ok tt | Some e => t <-? infer up x y e ;; pure (logical t) end
          match option_map (re_expr f) o with None => ok tt | Some e => t <-? infer up x' y' e ;; pure (logical t) end.
Proof.
  intros Hs Hy. apply logical_okay, opt_okay; auto. destruct o; cbn; auto. apply rename_all.
Qed.

(** The columns of a target: the new map has no others. *)
Definition covers (m m' : nmap (data_type * bool)) : Prop :=
  seen eq m m' /\ forall k v, In (k, v) m' -> exists n, name_eqb up k (f n) = true.

Lemma row_map_covers t t' : tnamed t t' -> covers (row_type_map up t) (row_type_map up t').
Proof.
  intros H. unfold row_type_map. split.
  - apply seen_collect. induction H as [|a a' l l' (E1 & E2 & E3) Hl IH]; cbn [map]; constructor; [|exact IH]. cbn [fst snd]. split; congruence.
  - intros k v Hin. assert (E : nget (ncollect up (map (fun a => (a_name a, (a_type a, a_null a))) (r_attrs t'))) k = Some v)
      by (apply (nget_in up); [apply ncollect_sorted|exists k; split; [exact Hin|apply name_eqb_refl]]).
    rewrite nget_ncollect in E. clear Hin. unfold tnamed in H. revert E.
    induction H as [|a a' l l' (E1 & E2 & E3) Hl IH]; cbn [map last_entry]; [discriminate|].
    destruct (last_entry up _ k) as [w|]; [exact IH|]. destruct (name_eqb up k (a_name a')) eqn:F; [|discriminate]. intros _.
    exists (a_name a). rewrite <- E1. exact F.
Qed.

Lemma insert_column_covers m m' a a' n : covers m m' -> like a a' ->
  esim covers (insert_column up m a n) (insert_column up m' a' (f n)).
Proof.
  intros [(S1 & S2 & H) K] [Ht Hu]. unfold insert_column. pose proof (H n) as G. revert G.
  destruct (nget m n) as [[t b]|], (nget m' (f n)) as [[t' b']|]; cbn [optsim]; try contradiction; [|intros _; exact I].
  intros [= <- <-]. rewrite Ht, Hu. destruct (_ || _); [exact I|]. cbn [esim]. split.
  - split; [apply nremove_sorted, S1|]. split; [apply nremove_sorted, S2|]. intros k. rewrite !nget_nremove by assumption.
    rewrite Hf. destruct (name_eqb up k n); [exact I|apply H].
  - intros k v Hin. apply nremove_in in Hin; [|exact S2]. apply (K k v), Hin.
Qed.

Lemma covers_null m m' : covers m m' -> existsb (fun e => negb (snd (snd e))) m = existsb (fun e => negb (snd (snd e))) m'.
Proof.
  intros [(S1 & S2 & H) K]. apply eq_true_iff_eq. rewrite !existsb_exists. split.
  - intros ((k & v) & Hin & Hb). assert (E : nget m k = Some v) by (apply (nget_in up); [exact S1|exists k; split; [exact Hin|apply name_eqb_refl]]).
    specialize (H k). rewrite E in H. destruct (nget m' (f k)) as [v'|] eqn:E'; cbn in H; [|contradiction]. subst v'.
    apply (nget_in up) in E'; [|exact S2]. destruct E' as (k' & Hin' & _). exists (k', v). auto.
  - intros ((k & v) & Hin & Hb). destruct (K k v Hin) as (n & Hn).
    assert (E : nget m' (f n) = Some v). { rewrite <- (nget_congr up m' _ _ Hn). apply (nget_in up); [exact S2|exists k; split; [exact Hin|apply name_eqb_refl]]. }
    specialize (H n). rewrite E in H. destruct (nget m n) as [v'|] eqn:E'; cbn in H; [|contradiction]. subst v'.
    apply (nget_in up) in E'; [|exact S1]. destruct E' as (k' & Hin' & _). exists (k', v). auto.
Qed.

Lemma insert_rename i l : i_columns i = Some l -> simple_set (i_source i) = true ->
  rsim eq (validate_insert up x i)
    (validate_insert up x' {| i_table := map f (i_table i); i_columns := Some (map f l); i_source := re_set f (i_source i) |}).
Proof.
  intros Hl Hs. unfold validate_insert. cbn [i_table i_columns i_source]. rewrite Hl.
  apply (rsim_bind _ _ _ _ _ _ (HT (i_table i))). intros t t' Ht.
  apply (rsim_bind tlike); [apply rename_all, Hs|]. intros v v' Hv.
  apply (rsim_bind covers); [|intros m m' Hm; rewrite (covers_null _ _ Hm); apply rsim_eq].
  rewrite map_length, (Forall2_same_length _ _ _ Hv). destruct (negb _); [exact I|].
  assert (E : Forall2 (fun n n' => n' = f n) l (map f l)) by (clear; induction l; cbn; constructor; auto).
  apply (fold_err_sim covers _ _ _ _ _ (combine_sim _ _ _ _ _ _ Hv E)); [|apply row_map_covers, Ht].
  intros m m' [a n] [a' n'] _ Hm [Ha Hn]. cbn [fst snd] in *. subst n'. apply rsim_pure, insert_column_covers; assumption.
Qed.

Lemma assign_same m m' t u g g' n : seen eq m m' -> seen eq g g' ->
  esim (seen eq) (assign_column up m t u g n) (assign_column up m' t u g' (f n)).
Proof.
  intros (_ & _ & Hm) Hg. unfold assign_column. pose proof (Hm n) as K1. pose proof (proj2 (proj2 Hg) n) as K2.
  revert K1 K2. destruct (nget g n), (nget g' (f n)); cbn; try contradiction; auto.
  destruct (nget m n) as [[ct cu]|], (nget m' (f n)) as [[ct' cu']|]; cbn; try contradiction; auto. intros [= <- <-] _.
  destruct (_ || _); cbn; auto. apply seen_put; auto.
Qed.

Lemma update_rename u : forallb (fun a => simple_expr (snd a)) (u_assignments u) && simple_where (u_where u) = true ->
  rsim eq (validate_update up x u)
    (validate_update up x' {| u_table := map f (u_table u);
                  u_assignments := map (fun a => (map f (fst a), re_expr f (snd a))) (u_assignments u);
                  u_where := option_map (re_expr f) (u_where u) |}).
Proof.
  intros Hs. apply andb_prop in Hs as [S1 S2]. unfold validate_update. cbn [u_table u_assignments u_where].
  apply (rsim_bind _ _ _ _ _ _ (HT (u_table u))). intros t t' Ht.
  apply (osim_bind (fun n n' => n' = f n)); [apply last_name_same|]. intros n ? ->.
  apply (rsim_bind ysame); [apply rsim_pure, add_relation_same; [apply seen_nil|exact Ht]|]. intros y y' Hy.
  apply (rsim_bind (seen eq)); [|intros _ _ _; apply where_rename; assumption].
  assert (E : Forall2 (fun a a' => a' = (map f (fst a), re_expr f (snd a))) (u_assignments u)
    (map (fun a => (map f (fst a), re_expr f (snd a))) (u_assignments u))) by (clear; induction (u_assignments u); cbn; constructor; auto).
  apply (fold_err_sim (seen eq) _ _ _ _ _ E); [|apply seen_nil].
  intros g g' [l e] ? Hin Hg ->. rewrite forallb_forall in S1. pose proof (S1 _ Hin) as Se. cbn [fst snd] in *.
  apply (rsim_bind eq); [apply rename_all; [exact Se|exact Hy]|].
  intros st ? <-. apply (rsim_bind eq); [apply rsim_eq|]. intros [d b] ? <-.
  assert (E2 : Forall2 (fun n n' => n' = f n) l (map f l)) by (clear; induction l; cbn; constructor; auto).
  apply (fold_err_sim (seen eq) _ _ _ _ _ E2); [|exact Hg].
  intros h h' c ? _ Hh ->. apply rsim_pure, assign_same; [apply row_map_covers, Ht|exact Hh].
Qed.

Lemma delete_rename d : simple_where (d_where d) = true ->
  rsim eq (validate_delete up x d) (validate_delete up x' {| d_table := map f (d_table d); d_where := option_map (re_expr f) (d_where d) |}).
Proof.
  intros Hs. unfold validate_delete. cbn [d_table d_where].
  apply (rsim_bind _ _ _ _ _ _ (HT (d_table d))). intros t t' Ht.
  apply (osim_bind (fun n n' => n' = f n)); [apply last_name_same|]. intros n ? ->.
  apply (rsim_bind ysame); [apply rsim_pure, add_relation_same; [apply seen_nil|exact Ht]|]. intros y y' Hy.
  apply where_rename; assumption.
Qed.

Lemma statement_rename s : simple s = true -> rsim eq (validate up x s) (validate up x' (respell f s)).
Proof.
  assert (G : forall s, simple_statement s = true -> rsim eq (validate_statement up x s) (validate_statement up x' (re_statement f s))).
  { intros [q|i|d|u] Hs; cbn [validate_statement re_statement simple_statement] in *.
    - apply (rsim_bind tlike); [apply rename_all, Hs|]. intros; reflexivity.
    - destruct (i_columns i) as [l|] eqn:El; [|discriminate]. exact (insert_rename i l El Hs).
    - exact (delete_rename d Hs).
    - exact (update_rename u Hs). }
  destruct s as [s|s|q p|q]; cbn [validate respell simple]; intros Hs.
  - exact (G s Hs).
  - exact (G s Hs).
  - apply rsim_eq.
  - apply (rsim_bind _ _ _ _ _ _ (HT q)). intros; reflexivity.
Qed.
End Contexts.

Lemma resolve_rename db d q :
  rsim tnamed (resolve_table up (set_context_new up db d) q) (resolve_table up (set_context_new up (re_database f db) (f d)) (map f q)).
Proof.
  assert (N : seen (seen tnamed) (namespaces_of up db) (namespaces_of up (re_database f db))).
  { unfold namespaces_of. apply seen_collect. unfold re_database. rewrite map_map. induction db as [|[a s] l IH]; cbn [map]; constructor; [|exact IH].
    cbn [fst snd]. split; [reflexivity|]. unfold object_types. apply seen_collect. unfold re_schema. cbn [s_objects]. rewrite map_map.
    induction (s_objects s) as [|[b o] os IHo]; cbn [map]; constructor; [|exact IHo]. cbn [fst snd]. split; [reflexivity|].
    unfold tnamed, row_of_set. cbn [r_attrs].
    assert (E : object_rows (re_object f o) = map (re_column_def f) (object_rows o)) by (destruct o; reflexivity). rewrite E.
    clear E. induction (object_rows o) as [|c cs IHc]; cbn [map]; [constructor|]. constructor; [|exact IHc]. repeat split. }
  destruct N as (_ & _ & N).
  destruct q as [|a [|b [|]]]; cbn [map resolve_table set_context_new x_tables x_namespaces x_default SqlNameModel.nget]; try exact I.
  - specialize (N d). destruct (nget (namespaces_of up db) d) as [s|], (nget (namespaces_of up (re_database f db)) (f d)) as [s'|];
      cbn [optsim] in N; try contradiction; [|exact I]. destruct N as (_ & _ & N).
    specialize (N a). destruct (nget s a), (nget s' (f a)); cbn [optsim] in N; try contradiction; [exact N|exact I].
  - specialize (N a). destruct (nget (namespaces_of up db) a) as [s|], (nget (namespaces_of up (re_database f db)) (f a)) as [s'|];
      cbn [optsim] in N; try contradiction; [|exact I]. destruct N as (_ & _ & N).
    specialize (N b). destruct (nget s b), (nget s' (f b)); cbn [optsim] in N; try contradiction; [exact N|exact I].
Qed.

Lemma validate_rename db d s : simple s = true ->
  validate up (set_context_new up db d) s = validate up (set_context_new up (re_database f db) (f d)) (respell f s).
Proof. intros Hs. apply rsim_eq_inv, statement_rename; [|exact Hs]. intros q. apply resolve_rename. Qed.

Lemma like_column_types l l' : llike l l' -> column_types l' = column_types l.
Proof. unfold column_types. induction 1 as [|a a' l l' [H1 H2] Hl IH]; [reflexivity|]. cbn [map]. rewrite H1, H2, IH. reflexivity. Qed.

Lemma query_rename db d s : simple_select s = true ->
  match infer_select up (set_context_new up db d) s, infer_select up (set_context_new up (re_database f db) (f d)) (re_select f s) with
  | Ret (Ok t), Ret (Ok t') => column_types (r_attrs t') = column_types (r_attrs t)
  | Ret (Err _), Ret (Err _) | Panic, Panic | Undef, Undef => True
  | _, _ => False
  end.
Proof.
  intros Hs. pose proof (proj1 (proj2 (proj2 (rename_all (set_context_new up db d) (set_context_new up (re_database f db) (f d))
    (fun q => resolve_rename db d q)))) s Hs) as K.
  destruct (infer_select up (set_context_new up db d) s) as [[t|e]| |],
    (infer_select up (set_context_new up (re_database f db) (f d)) (re_select f s)) as [[t'|e']| |]; try contradiction; auto.
  apply like_column_types, K.
Qed.
End Rename.

Lemma exchange_renaming up a b : renaming up (exchange up a b).
Proof.
  intros m n. unfold exchange.
  assert (U : forall p q, name_eqb up p q = true <-> upper up p = upper up q) by (intros; apply name_eqb_upper).
  assert (UF : forall p q, name_eqb up p q = false <-> upper up p <> upper up q).
  { intros p q. rewrite <- U. destruct (name_eqb up p q); split; congruence. }
  apply eq_true_iff_eq.
  destruct (name_eqb up m a) eqn:E1; [apply U in E1|apply UF in E1];
  (destruct (name_eqb up n a) eqn:E2; [apply U in E2|apply UF in E2]);
  try (destruct (name_eqb up m b) eqn:E3; [apply U in E3|apply UF in E3]);
  try (destruct (name_eqb up n b) eqn:E4; [apply U in E4|apply UF in E4]); rewrite !U; split; intros; congruence.
Qed.

Lemma map_same {A} (g : A -> A) l : (forall a, In a l -> g a = a) -> map g l = l.
Proof. intros H. rewrite <- (map_id l) at 2. apply map_ext_in, H. Qed.

Lemma catalog_same f db : (forall n, In n (catalog_names db) -> f n = n) -> re_database f db = db.
Proof.
  intros H. unfold re_database. apply map_same. intros [k s] Hin. cbn [fst snd].
  assert (G : forall n, In n (k :: s_name s :: flat_map (fun o => fst o :: map c_name (object_rows (snd o)) ++
    match snd o with OTable _ key => key | OView _ _ => [] end) (s_objects s)) -> f n = n).
  { intros n Hn. apply H. unfold catalog_names. apply in_flat_map. exists (k, s). split; [exact Hin|exact Hn]. }
  rewrite (G k) by (left; reflexivity). f_equal. destruct s as [sn so]. unfold re_schema. cbn [s_name s_objects] in *.
  rewrite (G sn) by (right; left; reflexivity). f_equal. apply map_same. intros [o b] Ho. cbn [fst snd].
  assert (K : forall n, In n (o :: map c_name (object_rows b) ++ match b with OTable _ key => key | OView _ _ => [] end) -> f n = n).
  { intros n Hn. apply G. right. right. apply in_flat_map. exists (o, b). split; [exact Ho|exact Hn]. }
  rewrite (K o) by (left; reflexivity). f_equal.
  assert (R : map (re_column_def f) (object_rows b) = object_rows b).
  { apply map_same. intros c Hc. unfold re_column_def. rewrite (K (c_name c)); [destruct c; reflexivity|].
    right. apply in_or_app. left. apply in_map, Hc. }
  destruct b as [rows key|rows q]; cbn [object_rows re_object] in *; rewrite R; [|reflexivity]. f_equal. apply map_same.
  intros n Hn. apply K. right. apply in_or_app. right. exact Hn.
Qed.

Lemma alias_rename up a b db d s : simple s = true ->
  Forall (fun n => name_eqb up n a = false /\ name_eqb up n b = false) (d :: catalog_names db) ->
  validate up (set_context_new up db d) s = validate up (set_context_new up db d) (respell (exchange up a b) s).
Proof.
  intros Hs H. rewrite (validate_rename up _ (exchange_renaming up a b) db d s Hs). rewrite Forall_forall in H.
  assert (E : forall n, In n (d :: catalog_names db) -> exchange up a b n = n).
  { intros n Hn. destruct (H n Hn) as [H1 H2]. unfold exchange. rewrite H1, H2. reflexivity. }
  rewrite (E d) by (left; reflexivity). rewrite catalog_same; [reflexivity|]. intros n Hn. apply E. right. exact Hn.
Qed.
