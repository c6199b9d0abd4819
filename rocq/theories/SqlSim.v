(** * The operations of typing on data that differ only in the spelling of names *)

From Coq Require Import Strings.String.
From Verif Require Import Base StrModel SqlNameModel SqlModel SqlNameProofs SqlRespell.
Local Open Scope list_scope.
Local Open Scope nat_scope.

(** The same outcome, with related values. *)
Definition osim {A B : Type} (R : A -> B -> Prop) (a : outcome A) (b : outcome B) : Prop :=
  match a, b with
  | Ret x, Ret y => R x y
  | Panic, Panic | Undef, Undef => True
  | _, _ => False
  end.

Definition esim {A B : Type} (R : A -> B -> Prop) (a : result A unit) (b : result B unit) : Prop :=
  match a, b with
  | Ok x, Ok y => R x y
  | Err _, Err _ => True
  | _, _ => False
  end.

Definition rsim {A B : Type} (R : A -> B -> Prop) : res A -> res B -> Prop := osim (esim R).

Lemma osim_bind {A B C D} (R : A -> B -> Prop) (Q : C -> D -> Prop) a b f g :
  osim R a b -> (forall x y, R x y -> osim Q (f x) (g y)) -> osim Q (bind a f) (bind b g).
Proof. destruct a, b; cbn; try contradiction; auto. Qed.

Lemma rsim_bind {A B C D} (R : A -> B -> Prop) (Q : C -> D -> Prop) a b f g :
  rsim R a b -> (forall x y, R x y -> rsim Q (f x) (g y)) -> rsim Q (rbind a f) (rbind b g).
Proof.
  intros H K. unfold rbind. apply (osim_bind (esim R)); [exact H|]. intros [x|e] [y|e']; cbn; try contradiction; intros H1; [exact (K _ _ H1)|exact I].
Qed.

Lemma rsim_ok {A B} (R : A -> B -> Prop) a b : R a b -> rsim R (ok a) (ok b).
Proof. auto. Qed.

Lemma rsim_pure {A B} (R : A -> B -> Prop) a b : esim R a b -> rsim R (pure a) (pure b).
Proof. auto. Qed.

Lemma esim_eq {A} (a : result A unit) : esim eq a a.
Proof. destruct a; cbn; auto. Qed.

Lemma rsim_eq {A} (a : res A) : rsim eq a a.
Proof. destruct a as [[a|e]| |]; cbn; auto. Qed.

Lemma rsim_eq_inv {A} (a b : res A) : rsim eq a b -> a = b.
Proof. destruct a as [[a|[]]| |], b as [[b|[]]| |]; cbn; try contradiction; congruence. Qed.

Lemma rsim_impl {A B} (R Q : A -> B -> Prop) a b : (forall x y, R x y -> Q x y) -> rsim R a b -> rsim Q a b.
Proof. destruct a as [[a|[]]| |], b as [[b|[]]| |]; cbn; auto. Qed.

Lemma fold_err_sim {S S' A A'} (RS : S -> S' -> Prop) (R : A -> A' -> Prop) f g l l' :
  Forall2 R l l' -> (forall s s' a a', In a l -> RS s s' -> R a a' -> rsim RS (f s a) (g s' a')) ->
  forall s s', RS s s' -> rsim RS (fold_err f s l) (fold_err g s' l').
Proof.
  induction 1 as [|a a' l l' Ha Hl IH]; intros H s s' Hs; [exact Hs|]. cbn [fold_err].
  apply (rsim_bind RS); [apply H; [left; reflexivity|exact Hs|exact Ha]|]. intros x y Hx. apply IH; [|exact Hx].
  intros; apply H; [right|..]; assumption.
Qed.

Lemma collect_sim {A A' B B'} (R : A -> A' -> Prop) (Q : B -> B' -> Prop) f g l l' :
  Forall2 R l l' -> (forall a a', In a l -> R a a' -> rsim Q (f a) (g a')) -> rsim (Forall2 Q) (collect f l) (collect g l').
Proof.
  induction 1 as [|a a' l l' Ha Hl IH]; intros H; [constructor|]. cbn [collect].
  apply (rsim_bind Q); [apply H; [left; reflexivity|exact Ha]|]. intros x y Hx.
  apply (rsim_bind (Forall2 Q)); [apply IH; intros; apply H; [right|]; assumption|]. intros xs ys Hxs. constructor; assumption.
Qed.

Section Sim.
Variable up : Z -> list Z.
Notation nget := (nget up).
Notation nput := (nput up).

Definition nsim (a b : name) : Prop := upper up a = upper up b.
Definition psim (q q' : list name) : Prop := Forall2 nsim q q'.
Definition msim {V W : Type} (R : V -> W -> Prop) : nmap V -> nmap W -> Prop :=
  Forall2 (fun e e' => nsim (fst e) (fst e') /\ R (snd e) (snd e')).
Definition asim (a b : attribute) : Prop := nsim (a_name a) (a_name b) /\ a_type a = a_type b /\ a_null a = a_null b.
Definition lsim : list attribute -> list attribute -> Prop := Forall2 asim.
Definition tsim (t t' : row_type) : Prop := lsim (r_attrs t) (r_attrs t').
Definition isim (i i' : symbol) : Prop :=
  match i, i' with
  | SyAttribute t, SyAttribute t' => t = t'
  | SyConflict, SyConflict => True
  | SyRelation m, SyRelation m' => msim eq m m'
  | _, _ => False
  end.
Definition ysim : symbols -> symbols -> Prop := msim isim.

Lemma cmp_sim a a' b b' : nsim a a' -> nsim b b' -> name_cmp up a b = name_cmp up a' b'.
Proof. unfold name_cmp, nsim. congruence. Qed.

Definition optsim {A B} (R : A -> B -> Prop) (o : option A) (o' : option B) : Prop :=
  match o, o' with Some a, Some b => R a b | None, None => True | _, _ => False end.

Lemma nget_sim {V W} (R : V -> W -> Prop) m m' k k' : msim R m m' -> nsim k k' -> optsim R (nget m k) (nget m' k').
Proof.
  intros H Hk. induction H as [|[a v] [a' v'] m m' [Ha Hv] Hm IH]; [exact I|]. cbn [SqlNameModel.nget fst snd] in *.
  rewrite (cmp_sim k k' a a' Hk Ha). destruct (name_cmp up k' a'); cbn; auto.
Qed.

Lemma nput_sim {V W} (R : V -> W -> Prop) m m' k k' v v' : msim R m m' -> nsim k k' -> R v v' ->
  msim R (nput m k v) (nput m' k' v').
Proof.
  intros H Hk Hv. induction H as [|[a w] [a' w'] m m' [Ha Hw] Hm IH]; cbn [SqlNameModel.nput fst snd] in *.
  - constructor; [split; assumption|constructor].
  - rewrite (cmp_sim k k' a a' Hk Ha). destruct (name_cmp up k' a'); repeat (constructor; auto).
Qed.

Lemma nremove_sim {V W} (R : V -> W -> Prop) m m' k k' : msim R m m' -> nsim k k' -> msim R (nremove up m k) (nremove up m' k').
Proof.
  intros H Hk. induction H as [|[a w] [a' w'] m m' [Ha Hw] Hm IH]; cbn [SqlNameModel.nremove fst snd] in *.
  - constructor.
  - rewrite (cmp_sim k k' a a' Hk Ha). destruct (name_cmp up k' a'); [exact Hm|constructor; auto|constructor; auto].
Qed.

Lemma ncollect_sim {V W} (R : V -> W -> Prop) l l' : msim R l l' -> msim R (ncollect up l) (ncollect up l').
Proof.
  unfold ncollect. intros H. assert (G : forall m m', msim R m m' ->
    msim R (fold_left (fun m e => nput m (fst e) (snd e)) l m) (fold_left (fun m e => nput m (fst e) (snd e)) l' m')).
  { induction H as [|e e' l l' [He Hv] Hl IH]; intros m m' Hm; cbn [fold_left]; [exact Hm|]. apply IH, nput_sim; assumption. }
  apply G. constructor.
Qed.

Lemma msim_map {A B V W} (R : V -> W -> Prop) (f : A -> name * V) (g : B -> name * W) (Q : A -> B -> Prop) l l' :
  Forall2 Q l l' -> (forall a b, Q a b -> nsim (fst (f a)) (fst (g b)) /\ R (snd (f a)) (snd (g b))) ->
  msim R (map f l) (map g l').
Proof. induction 1; intros H'; cbn; constructor; auto. apply IHForall2. auto. Qed.

Lemma attr_type_sim a b : asim a b -> attr_type a = attr_type b.
Proof. intros (_ & H1 & H2). unfold attr_type. congruence. Qed.

Lemma add_attribute_sim y y' a a' : ysim y y' -> asim a a' -> ysim (add_attribute up y a) (add_attribute up y' a').
Proof.
  intros Hy Ha. pose proof (proj1 Ha) as Hn. unfold add_attribute. pose proof (nget_sim isim y y' _ _ Hy Hn) as G.
  destruct (nget y (a_name a)) as [[t| |m]|], (nget y' (a_name a')) as [[t'| |m']|]; cbn in G; try contradiction; auto;
    apply nput_sim; auto; cbn; auto using attr_type_sim.
Qed.

Lemma add_relation_sim y y' n n' l l' : ysim y y' -> nsim n n' -> lsim l l' ->
  esim ysim (add_relation up y n l) (add_relation up y' n' l').
Proof.
  intros Hy Hn Hl. unfold add_relation.
  assert (G : ysim (fold_left (add_attribute up) l y) (fold_left (add_attribute up) l' y')).
  { clear Hn. revert y y' Hy. induction Hl; intros y0 y0' Hy; cbn [fold_left]; auto using add_attribute_sim. }
  assert (M : msim eq (ncollect up (map (fun a => (a_name a, attr_type a)) l)) (ncollect up (map (fun a => (a_name a, attr_type a)) l'))).
  { apply ncollect_sim, (msim_map eq _ _ asim); [exact Hl|]. intros a b H. split; [apply H|apply attr_type_sim, H]. }
  pose proof (nget_sim isim _ _ _ _ G Hn) as K. revert K.
  destruct (nget (fold_left (add_attribute up) l y) n) as [[t| |m]|],
    (nget (fold_left (add_attribute up) l' y') n') as [[t'| |m']|]; cbn; try contradiction; auto; intros _;
    apply nput_sim; auto.
Qed.

Lemma name_type_sim y y' q q' : ysim y y' -> psim q q' -> esim eq (name_type up y q) (name_type up y' q').
Proof.
  intros Hy Hq. destruct Hq as [|n n' ? ? Hn [|m m' ? ? Hm [|]]]; cbn [name_type esim]; auto.
  - pose proof (nget_sim isim _ _ _ _ Hy Hn) as K. revert K.
    destruct (nget y n) as [[t| |w]|], (nget y' n') as [[t'| |w']|]; cbn; try contradiction; auto.
  - pose proof (nget_sim isim _ _ _ _ Hy Hn) as K. revert K.
    destruct (nget y n) as [[t| |w]|], (nget y' n') as [[t'| |w']|]; cbn; try contradiction; auto.
    intros Hw. pose proof (nget_sim eq _ _ _ _ Hw Hm) as K. revert K.
    destruct (nget w m), (nget w' m'); cbn; try contradiction; auto.
Qed.

Lemma in_type_sim t r r' : tsim r r' -> in_type t r = in_type t r'.
Proof.
  unfold tsim, in_type. intros [|a a' l l' Ha [|]]; auto. rewrite (attr_type_sim _ _ Ha). reflexivity.
Qed.

Lemma select_scalar_sim r r' : tsim r r' -> select_scalar r = select_scalar r'.
Proof.
  unfold tsim, select_scalar. intros [|a a' l l' Ha [|]]; auto. rewrite (attr_type_sim _ _ Ha). reflexivity.
Qed.

(** Columns made so far and the counters. *)
Definition stsim (s s' : list attribute * nmap nat) : Prop := lsim (fst s) (fst s') /\ msim eq (snd s) (snd s').

Lemma nsim_app a a' b : nsim a a' -> nsim (a ++ b) (a' ++ b).
Proof. unfold nsim, upper. intros H. rewrite !flat_map_app. congruence. Qed.

Lemma push_sim s s' n n' t null : stsim s s' -> nsim n n' -> stsim (push_column up s n t null) (push_column up s' n' t null).
Proof.
  intros [H1 H2] Hn. unfold push_column, generate_column_name. pose proof (nget_sim eq _ _ _ _ H2 Hn) as K. revert K.
  destruct (nget (snd s) n) as [k|], (nget (snd s') n') as [k'|]; cbn; try contradiction.
  - intros <-. split; cbn [fst snd].
    + apply Forall2_app; [exact H1|]. repeat constructor. apply nsim_app, Hn.
    + apply nput_sim; [apply nput_sim; auto|apply nsim_app, Hn|reflexivity].
  - intros _. split; cbn [fst snd].
    + apply Forall2_app; [exact H1|]. repeat constructor. exact Hn.
    + apply nput_sim; auto.
Qed.

Lemma all_columns_sim l l' : lsim l l' -> lsim (all_columns up l) (all_columns up l').
Proof.
  intros H. unfold all_columns.
  assert (G : forall s s', stsim s s' -> stsim
    (fold_left (fun st a => push_column up st (a_name a) (a_type a) (a_null a)) l s)
    (fold_left (fun st a => push_column up st (a_name a) (a_type a) (a_null a)) l' s')).
  { induction H as [|a a' l l' (Hn & Ht & Hu) Hl IH]; intros s s' Hs; cbn [fold_left]; [exact Hs|]. apply IH.
    rewrite Ht, Hu. apply push_sim; assumption. }
  apply G. split; constructor.
Qed.

Lemma relation_columns_sim s s' m m' : stsim s s' -> msim eq m m' ->
  osim stsim (relation_columns up s m) (relation_columns up s' m').
Proof.
  intros Hs H. unfold relation_columns.
  assert (G : forall o o', osim stsim o o' -> osim stsim
    (fold_left (fun o e => st <- o ;; match snd e with TyScalar t n => Ret (push_column up st (fst e) t n) | TyTuple _ => Panic end) m o)
    (fold_left (fun o e => st <- o ;; match snd e with TyScalar t n => Ret (push_column up st (fst e) t n) | TyTuple _ => Panic end) m' o')).
  { induction H as [|e e' m m' [Hn He] Hm IH]; intros o o' Ho; cbn [fold_left]; [exact Ho|]. apply IH.
    apply (osim_bind stsim); [exact Ho|]. intros x y Hx. rewrite <- He. destruct (snd e); cbn; auto. apply push_sim; assumption. }
  apply G. exact Hs.
Qed.

Lemma unify_columns_sim l l' r r' : lsim l l' -> lsim r r' -> esim lsim (unify_columns l r) (unify_columns l' r').
Proof.
  intros Hl. revert r r'. induction Hl as [|a a' l l' Ha Hl IH]; intros r r' Hr; [constructor|].
  destruct Hr as [|b b' r r' Hb Hr]; [constructor|]. cbn [unify_columns].
  rewrite <- (attr_type_sim _ _ Ha), <- (attr_type_sim _ _ Hb). destruct (unify (attr_type a) (attr_type b)) as [[ts|t n]|e]; cbn; auto.
  specialize (IH _ _ Hr). destruct (unify_columns l r), (unify_columns l' r'); cbn in *; try contradiction; auto.
  constructor; [|exact IH]. split; [apply Ha|split; reflexivity].
Qed.

Lemma name_eqb_sim a a' b b' : nsim a a' -> nsim b b' -> name_eqb up a b = name_eqb up a' b'.
Proof. unfold name_eqb, nsim. congruence. Qed.

Lemma find_column_sim l l' n n' : lsim l l' -> nsim n n' -> optsim asim (find_column up l n) (find_column up l' n').
Proof.
  intros Hl Hn. induction Hl as [|a a' l l' Ha Hl IH]; [exact I|]. cbn [find_column].
  rewrite (name_eqb_sim _ _ _ _ (proj1 Ha) Hn). destruct (name_eqb up (a_name a') n'); auto.
Qed.

Lemma pick_columns_sim l l' q q' : lsim l l' -> psim q q' -> esim lsim (pick_columns up l q) (pick_columns up l' q').
Proof.
  intros Hl Hq. induction Hq as [|n n' q q' Hn Hq IH]; [constructor|]. cbn [pick_columns].
  pose proof (find_column_sim _ _ _ _ Hl Hn) as K. revert K.
  destruct (find_column up l n) as [a|], (find_column up l' n') as [a'|]; cbn; try contradiction; auto. intros (_ & H1 & H2).
  destruct (pick_columns up l q), (pick_columns up l' q'); cbn in *; try contradiction; auto.
  constructor; [|exact IH]. split; [exact Hn|split; assumption].
Qed.

Lemma last_name_sim q q' : psim q q' -> osim nsim (last_name q) (last_name q').
Proof.
  intros H. unfold last_name.
  assert (G : psim (rev q) (rev q')).
  { induction H; cbn; [constructor|]. apply Forall2_app; auto. }
  destruct G; cbn; auto.
Qed.

Lemma row_type_map_sim t t' : tsim t t' -> msim eq (row_type_map up t) (row_type_map up t').
Proof.
  intros H. unfold row_type_map. apply ncollect_sim, (msim_map eq _ _ asim); [exact H|]. intros a b (H1 & H2 & H3).
  split; [exact H1|]. cbn. congruence.
Qed.

Lemma insert_column_sim m m' a a' n n' : msim eq m m' -> asim a a' -> nsim n n' ->
  esim (msim eq) (insert_column up m a n) (insert_column up m' a' n').
Proof.
  intros Hm (_ & Ht & Hu) Hn. unfold insert_column. pose proof (nget_sim eq _ _ _ _ Hm Hn) as K. revert K.
  destruct (nget m n) as [[t u]|], (nget m' n') as [[t' u']|]; cbn; try contradiction; auto. intros [= <- <-].
  rewrite Ht, Hu. destruct (_ || _); cbn; auto. apply nremove_sim; assumption.
Qed.

Lemma assign_column_sim m m' t u g g' n n' : msim eq m m' -> msim eq g g' -> nsim n n' ->
  esim (msim eq) (assign_column up m t u g n) (assign_column up m' t u g' n').
Proof.
  intros Hm Hg Hn. unfold assign_column. pose proof (nget_sim eq _ _ _ _ Hm Hn) as K1. pose proof (nget_sim eq _ _ _ _ Hg Hn) as K2.
  revert K1 K2. destruct (nget g n), (nget g' n'); cbn; try contradiction; auto.
  destruct (nget m n) as [[ct cu]|], (nget m' n') as [[ct' cu']|]; cbn; try contradiction; auto. intros [= <- <-] _.
  destruct (_ || _); cbn; auto. apply nput_sim; auto.
Qed.

(** ** Databases and contexts *)

Definition xsim (x x' : set_context) : Prop :=
  msim (msim tsim) (x_namespaces x) (x_namespaces x') /\ nsim (x_default x) (x_default x') /\ msim tsim (x_tables x) (x_tables x').

Lemma resolve_sim x x' q q' : xsim x x' -> psim q q' -> rsim tsim (resolve_table up x q) (resolve_table up x' q').
Proof.
  intros (Hn & Hd & Ht) Hq. destruct Hq as [|n n' ? ? H1 [|m m' ? ? H2 [|]]]; cbn [resolve_table]; try exact I.
  - pose proof (nget_sim tsim _ _ _ _ Ht H1) as K. revert K.
    destruct (nget (x_tables x) n), (nget (x_tables x') n'); cbn [optsim]; try contradiction; [auto|]. intros _.
    pose proof (nget_sim _ _ _ _ _ Hn Hd) as K. revert K.
    destruct (nget (x_namespaces x) (x_default x)) as [ns|], (nget (x_namespaces x') (x_default x')) as [ns'|]; cbn [optsim]; try contradiction; [|auto].
    intros K. pose proof (nget_sim tsim _ _ _ _ K H1) as K'. revert K'.
    destruct (nget ns n), (nget ns' n'); cbn; auto.
  - pose proof (nget_sim tsim _ _ _ _ Ht H1) as K. revert K.
    destruct (nget (x_tables x) n), (nget (x_tables x') n'); cbn [optsim]; try contradiction; [intros _; exact I|]. intros _.
    pose proof (nget_sim _ _ _ _ _ Hn H1) as K. revert K.
    destruct (nget (x_namespaces x) n) as [ns|], (nget (x_namespaces x') n') as [ns'|]; cbn [optsim]; try contradiction; [|intros _; exact I].
    intros K. pose proof (nget_sim tsim _ _ _ _ K H2) as K'. revert K'.
    destruct (nget ns m), (nget ns' m'); cbn; auto.
Qed.

Lemma map_eq_Forall2 {A B C} (f : A -> C) (g : B -> C) l l' : map f l = map g l' -> Forall2 (fun a b => f a = g b) l l'.
Proof.
  revert l'. induction l as [|a l IH]; intros [|b l'] H; try discriminate; constructor; injection H; auto.
Qed.

Lemma database_sim db db' d d' : same_database up db db' -> nsim d d' -> xsim (set_context_new up db d) (set_context_new up db' d').
Proof.
  intros H Hd. split; [|split; [exact Hd|constructor]]. cbn [x_namespaces set_context_new]. unfold namespaces_of.
  apply ncollect_sim. apply map_eq_Forall2 in H. eapply msim_map; [exact H|]. clear. intros [n s] [n' s'] H. cbn [fst snd] in *.
  injection H as H1 H2 H3. split; [exact H1|]. unfold object_types. apply ncollect_sim. apply map_eq_Forall2 in H3.
  eapply msim_map; [exact H3|]. clear. intros [n o] [n' o'] H. cbn [fst snd] in *. injection H as H1 H2. split; [exact H1|].
  unfold tsim, row_of_set. cbn [r_attrs].
  assert (G : map (re_column_def (upper up)) (object_rows o) = map (re_column_def (upper up)) (object_rows o')).
  { destruct o, o'; cbn in H2 |- *; congruence. }
  apply map_eq_Forall2 in G. clear - G. induction G as [|c c' l l' Hc Hl IH]; cbn; constructor; auto.
  injection Hc as E1 E2 E3 E4. repeat split; cbn; congruence.
Qed.
End Sim.
