(** * Statements that do not notice added columns *)

From Coq Require Import Strings.String.
From Verif Require Import Base StrModel SqlNameModel SqlModel SqlNameProofs SqlInd SqlRespell SqlSim SqlRespellProofs SqlGrowSpec.
Local Open Scope list_scope.
Local Open Scope nat_scope.

Lemma rsim_of_eq {A} (a b : res A) : a = b -> rsim eq a b.
Proof. intros <-. apply rsim_eq. Qed.

Lemma grown_impl {A} (P Q : A -> Prop) l l' : (forall a, P a -> Q a) -> grown P l l' -> grown Q l l'.
Proof. intros H. induction 1; constructor; auto. Qed.

Lemma grown_map {A B} (f : A -> B) (P : A -> Prop) (Q : B -> Prop) l l' : (forall a, P a -> Q (f a)) -> grown P l l' ->
  grown Q (map f l) (map f l').
Proof. intros H. induction 1; cbn; constructor; auto. Qed.

Section Grow.
Variables (up : Z -> list Z) (names : list name).
Notation nget := (nget up).
Notation nput := (nput up).
Notation among := (among up names).
Notation spares := (spares up names).
Notation more := (grown (fun a => among (a_name a) = true)).

Lemma among_congr a b : name_eqb up a b = true -> among a = among b.
Proof.
  intros H. unfold SqlGrowSpec.among. induction names as [|n l IH]; cbn; [reflexivity|].
  rewrite (name_eqb_congr_l up a b n H), IH. reflexivity.
Qed.

(** What the two symbol tables say about a name. *)
Definition symbol_grown (k : name) (o o' : option symbol) : Prop :=
  match o, o' with
  | Some (SyRelation m), Some (SyRelation m') => forall n, among n = false -> nget m n = nget m' n
  | Some (SyRelation _), _ | _, Some (SyRelation _) => False
  | _, _ => among k = false -> o = o'
  end.

Definition ygrown (y y' : symbols) : Prop :=
  sorted up y /\ sorted up y' /\ forall k, symbol_grown k (nget y k) (nget y' k).

Lemma symbol_congr k k' o o' : name_eqb up k k' = true -> symbol_grown k' o o' -> symbol_grown k o o'.
Proof.
  intros H. unfold symbol_grown. rewrite (among_congr k k' H). auto.
Qed.

Lemma ygrown_nil : ygrown [] [].
Proof. split; [constructor|]. split; [constructor|]. intros k. cbn. auto. Qed.

Lemma ygrown_put y y' k s s' : ygrown y y' -> symbol_grown k (Some s) (Some s') -> ygrown (nput y k s) (nput y' k s').
Proof.
  intros (S1 & S2 & H) Hs. split; [apply nput_sorted, S1|]. split; [apply nput_sorted, S2|]. intros j.
  rewrite !nget_nput by assumption. destruct (name_eqb up j k) eqn:E; [|apply H]. exact (symbol_congr _ _ _ _ E Hs).
Qed.

(** A symbol put in on the right only, under a new name that is no relation. *)
Lemma ygrown_right y y' k s' : ygrown y y' -> among k = true -> (forall m, s' <> SyRelation m) ->
  (forall m, nget y' k <> Some (SyRelation m)) -> ygrown y (nput y' k s').
Proof.
  intros (S1 & S2 & H) Hk Hs Hn. split; [exact S1|]. split; [apply nput_sorted, S2|]. intros j.
  rewrite nget_nput by assumption. destruct (name_eqb up j k) eqn:E; [|apply H].
  specialize (H j). rewrite (nget_congr up y' _ _ E) in H. pose proof (among_congr _ _ E) as A. unfold symbol_grown in *.
  destruct (nget y j) as [[t| |m]|], (nget y' k) as [[t'| |m']|], s' as [u| |w]; try contradiction; try congruence;
    try (exfalso; eapply Hn; reflexivity); try (exfalso; eapply Hs; reflexivity).
Qed.

Lemma add_attribute_new y y' a : ygrown y y' -> among (a_name a) = true -> ygrown y (add_attribute up y' a).
Proof.
  intros H F. unfold add_attribute.
  destruct (nget y' (a_name a)) as [[t'| |m']|] eqn:E2; try exact H;
    (apply ygrown_right; [exact H|exact F|discriminate|rewrite E2; discriminate]).
Qed.

Lemma symbol_sym k o o' : symbol_grown k o o' -> symbol_grown k o' o.
Proof.
  unfold symbol_grown. destruct o as [[t| |m]|], o' as [[t'| |m']|]; auto; intros H F; symmetry; auto.
Qed.

Lemma ygrown_sym y y' : ygrown y y' -> ygrown y' y.
Proof. intros (S1 & S2 & H). split; [exact S2|]. split; [exact S1|]. intros k. apply symbol_sym, H. Qed.

Lemma add_attribute_keep y y' a : ygrown y y' -> ygrown (add_attribute up y a) (add_attribute up y' a).
Proof.
  intros H. destruct (among (a_name a)) eqn:F.
  { apply add_attribute_new; [|exact F]. apply ygrown_sym, add_attribute_new; [|exact F]. apply ygrown_sym, H. }
  pose proof (proj2 (proj2 H) (a_name a)) as K. unfold add_attribute.
  destruct (nget y (a_name a)) as [[t| |m]|] eqn:E1, (nget y' (a_name a)) as [[t'| |m']|] eqn:E2; cbn in K; try contradiction; try exact H;
    try (specialize (K F); discriminate); try (apply ygrown_put; [exact H|cbn; reflexivity]).
Qed.

Lemma add_attributes l l' : more l l' -> forall y y', ygrown y y' ->
  ygrown (fold_left (add_attribute up) l y) (fold_left (add_attribute up) l' y').
Proof.
  induction 1 as [|a l l' H IH|a l l' Ha H IH]; intros y y' Hy; cbn [fold_left]; [exact Hy| |].
  - apply IH, add_attribute_keep, Hy.
  - apply IH, add_attribute_new; assumption.
Qed.

Lemma last_grown {V} (g : attribute -> V) l l' n : more l l' -> among n = false ->
  last_entry up (map (fun a => (a_name a, g a)) l) n = last_entry up (map (fun a => (a_name a, g a)) l') n.
Proof.
  intros H Hn. induction H as [|a l l' H IH|a l l' Ha H IH]; cbn [map last_entry]; [reflexivity|rewrite IH; reflexivity|].
  rewrite <- IH. destruct (last_entry up _ n); [reflexivity|]. destruct (name_eqb up n (a_name a)) eqn:E; [|reflexivity].
  rewrite (among_congr _ _ E) in Hn. congruence.
Qed.

Lemma add_relation_grown y y' n l l' : ygrown y y' -> more l l' ->
  esim ygrown (add_relation up y n l) (add_relation up y' n l').
Proof.
  intros Hy Hl. unfold add_relation. pose proof (add_attributes l l' Hl y y' Hy) as G.
  set (z := fold_left (add_attribute up) l y) in *. set (z' := fold_left (add_attribute up) l' y') in *.
  assert (M : forall k, symbol_grown k (Some (SyRelation (ncollect up (map (fun a => (a_name a, attr_type a)) l))))
                                       (Some (SyRelation (ncollect up (map (fun a => (a_name a, attr_type a)) l'))))).
  { intros k j Hj. rewrite !nget_ncollect. apply last_grown; assumption. }
  pose proof (proj2 (proj2 G) n) as K. revert K.
  destruct (nget z n) as [[t| |m]|], (nget z' n) as [[t'| |m']|]; cbn [symbol_grown]; try contradiction; intros _; try exact I;
    (apply ygrown_put; [exact G|apply M]).
Qed.

Lemma name_type_grown y y' q : ygrown y y' -> (forall p n, q = p ++ [n] -> among n = false) ->
  name_type up y q = name_type up y' q.
Proof.
  intros (_ & _ & H) Hq. destruct q as [|r [|n [|]]]; try reflexivity; cbn [name_type].
  - pose proof (H r) as K. specialize (Hq [] r eq_refl). unfold symbol_grown in K.
    destruct (nget y r) as [[t| |m]|], (nget y' r) as [[t'| |m']|]; try contradiction; try reflexivity; specialize (K Hq); congruence.
  - pose proof (H r) as K. specialize (Hq [r] n eq_refl). unfold symbol_grown in K.
    destruct (nget y r) as [[t| |m]|], (nget y' r) as [[t'| |m']|]; try contradiction; try reflexivity. rewrite (K n Hq). reflexivity.
Qed.

Section Contexts.
Variables (x x' : set_context) (L : list (list name)).
Hypothesis HT : forall q, In q L ->
  rsim (fun r r' => more (r_attrs r) (r_attrs r')) (resolve_table up x q) (resolve_table up x' q).

Definition GE e := spares (uses_expr e) -> incl (tables_expr e) L ->
  forall y y', ygrown y y' -> rsim eq (infer up x y e) (infer up x' y' e).
Definition GSP s := spares (uses_spec s) -> incl (tables_spec s) L ->
  forall y y', ygrown y y' -> rsim eq (infer_spec up x y s) (infer_spec up x' y' s).
Definition GS s := spares (uses_select s) -> incl (tables_select s) L ->
  rsim eq (infer_select up x s) (infer_select up x' s).
Definition GC c := spares (uses_cte c) -> incl (tables_cte c) L ->
  rsim eq (infer_cte up x c) (infer_cte up x' c).
Definition GX e := spares (uses_set e) -> incl (tables_set e) L ->
  rsim eq (infer_set up x e) (infer_set up x' e).
Definition GT t := spares (uses_from t) -> incl (tables_from t) L ->
  forall y y', ygrown y y' -> rsim (fun a b => ygrown (fst a) (fst b)) (infer_table up x y t) (infer_table up x' y' t).
Definition GR c := spares (uses_columns c) -> incl (tables_columns c) L ->
  forall y y' a a', ygrown y y' -> rsim eq (infer_columns up x y a c) (infer_columns up x' y' a' c).
Definition GK c := spares (uses_column c) -> incl (tables_column c) L ->
  forall y y' s, ygrown y y' -> rsim eq (infer_column up x y s c) (infer_column up x' y' s c).

Lemma spares_l a b : spares (a ++ b) -> spares a.
Proof. intros H. apply Forall_app in H. apply H. Qed.
Lemma spares_r a b : spares (a ++ b) -> spares b.
Proof. intros H. apply Forall_app in H. apply H. Qed.
Lemma spares_in {A} (f : A -> list use) l a : spares (flat_map f l) -> In a l -> spares (f a).
Proof. intros H Ha. unfold SqlGrowSpec.spares in *. rewrite Forall_forall in *. intros u Hu. apply H, in_flat_map. eauto. Qed.

Definition same_here (y y' : symbols) (e : expr) : Prop := infer up x y e = infer up x' y' e.

Lemma here_list es y y' : Forall GE es -> spares (flat_map uses_expr es) -> incl (flat_map tables_expr es) L ->
  ygrown y y' -> Forall (same_here y y') es.
Proof.
  intros H Hs HL Hy. rewrite Forall_forall in *. intros e He. apply rsim_eq_inv.
  apply (H e He); [exact (spares_in _ _ _ Hs He)|exact (incl_flat_map _ _ _ _ HL He)|exact Hy].
Qed.

Lemma collect_ext {A B} (f g : A -> res B) l : Forall (fun a => f a = g a) l -> collect f l = collect g l.
Proof. induction 1 as [|a l Ha Hl IH]; [reflexivity|]. cbn [collect]. rewrite Ha, IH. reflexivity. Qed.

Lemma fold_ext {S A} (f g : S -> A -> res S) l : Forall (fun a => forall s, f s a = g s a) l -> forall s, fold_err f s l = fold_err g s l.
Proof.
  induction 1 as [|a l Ha Hl IH]; intros s; [reflexivity|]. cbn [fold_err]. rewrite Ha.
  destruct (g s a) as [[t|e]| |]; cbn; auto.
Qed.

Lemma guards_ext (f g : expr -> res stype) ok ws : Forall (fun p => f (fst p) = g (fst p)) ws -> guards f ok ws = guards g ok ws.
Proof. induction 1 as [|[a b] l Ha Hl IH]; [reflexivity|]. cbn [guards fst] in *. rewrite Ha, IH. reflexivity. Qed.

Lemma bodies_ext (f g : expr -> res stype) ws : Forall (fun p => f (snd p) = g (snd p)) ws -> bodies f ws = bodies g ws.
Proof.
  assert (G : forall ws, Forall (fun p => f (snd p) = g (snd p)) ws -> forall acc, bodies_rest f acc ws = bodies_rest g acc ws).
  { induction 1 as [|[a b] l Ha Hl IH]; intros acc; [reflexivity|]. cbn [bodies_rest snd] in *. rewrite Ha.
    destruct (g b) as [[t|e]| |]; cbn; try reflexivity. destruct (case_step acc t) as [u|e]; cbn; auto. }
  intros [|[a b] l Ha Hl]; [reflexivity|]. cbn [bodies snd] in *. rewrite Ha. destruct (g b) as [[t|e]| |]; cbn; auto.
Qed.

Lemma members_ext (f g : expr -> res stype) es : Forall (fun e => f e = g e) es -> members f es = members g es.
Proof.
  assert (G : forall es, Forall (fun e => f e = g e) es -> forall acc, members_rest f acc es = members_rest g acc es).
  { induction 1 as [|a l Ha Hl IH]; intros acc; [reflexivity|]. cbn [members_rest] in *. rewrite Ha.
    destruct (g a) as [r| |]; cbn [bind]; auto. }
  intros [|a l Ha Hl]; [reflexivity|]. cbn [members] in *. rewrite Ha. destruct (g a) as [r| |]; cbn [bind]; auto.
Qed.

Lemma first_row_ext (f g : expr -> res stype) es : Forall (fun e => f e = g e) es -> forall n, first_row f n es = first_row g n es.
Proof.
  induction 1 as [|a l Ha Hl IH]; intros n; [reflexivity|]. cbn [first_row] in *. rewrite Ha, IH. reflexivity.
Qed.

Lemma next_row_ext (f g : expr -> res stype) es : Forall (fun e => f e = g e) es -> forall ts, next_row f ts es = next_row g ts es.
Proof.
  induction 1 as [|a l Ha Hl IH]; intros ts; [reflexivity|]. destruct ts as [|t ts]; cbn [next_row] in *; [reflexivity|].
  rewrite Ha, IH. reflexivity.
Qed.

Lemma values_ext (f g : expr -> res stype) rows : Forall (Forall (fun e => f e = g e)) rows -> values_type f rows = values_type g rows.
Proof.
  intros [|r rs Hr Hrs]; [reflexivity|]. cbn [values_type]. rewrite (first_row_ext f g r Hr).
  destruct (first_row g 0 r) as [[t|e]| |]; cbn; try reflexivity. rewrite (fold_ext (next_row f) (next_row g) rs); [reflexivity|].
  rewrite Forall_forall in *. intros r0 H0 s. apply next_row_ext, Hrs, H0.
Qed.

Lemma opt_here o y y' : if_some GE o -> spares match o with None => [] | Some e => uses_expr e end ->
  incl match o with None => [] | Some e => tables_expr e end L -> ygrown y y' -> if_some (same_here y y') o.
Proof.
  destruct o as [e|]; cbn [if_some]; auto. intros H Hs HL Hy. apply rsim_eq_inv, H; assumption.
Qed.

Lemma logical_here o y y' : if_some (same_here y y') o ->
  match o with None => ok tt | Some e => t <-? infer up x y e ;; pure (logical t) end =
  match o with None => ok tt | Some e => t <-? infer up x' y' e ;; pure (logical t) end.
Proof. destruct o as [e|]; cbn [if_some]; auto. intros ->. reflexivity. Qed.

Lemma grow_all :
  (forall e, GE e) /\ (forall s, GSP s) /\ (forall s, GS s) /\ (forall c, GC c) /\ (forall e, GX e) /\ (forall t, GT t) /\
  (forall c, GR c) /\ (forall c, GK c).
Proof.
  apply sql_induction.
  - intros l Hs HL y y' Hy. apply rsim_eq.
  - intros q Hs HL y y' Hy. cbn [infer]. rewrite (name_type_grown y y' q Hy); [apply rsim_eq|].
    inversion Hs; subst. assumption.
  - intros es H Hs HL y y' Hy. cbn [infer]. pose proof (here_list es y y' H Hs HL Hy) as G.
    rewrite (collect_ext (infer up x y) (infer up x' y') es G). apply rsim_eq.
  - intros s H Hs HL y y' Hy. cbn [infer]. apply (rsim_bind eq); [exact (H Hs HL)|]. intros r ? <-. apply rsim_eq.
  - intros op e H Hs HL y y' Hy. cbn [infer]. apply (rsim_bind eq); [exact (H Hs HL _ _ Hy)|]. intros t ? <-. apply rsim_eq.
  - intros op l r H1 H2 Hs HL y y' Hy. cbn [infer].
    apply (rsim_bind eq); [exact (H1 (spares_l _ _ Hs) (incl_app_l _ _ _ HL) _ _ Hy)|]. intros t ? <-.
    apply (rsim_bind eq); [exact (H2 (spares_r _ _ Hs) (incl_app_r _ _ _ HL) _ _ Hy)|]. intros t2 ? <-. apply rsim_eq.
  - intros op l r H1 H2 Hs HL y y' Hy. cbn [infer].
    apply (rsim_bind eq); [exact (H1 (spares_l _ _ Hs) (incl_app_l _ _ _ HL) _ _ Hy)|]. intros t ? <-.
    apply (rsim_bind eq); [exact (H2 (spares_r _ _ Hs) (incl_app_r _ _ _ HL) _ _ Hy)|]. intros t2 ? <-. apply rsim_eq.
  - intros e s H1 H2 Hs HL y y' Hy. cbn [infer].
    apply (rsim_bind eq); [exact (H1 (spares_l _ _ Hs) (incl_app_l _ _ _ HL) _ _ Hy)|]. intros t ? <-.
    apply (rsim_bind eq); [exact (H2 (spares_r _ _ Hs) (incl_app_r _ _ _ HL) _ _ Hy)|]. intros r ? <-. apply rsim_eq.
  - intros e lo hi H1 H2 H3 Hs HL y y' Hy. cbn [infer].
    apply (rsim_bind eq); [exact (H1 (spares_l _ _ Hs) (incl_app_l _ _ _ HL) _ _ Hy)|]. intros t ? <-.
    apply incl_app_r in HL. apply spares_r in Hs.
    apply (rsim_bind eq); [exact (H2 (spares_l _ _ Hs) (incl_app_l _ _ _ HL) _ _ Hy)|]. intros t2 ? <-.
    apply (rsim_bind eq); [exact (H3 (spares_r _ _ Hs) (incl_app_r _ _ _ HL) _ _ Hy)|]. intros t3 ? <-. apply rsim_eq.
  - intros o ws els Ho Hw He Hs HL y y' Hy. cbn [tables_expr uses_expr] in HL, Hs.
    pose proof (opt_here _ y y' Ho (spares_l _ _ Hs) (incl_app_l _ _ _ HL) Hy) as So. apply incl_app_r in HL. apply spares_r in Hs.
    pose proof (opt_here _ y y' He (spares_r _ _ Hs) (incl_app_r _ _ _ HL) Hy) as Se. apply incl_app_l in HL. apply spares_l in Hs.
    assert (Sw : Forall (fun p => same_here y y' (fst p) /\ same_here y y' (snd p)) ws).
    { rewrite Forall_forall in *. intros p Hp. destruct (Hw p Hp) as [K1 K2].
      pose proof (spares_in _ _ _ Hs Hp) as Sp. pose proof (incl_flat_map _ _ _ _ HL Hp) as Lp.
      split; apply rsim_eq_inv; [apply K1|apply K2]; try exact Hy.
      - exact (spares_l _ _ Sp).
      - exact (incl_app_l _ _ _ Lp).
      - exact (spares_r _ _ Sp).
      - exact (incl_app_r _ _ _ Lp). }
    assert (Sf : Forall (fun p => infer up x y (fst p) = infer up x' y' (fst p)) ws) by (eapply Forall_impl; [|exact Sw]; intros p Hp; apply Hp).
    assert (Sb : Forall (fun p => infer up x y (snd p) = infer up x' y' (snd p)) ws) by (eapply Forall_impl; [|exact Sw]; intros p Hp; apply Hp).
    assert (Sl : match els with None => None | Some e => Some (infer up x y e) end =
                 match els with None => None | Some e => Some (infer up x' y' e) end).
    { destruct els; cbn in *; [rewrite Se|]; reflexivity. }
    destruct o as [c|]; cbn [if_some] in So; cbn [infer]; rewrite Sl; [rewrite So|].
    + apply (rsim_bind eq); [apply rsim_eq|]. intros t ? <-.
      rewrite (guards_ext _ _ _ _ Sf), (bodies_ext _ _ _ Sb). apply rsim_eq.
    + rewrite (guards_ext _ _ _ _ Sf), (bodies_ext _ _ _ Sb). apply rsim_eq.
  - intros s H Hs HL y y' Hy. exact (H Hs HL).
  - intros es H Hs HL y y' Hy. cbn [infer_spec]. pose proof (here_list es y y' H Hs HL Hy) as G.
    apply (rsim_bind eq); [|intros t ? <-; apply rsim_eq].
    apply rsim_of_eq. exact (members_ext (infer up x y) (infer up x' y') es G).
  - intros q Hs. inversion Hs; subst. contradiction.
  - intros common e order lim Hc He Ho Hl Hs HL. cbn [infer_select].
    cbn [tables_select uses_select] in HL, Hs.
    pose proof (incl_app_l _ _ _ HL) as L1. apply incl_app_r in HL. pose proof (spares_l _ _ Hs) as S1. apply spares_r in Hs.
    pose proof (incl_app_l _ _ _ HL) as L2. apply incl_app_r in HL. pose proof (spares_l _ _ Hs) as S2. apply spares_r in Hs.
    pose proof (incl_app_l _ _ _ HL) as L3. apply incl_app_r in HL. pose proof (spares_l _ _ Hs) as S3. apply spares_r in Hs.
    apply (rsim_bind ygrown).
    { assert (E : Forall2 eq common common) by (clear; induction common; constructor; auto).
      apply (fold_err_sim ygrown eq _ _ _ _ E); [|apply ygrown_nil].
      intros y y' c ? Hin Hy <-. rewrite Forall_forall in Hc.
      apply (rsim_bind eq); [apply (Hc c Hin (spares_in _ _ _ S1 Hin) (incl_flat_map _ _ _ _ L1 Hin))|]. intros t ? <-.
      apply rsim_pure, add_relation_grown; [exact Hy|]. clear. induction (r_attrs t); constructor; assumption. }
    intros y y' Hy. apply (rsim_bind eq); [exact (He S2 L2)|]. intros t ? <-. apply (rsim_bind eq).
    { apply rsim_of_eq, fold_ext. rewrite Forall_forall in *. intros o Hin []. apply rsim_eq_inv.
      apply (rsim_bind eq); [exact (Ho o Hin (spares_in _ _ _ S3 Hin) (incl_flat_map _ _ _ _ L3 Hin) _ _ Hy)|].
      intros u ? <-. apply rsim_eq. }
    intros _ _ _. destruct lim as [[rows off]|]; [|apply rsim_eq]. cbn [if_some fst snd] in *. destruct Hl as [Hl1 Hl2].
    apply (rsim_bind eq); [exact (Hl1 (spares_l _ _ Hs) (incl_app_l _ _ _ HL) _ _ ygrown_nil)|]. intros n ? <-.
    apply (rsim_bind eq); [apply rsim_eq|]. intros _ _ _.
    pose proof (opt_here _ [] [] Hl2 (spares_r _ _ Hs) (incl_app_r _ _ _ HL) ygrown_nil) as So.
    destruct off as [o|]; cbn [if_some] in So; [|apply rsim_eq].
    apply (rsim_bind eq); [exact (rsim_of_eq _ _ So)|]. intros m ? <-. apply rsim_eq.
  - intros id columns q H Hs HL. cbn [infer_cte]. apply (rsim_bind eq); [exact (H Hs HL)|]. intros t ? <-. apply rsim_eq.
  - intros rows H Hs HL. cbn [infer_set]. apply rsim_of_eq, (values_ext (infer up x []) (infer up x' []) rows).
    rewrite Forall_forall in *. intros r Hr. apply here_list; [exact (H r Hr)|exact (spares_in _ _ _ Hs Hr)|exact (incl_flat_map _ _ _ _ HL Hr)|apply ygrown_nil].
  - intros mode columns from wh group Hc Hf Hw Hg Hs HL. cbn [infer_set].
    cbn [tables_set uses_set] in HL, Hs.
    pose proof (incl_app_l _ _ _ HL) as L1. apply incl_app_r in HL. pose proof (spares_l _ _ Hs) as S1. apply spares_r in Hs.
    pose proof (incl_app_l _ _ _ HL) as L2. apply incl_app_r in HL. pose proof (spares_l _ _ Hs) as S2. apply spares_r in Hs.
    pose proof (incl_app_l _ _ _ HL) as L3. apply incl_app_r in HL. pose proof (spares_l _ _ Hs) as S3. apply spares_r in Hs.
    apply (rsim_bind (fun a b => ygrown (fst a) (fst b))).
    { assert (E : Forall2 eq from from) by (clear; induction from; constructor; auto).
      apply (fold_err_sim _ eq _ _ _ _ E); [|apply ygrown_nil].
      intros [y l] [y' l'] t ? Hin Hy <-. cbn [fst snd] in Hy. rewrite Forall_forall in Hf.
      apply (rsim_bind _ _ _ _ _ _ (Hf t Hin (spares_in _ _ _ S2 Hin) (incl_flat_map _ _ _ _ L2 Hin) y y' Hy)).
      intros [y1 l1] [y1' l1'] Hy1. exact Hy1. }
    intros [y l] [y' l'] Hy. cbn [fst snd] in Hy.
    apply (rsim_bind eq); [exact (rsim_of_eq _ _ (logical_here wh y y' (opt_here wh y y' Hw S3 L3 Hy)))|]. intros _ _ _.
    apply (rsim_bind eq); [|intros _ _ _; apply Hc; assumption].
    destruct group as [[gs having]|]; [|apply rsim_eq]. destruct Hg as [Hg1 Hg2]. cbn [fst snd] in *.
    apply (rsim_bind eq).
    { apply rsim_of_eq, fold_ext.
      pose proof (here_list gs y y' Hg1 (spares_l _ _ Hs) (incl_app_l _ _ _ HL) Hy) as G.
      eapply Forall_impl; [|exact G]. intros e K []. apply rsim_eq_inv.
      apply (rsim_bind eq); [exact (rsim_of_eq _ _ K)|]. intros; reflexivity. }
    intros _ _ _. exact (rsim_of_eq _ _ (logical_here having y y' (opt_here having y y' Hg2 (spares_r _ _ Hs) (incl_app_r _ _ _ HL) Hy))).
  - intros op l r H1 H2 Hs HL. cbn [infer_set].
    apply (rsim_bind eq); [exact (H1 (spares_l _ _ Hs) (incl_app_l _ _ _ HL))|]. intros t1 ? <-.
    apply (rsim_bind eq); [exact (H2 (spares_r _ _ Hs) (incl_app_r _ _ _ HL))|]. intros t2 ? <-. apply rsim_eq.
  - intros q alias Hs HL y y' Hy. cbn [infer_table].
    apply (rsim_bind _ _ _ _ _ _ (HT q (HL q (or_introl eq_refl)))). intros r r' Hr.
    apply (osim_bind eq); [destruct alias; [reflexivity|destruct (last_name q); cbn; auto]|]. intros n ? <-.
    apply (rsim_bind ygrown); [apply rsim_pure, add_relation_grown; assumption|]. intros y1 y1' Hy1. exact Hy1.
  - intros s alias H Hs HL y y' Hy. cbn [infer_table]. apply (rsim_bind eq); [exact (H Hs HL)|]. intros r ? <-. exact Hy.
  - intros l r op c H1 H2 _ Hs HL y y' Hy. cbn [infer_table].
    apply (rsim_bind _ _ _ _ _ _ (H1 (spares_l _ _ Hs) (incl_app_l _ _ _ HL) _ _ Hy)). intros [y1 a1] [y1' a1'] Hy1.
    apply (rsim_bind _ _ _ _ _ _ (H2 (spares_r _ _ Hs) (incl_app_r _ _ _ HL) _ _ Hy1)). intros [y2 a2] [y2' a2'] Hy2.
    exact Hy2.
  - intros Hs. inversion Hs; subst. contradiction.
  - intros l H Hs HL y y' a a' Hy. cbn [infer_columns].
    apply (rsim_bind eq); [|intros w ? <-; apply rsim_eq]. apply rsim_of_eq, fold_ext.
    rewrite Forall_forall in *. intros c Hin st. apply rsim_eq_inv. exact (H c Hin (spares_in _ _ _ Hs Hin) (incl_flat_map _ _ _ _ HL Hin) _ _ _ Hy).
  - intros n Hs. inversion Hs; subst. contradiction.
  - intros e rename H Hs HL y y' s Hy. cbn [infer_column].
    apply (rsim_bind eq); [exact (H Hs HL _ _ Hy)|]. intros t ? <-. apply rsim_eq.
Qed.

Lemma expr_grow e y y' : spares (uses_expr e) -> incl (tables_expr e) L -> ygrown y y' -> infer up x y e = infer up x' y' e.
Proof. intros Hs HL Hy. apply rsim_eq_inv. apply grow_all; assumption. Qed.

Lemma select_grow s : spares (uses_select s) -> incl (tables_select s) L -> infer_select up x s = infer_select up x' s.
Proof. intros Hs HL. apply rsim_eq_inv. apply grow_all; assumption. Qed.

Lemma set_grow s : spares (uses_set s) -> incl (tables_set s) L -> infer_set up x s = infer_set up x' s.
Proof. intros Hs HL. apply rsim_eq_inv. apply grow_all; assumption. Qed.

Lemma where_grow o y y' : spares (uses_where o) -> incl (tables_where o) L -> ygrown y y' ->
  match o with None => ok tt | Some e => t <-? infer up x y e ;; pure (logical t) end =
  match o with None => ok tt | Some e => t <-? infer up x' y' e ;; pure (logical t) end.
Proof. intros Hs HL Hy. destruct o as [e|]; [|reflexivity]. rewrite (expr_grow e y y' Hs HL Hy). reflexivity. Qed.

Lemma delete_grow d : spares (uses_where (d_where d)) -> incl (d_table d :: tables_where (d_where d)) L ->
  rsim eq (validate_delete up x d) (validate_delete up x' d).
Proof.
  intros Hs HL. unfold validate_delete.
  apply (rsim_bind _ _ _ _ _ _ (HT (d_table d) (HL _ (or_introl eq_refl)))). intros t t' Ht.
  apply (osim_bind eq); [destruct (last_name (d_table d)); cbn; auto|]. intros n ? <-.
  apply (rsim_bind ygrown); [apply rsim_pure, add_relation_grown; [apply ygrown_nil|exact Ht]|]. intros y y' Hy.
  rewrite (where_grow (d_where d) y y'); [apply rsim_eq|exact Hs| |exact Hy]. intros q Hq. apply HL. right. exact Hq.
Qed.

Lemma row_map_grown t t' n : more (r_attrs t) (r_attrs t') -> among n = false ->
  nget (row_type_map up t) n = nget (row_type_map up t') n.
Proof. intros H Hn. unfold row_type_map. rewrite !nget_ncollect. apply (last_grown (fun a => (a_type a, a_null a))); assumption. Qed.

Lemma update_grow u : spares (flat_map (fun a => map (fun n => UseColumn [n]) (fst a) ++ uses_expr (snd a)) (u_assignments u) ++ uses_where (u_where u)) ->
  incl (u_table u :: flat_map (fun a => tables_expr (snd a)) (u_assignments u) ++ tables_where (u_where u)) L ->
  rsim eq (validate_update up x u) (validate_update up x' u).
Proof.
  intros Hs HL. unfold validate_update.
  assert (HL' : incl (flat_map (fun a => tables_expr (snd a)) (u_assignments u) ++ tables_where (u_where u)) L)
    by (intros q Hq; apply HL; right; exact Hq).
  apply (rsim_bind _ _ _ _ _ _ (HT (u_table u) (HL _ (or_introl eq_refl)))). intros t t' Ht.
  apply (osim_bind eq); [destruct (last_name (u_table u)); cbn; auto|]. intros n ? <-.
  apply (rsim_bind ygrown); [apply rsim_pure, add_relation_grown; [apply ygrown_nil|exact Ht]|]. intros y y' Hy.
  rewrite (where_grow (u_where u) y y' (spares_r _ _ Hs) (incl_app_r _ _ _ HL') Hy).
  rewrite (fold_ext _ (fun assigned a => st <-? infer up x' y' (snd a) ;; '(d, n) <-? pure (scalar st) ;;
     fold_err (fun assigned c => pure (assign_column up (row_type_map up t') d n assigned c)) assigned (fst a)) (u_assignments u)); [apply rsim_eq|].
  apply spares_l in Hs. apply incl_app_l in HL'. rewrite Forall_forall. intros a Ha g. pose proof (spares_in _ _ _ Hs Ha) as Sa.
  rewrite (expr_grow (snd a) y y' (spares_r _ _ Sa) (incl_flat_map _ _ _ _ HL' Ha) Hy).
  destruct (infer up x' y' (snd a)) as [[st|e]| |]; cbn [rbind bind]; try reflexivity. destruct (scalar st) as [[d b]|e]; cbn [rbind bind pure]; try reflexivity.
  apply fold_ext. apply spares_l in Sa. unfold SqlGrowSpec.spares in Sa. rewrite Forall_forall in *. intros c Hc s0.
  unfold assign_column. rewrite (row_map_grown t t' c Ht); [reflexivity|].
  exact (Sa (UseColumn [c]) (in_map _ _ _ Hc) [] c eq_refl).
Qed.

(** The columns of the target that have no value yet. *)
Definition left_over (m m' : nmap (data_type * bool)) : Prop :=
  sorted up m /\ sorted up m' /\ (forall k, among k = false -> nget m k = nget m' k) /\
  (forall k, among k = true -> nget m k = None) /\
  (forall k t b, among k = true -> nget m' k = Some (t, b) -> b = true).

Lemma insert_column_left m m' a n : left_over m m' -> among n = false ->
  esim left_over (insert_column up m a n) (insert_column up m' a n).
Proof.
  intros (S1 & S2 & H1 & H2 & H3) Hn. unfold insert_column. rewrite (H1 n Hn). destruct (nget m' n) as [[t b]|]; [|exact I].
  destruct (_ || _); [exact I|]. cbn [esim].
  split; [apply nremove_sorted, S1|]. split; [apply nremove_sorted, S2|]. split; [|split].
  - intros k Hk. rewrite !nget_nremove by assumption. rewrite (H1 k Hk). reflexivity.
  - intros k Hk. rewrite nget_nremove by assumption. rewrite (H2 k Hk). destruct (name_eqb up k n); reflexivity.
  - intros k u v Hk. rewrite nget_nremove by assumption. destruct (name_eqb up k n); [discriminate|]. apply H3, Hk.
Qed.

Lemma insert_column_new m m' a n : left_over m m' -> among n = true -> insert_column up m a n = Err tt.
Proof. intros (_ & _ & _ & H2 & _) Hn. unfold insert_column. rewrite (H2 n Hn). reflexivity. Qed.

Lemma left_over_null m m' : left_over m m' ->
  existsb (fun e => negb (snd (snd e))) m = existsb (fun e => negb (snd (snd e))) m'.
Proof.
  intros (S1 & S2 & H1 & H2 & H3).
  assert (K : forall k t b, In (k, (t, b)) m -> among k = false /\ exists k', In (k', (t, b)) m').
  { intros k t b Hin. assert (E : nget m k = Some (t, b)) by (apply (nget_in up); [exact S1|exists k; split; [exact Hin|apply name_eqb_refl]]).
    destruct (among k) eqn:F; [rewrite (H2 k F) in E; discriminate|]. split; [reflexivity|].
    rewrite (H1 k F) in E. apply (nget_in up) in E; [|exact S2]. destruct E as (k' & E & _). eauto. }
  assert (K' : forall k t b, In (k, (t, b)) m' -> b = false -> exists k', In (k', (t, b)) m).
  { intros k t b Hin ->. assert (E : nget m' k = Some (t, false)) by (apply (nget_in up); [exact S2|exists k; split; [exact Hin|apply name_eqb_refl]]).
    destruct (among k) eqn:F; [specialize (H3 k t false F E); discriminate|].
    rewrite <- (H1 k F) in E. apply (nget_in up) in E; [|exact S1]. destruct E as (k' & E & _). eauto. }
  apply eq_true_iff_eq. rewrite !existsb_exists. split.
  - intros ((k & t & b) & Hin & Hb). destruct (K k t b Hin) as (_ & k' & Hin'). exists (k', (t, b)). auto.
  - intros ((k & t & b) & Hin & Hb). cbn in Hb. destruct b; [discriminate|]. destruct (K' k t false Hin eq_refl) as (k' & Hin').
    exists (k', (t, false)). auto.
Qed.

Lemma left_over_start t t' : more (r_attrs t) (r_attrs t') -> Forall (fun a => among (a_name a) = false) (r_attrs t) ->
  Forall (fun a => among (a_name a) = true -> a_null a = true) (r_attrs t') -> left_over (row_type_map up t) (row_type_map up t').
Proof.
  intros H Ho Hn. unfold row_type_map. split; [apply ncollect_sorted|]. split; [apply ncollect_sorted|].
  assert (L1 : forall (l : list attribute) k v, last_entry up (map (fun a => (a_name a, (a_type a, a_null a))) l) k = Some v ->
     exists a, In a l /\ name_eqb up k (a_name a) = true /\ v = (a_type a, a_null a)).
  { induction l as [|a l IH]; intros k v; cbn [map last_entry]; [discriminate|].
    destruct (last_entry up _ k) as [w|] eqn:E.
    - intros [= <-]. destruct (IH _ _ E) as (b & B1 & B2 & B3). exists b. split; [right; exact B1|]. auto.
    - destruct (name_eqb up k (a_name a)) eqn:F; [|discriminate]. intros [= <-]. exists a. split; [left; reflexivity|]. auto. }
  split; [intros k Hk; exact (row_map_grown t t' k H Hk)|]. split.
  - intros k Hk. rewrite nget_ncollect. destruct (last_entry up _ k) eqn:E; [|reflexivity].
    destruct (L1 _ _ _ E) as (a & Ha & Hk' & _). rewrite Forall_forall in Ho. specialize (Ho a Ha).
    rewrite (among_congr _ _ Hk') in Hk. congruence.
  - intros k d b Hk E. rewrite nget_ncollect in E. destruct (L1 _ _ _ E) as (a & Ha & Hk' & [= -> ->]).
    rewrite Forall_forall in Hn. apply (Hn a Ha). rewrite <- (among_congr _ _ Hk'). exact Hk.
Qed.

(** What an INSERT needs of its target. *)
Definition target_fits (q : list name) : Prop := forall t t', resolve_table up x q = ok t -> resolve_table up x' q = ok t' ->
  r_attrs t' = r_attrs t \/
  Forall (fun a => among (a_name a) = false) (r_attrs t) /\ Forall (fun a => among (a_name a) = true -> a_null a = true) (r_attrs t').

Lemma insert_grow i l : i_columns i = Some l -> spares (map (fun n => UseColumn [n]) l) -> spares (uses_set (i_source i)) ->
  incl (i_table i :: tables_set (i_source i)) L -> target_fits (i_table i) ->
  rsim eq (validate_insert up x i) (validate_insert up x' i).
Proof.
  intros Hl Hc Hs HL HF. unfold validate_insert. rewrite Hl.
  rewrite (set_grow (i_source i) Hs (fun q Hq => HL q (or_intror Hq))).
  pose proof (HT (i_table i) (HL _ (or_introl eq_refl))) as K. unfold target_fits in HF.
  destruct (resolve_table up x (i_table i)) as [[t|e]| |], (resolve_table up x' (i_table i)) as [[t'|e']| |]; try contradiction; try exact I.
  cbn [rsim osim esim] in K. cbn [rbind bind]. specialize (HF t t' eq_refl eq_refl).
  apply (rsim_bind eq); [apply rsim_eq|]. intros v ? <-.
  destruct HF as [E|[F1 F2]]; [unfold row_type_map; rewrite E; apply rsim_eq|].
  destruct (negb _); [exact I|].
  apply (rsim_bind left_over).
  - assert (E : Forall2 eq (combine (r_attrs v) l) (combine (r_attrs v) l)) by (induction (combine (r_attrs v) l); constructor; auto).
    apply (fold_err_sim left_over eq _ _ _ _ E); [|apply left_over_start; assumption].
    intros m m' [a n] ? Hin Hm <-. apply rsim_pure, insert_column_left; [exact Hm|]. cbn [snd].
    unfold SqlGrowSpec.spares in Hc. rewrite Forall_forall in Hc.
    exact (Hc (UseColumn [n]) (in_map (fun n => UseColumn [n]) _ _ (in_combine_r _ _ _ _ Hin)) [] n eq_refl).
  - intros m m' Hm. rewrite (left_over_null m m' Hm). apply rsim_eq.
Qed.

Lemma insert_grow_ok i : spares (map (fun n => UseColumn [n]) match i_columns i with None => [] | Some l => l end) ->
  spares (uses_set (i_source i)) ->
  incl (i_table i :: tables_set (i_source i)) L -> target_fits (i_table i) ->
  validate_insert up x i = ok tt -> validate_insert up x' i = ok tt.
Proof.
  intros Hc Hs HL HF. destruct (i_columns i) as [l|] eqn:Ec.
  { intros H. rewrite <- H. symmetry. apply rsim_eq_inv. exact (insert_grow i l Ec Hc Hs HL HF). }
  unfold validate_insert. rewrite Ec.
  rewrite (set_grow (i_source i) Hs (fun q Hq => HL q (or_intror Hq))).
  pose proof (HT (i_table i) (HL _ (or_introl eq_refl))) as K. unfold target_fits in HF.
  destruct (resolve_table up x (i_table i)) as [[t|e]| |], (resolve_table up x' (i_table i)) as [[t'|e']| |]; try contradiction; try discriminate.
  cbn [rsim osim esim] in K. cbn [rbind bind]. specialize (HF t t' eq_refl eq_refl).
  destruct (infer_set up x' (i_source i)) as [[v|e]| |]; cbn [rbind bind]; try discriminate.
  destruct HF as [E|[F1 F2]]; [unfold row_type_map; rewrite E; auto|].
  assert (G : forall l m m', left_over m m' -> forall r, fold_err (fun m a => pure (insert_column up m a (a_name a))) m l = ok r ->
    exists r', fold_err (fun m a => pure (insert_column up m a (a_name a))) m' l = ok r' /\ left_over r r').
  { induction l as [|a l IH]; intros m m' Hm r; cbn [fold_err].
    - intros [= <-]. exists m'. auto.
    - destruct (among (a_name a)) eqn:F; [rewrite (insert_column_new m m' a _ Hm F); discriminate|].
      pose proof (insert_column_left m m' a _ Hm F) as J. destruct (insert_column up m a (a_name a)) as [w|], (insert_column up m' a (a_name a)) as [w'|];
        cbn [esim] in J; try contradiction; cbn [pure rbind bind]; try discriminate. apply IH, J. }
  destruct (fold_err (fun m a => pure (insert_column up m a (a_name a))) (row_type_map up t) (r_attrs v)) as [[r|e]| |] eqn:Er; cbn [rbind bind]; try discriminate.
  destruct (G _ _ _ (left_over_start t t' K F1 F2) _ Er) as (r' & -> & Hr). cbn [rbind bind ok pure].
  rewrite (left_over_null r r' Hr). auto.
Qed.
End Contexts.

(** ** Databases *)

Lemma last_entry_rel {V W} (R : V -> W -> Prop) l l' k : Forall2 (fun e e' => fst e' = fst e /\ R (snd e) (snd e')) l l' ->
  optsim R (last_entry up l k) (last_entry up l' k).
Proof.
  induction 1 as [|[a v] [b w] l l' [E H] Hl IH]; [exact I|]. cbn [fst snd] in *. subst b. cbn [last_entry].
  destruct (last_entry up l k), (last_entry up l' k); cbn [optsim] in *; try contradiction; auto.
  destruct (name_eqb up k a); cbn [optsim]; auto.
Qed.

Lemma resolve_rel (R : row_type -> row_type -> Prop) db db' d q :
  Forall2 (fun e e' => fst e' = fst e /\ Forall2 (fun o o' => fst o' = fst o /\
    R (row_of_set (object_rows (snd o))) (row_of_set (object_rows (snd o')))) (s_objects (snd e)) (s_objects (snd e'))) db db' ->
  rsim R (resolve_table up (set_context_new up db d) q) (resolve_table up (set_context_new up db' d) q).
Proof.
  intros H.
  assert (N : forall k, optsim (fun s s' => forall n, optsim R (nget s n) (nget s' n)) (nget (namespaces_of up db) k) (nget (namespaces_of up db') k)).
  { intros k. unfold namespaces_of. rewrite !nget_ncollect. apply last_entry_rel.
    induction H as [|[a s] [b s'] l l' [E Hs] Hl IH]; cbn [map]; constructor; [|exact IH]. cbn [fst snd] in *. split; [exact E|].
    intros n. unfold object_types. rewrite !nget_ncollect. apply last_entry_rel. clear -Hs.
    induction Hs as [|[a o] [b o'] l l' [E Ho] Hl IH]; cbn [map]; constructor; [|exact IH]. cbn [fst snd] in *. auto. }
  destruct q as [|a [|b [|]]]; cbn [resolve_table set_context_new x_tables x_namespaces x_default SqlNameModel.nget]; try exact I.
  - specialize (N d). destruct (nget (namespaces_of up db) d) as [s|], (nget (namespaces_of up db') d) as [s'|]; cbn [optsim] in N; try contradiction; [|exact I].
    specialize (N a). destruct (nget s a), (nget s' a); cbn [optsim] in N; try contradiction; [exact N|exact I].
  - specialize (N a). destruct (nget (namespaces_of up db) a) as [s|], (nget (namespaces_of up db') a) as [s'|]; cbn [optsim] in N; try contradiction; [|exact I].
    specialize (N b). destruct (nget s b), (nget s' b); cbn [optsim] in N; try contradiction; [exact N|exact I].
Qed.

Lemma added_resolve db db' d q : columns_added up names db db' ->
  rsim (fun r r' => more (r_attrs r) (r_attrs r')) (resolve_table up (set_context_new up db d) q) (resolve_table up (set_context_new up db' d) q).
Proof.
  intros H. apply (resolve_rel (fun r r' => more (r_attrs r) (r_attrs r'))).
  induction H as [|e e' l l' [E Hs] Hl IH]; constructor; [|exact IH]. split; [exact E|]. clear -Hs.
  induction Hs as [|o o' l l' [E Ho] Hl IH]; constructor; [|exact IH]. split; [exact E|].
  cbn [row_of_set r_attrs]. eapply grown_map; [|exact Ho]. cbn. auto.
Qed.

Lemma null_added_added db db' : null_columns_added up names db db' -> columns_added up names db db'.
Proof.
  induction 1 as [|e e' l l' [E Hs] Hl IH]; constructor; [|exact IH]. split; [exact E|]. clear -Hs.
  induction Hs as [|o o' l l' (E & Ho & _) Hl IH]; constructor; [|exact IH]. split; [exact E|].
  eapply grown_impl; [|exact Ho]. cbn. intros a [Ha _]. exact Ha.
Qed.

Lemma null_added_fits db db' d q : null_columns_added up names db db' ->
  target_fits (set_context_new up db d) (set_context_new up db' d) q.
Proof.
  intros H. assert (K : rsim (fun t t' => r_attrs t' = r_attrs t \/
    Forall (fun a => among (a_name a) = false) (r_attrs t) /\ Forall (fun a => among (a_name a) = true -> a_null a = true) (r_attrs t'))
    (resolve_table up (set_context_new up db d) q) (resolve_table up (set_context_new up db' d) q)).
  { apply (resolve_rel (fun t t' => r_attrs t' = r_attrs t \/
      Forall (fun a => among (a_name a) = false) (r_attrs t) /\ Forall (fun a => among (a_name a) = true -> a_null a = true) (r_attrs t'))).
    induction H as [|e e' l l' [E Hs] Hl IH]; constructor; [|exact IH]. split; [exact E|]. clear -Hs.
    induction Hs as [|o o' l l' (E & Ho & Hd) Hl IH]; constructor; [|exact IH]. split; [exact E|]. cbn [row_of_set r_attrs].
    destruct Hd as [->|Hd]; [left; reflexivity|right]. rewrite !Forall_map. cbn [a_name a_null]. split; [exact Hd|].
    revert Hd. clear - Ho. induction Ho as [|c l l' Ho IH|c l l' [Hc Hn] Ho IH]; intros Hd; [constructor| |].
    - inversion Hd as [|? ? H1 H2]; subst. constructor; [intros F; congruence|apply IH, H2].
    - constructor; [intros _; rewrite Hn; reflexivity|apply IH, Hd]. }
  intros t t' E1 E2. rewrite E1, E2 in K. exact K.
Qed.

Lemma validate_grow db db' d s : columns_added up names db db' -> insert_of s = None -> spares (uses_of s) ->
  validate up (set_context_new up db d) s = validate up (set_context_new up db' d) s.
Proof.
  intros H Hi Hs. pose proof (fun q (_ : In q (tables_of s)) => added_resolve db db' d q H) as HT.
  set (x := set_context_new up db d) in *. set (x' := set_context_new up db' d) in *. apply rsim_eq_inv.
  assert (G : forall st, match st with StInsert _ => False | _ => True end -> spares (uses_of (SqlStatement st)) -> tables_of s = tables_of (SqlStatement st) ->
    rsim eq (validate_statement up x st) (validate_statement up x' st)).
  { intros [q|i|dl|u] Hn Hu Ht; cbn [validate_statement]; cbn [uses_of] in Hu; [|contradiction|..].
    - rewrite (select_grow x x' _ HT q Hu); [apply rsim_eq|]. rewrite Ht. apply incl_refl.
    - apply (delete_grow x x' _ HT dl Hu). rewrite Ht. apply incl_refl.
    - apply (update_grow x x' _ HT u Hu). rewrite Ht. apply incl_refl. }
  destruct s as [st|st|q p|q]; cbn [validate].
  - apply G; [destruct st; auto; discriminate|exact Hs|reflexivity].
  - apply G; [destruct st; auto; discriminate|exact Hs|reflexivity].
  - apply rsim_eq.
  - apply (rsim_bind _ _ _ _ _ _ (HT q (or_introl eq_refl))). intros. reflexivity.
Qed.

Lemma query_grow db db' d s : columns_added up names db db' -> spares (uses_select s) ->
  infer_select up (set_context_new up db d) s = infer_select up (set_context_new up db' d) s.
Proof.
  intros H Hs. apply (select_grow _ _ (tables_select s)); [|exact Hs|apply incl_refl]. intros q _. apply added_resolve, H.
Qed.

Lemma validate_insert_grow db db' d s i l : null_columns_added up names db db' -> insert_of s = Some i -> i_columns i = Some l ->
  spares (uses_of s) -> validate up (set_context_new up db d) s = validate up (set_context_new up db' d) s.
Proof.
  intros H Hi Hl Hs. apply rsim_eq_inv.
  assert (G : rsim eq (validate_insert up (set_context_new up db d) i) (validate_insert up (set_context_new up db' d) i)).
  { assert (U : uses_of s = map (fun n => UseColumn [n]) l ++ uses_set (i_source i)).
    { destruct s as [[]|[]| |]; cbn [insert_of] in Hi; try discriminate; injection Hi as ->; cbn [uses_of]; rewrite Hl; reflexivity. }
    rewrite U in Hs. apply (insert_grow _ _ (i_table i :: tables_set (i_source i))) with (l := l); auto.
    - intros q _. apply added_resolve, null_added_added, H.
    - exact (spares_l _ _ Hs).
    - exact (spares_r _ _ Hs).
    - apply incl_refl.
    - apply null_added_fits, H. }
  destruct s as [[]|[]| |]; cbn [insert_of] in Hi; try discriminate; injection Hi as ->; exact G.
Qed.

Lemma validate_ok_grow db db' d s : null_columns_added up names db db' -> spares (uses_of s) ->
  validate up (set_context_new up db d) s = ok tt -> validate up (set_context_new up db' d) s = ok tt.
Proof.
  intros H Hs Hv. destruct (insert_of s) as [i|] eqn:Hi.
  - assert (G : validate_insert up (set_context_new up db d) i = ok tt -> validate_insert up (set_context_new up db' d) i = ok tt).
    { assert (U : uses_of s = map (fun n => UseColumn [n]) match i_columns i with None => [] | Some l => l end ++ uses_set (i_source i)).
      { destruct s as [[]|[]| |]; cbn [insert_of] in Hi; try discriminate; injection Hi as ->; reflexivity. }
      rewrite U in Hs. apply (insert_grow_ok _ _ (i_table i :: tables_set (i_source i))); auto.
      - intros q _. apply added_resolve, null_added_added, H.
      - exact (spares_l _ _ Hs).
      - exact (spares_r _ _ Hs).
      - apply incl_refl.
      - apply null_added_fits, H. }
    destruct s as [[]|[]| |]; cbn [insert_of] in Hi; try discriminate; injection Hi as ->; exact (G Hv).
  - rewrite <- Hv. symmetry. apply validate_grow; [apply null_added_added, H|exact Hi|exact Hs].
Qed.
End Grow.

(** [spares] can be computed. *)
Lemma spares_check up names us :
  forallb (fun u => match u with
                    | UseColumn q => match rev q with n :: _ => negb (among up names n) | [] => true end
                    | UseAll | UseTable _ => false
                    end) us = true -> spares up names us.
Proof.
  intros H. unfold spares. rewrite Forall_forall. rewrite forallb_forall in H. intros u Hu. specialize (H u Hu).
  destruct u as [q| |q]; try discriminate. intros p n ->. rewrite rev_app_distr in H. cbn in H. destruct (among up names n); [discriminate|reflexivity].
Qed.
