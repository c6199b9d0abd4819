(** * Validation depends neither on the spelling of names nor on tables that are not mentioned *)

From Coq Require Import Strings.String.
From Verif Require Import Base StrModel SqlNameModel SqlModel SqlNameProofs SqlInd SqlRespell SqlSim.
Local Open Scope list_scope.
Local Open Scope nat_scope.

Lemma incl_flat_map {A B} (f : A -> list B) l L a : incl (flat_map f l) L -> In a l -> incl (f a) L.
Proof. intros H Ha b Hb. apply H, in_flat_map. eauto. Qed.

Lemma incl_app_l {A} (a b L : list A) : incl (a ++ b) L -> incl a L.
Proof. intros H c Hc. apply H, in_or_app. auto. Qed.

Lemma incl_app_r {A} (a b L : list A) : incl (a ++ b) L -> incl b L.
Proof. intros H c Hc. apply H, in_or_app. auto. Qed.

Section Respelled.
Variables (up : Z -> list Z) (x x' : set_context) (L : list (list name)).
Hypothesis HT : forall q q', In q L -> psim up q q' -> rsim (tsim up) (resolve_table up x q) (resolve_table up x' q').

Notation f := (upper up).
Notation ysim := (ysim up).
Notation lsim := (lsim up).
Notation tsim := (tsim up).

Definition PE e := forall e', re_expr f e = re_expr f e' -> incl (tables_expr e) L ->
  forall y y', ysim y y' -> rsim eq (infer up x y e) (infer up x' y' e').
Definition PSP s := forall s', re_spec f s = re_spec f s' -> incl (tables_spec s) L ->
  forall y y', ysim y y' -> rsim tsim (infer_spec up x y s) (infer_spec up x' y' s').
Definition PS s := forall s', re_select f s = re_select f s' -> incl (tables_select s) L ->
  rsim tsim (infer_select up x s) (infer_select up x' s').
Definition PC c := forall c', re_cte f c = re_cte f c' -> incl (tables_cte c) L ->
  nsim up (cte_id c) (cte_id c') /\ rsim tsim (infer_cte up x c) (infer_cte up x' c').
Definition PX e := forall e', re_set f e = re_set f e' -> incl (tables_set e) L ->
  rsim tsim (infer_set up x e) (infer_set up x' e').
Definition PT t := forall t', re_table f t = re_table f t' -> incl (tables_from t) L ->
  forall y y', ysim y y' -> rsim (fun a b => ysim (fst a) (fst b) /\ lsim (snd a) (snd b)) (infer_table up x y t) (infer_table up x' y' t').
Definition PR c := forall c', re_columns f c = re_columns f c' -> incl (tables_columns c) L ->
  forall y y' a a', ysim y y' -> lsim a a' -> rsim tsim (infer_columns up x y a c) (infer_columns up x' y' a' c').
Definition PK c := forall c', re_column f c = re_column f c' -> incl (tables_column c) L ->
  forall y y' s s', ysim y y' -> stsim up s s' -> rsim (stsim up) (infer_column up x y s c) (infer_column up x' y' s' c').

Lemma sim_nil : ysim [] [].
Proof. constructor. Qed.

Lemma path_sim q q' : map f q = map f q' -> psim up q q'.
Proof. apply map_eq_Forall2. Qed.

(** Two expressions in corresponding places. *)
Definition good (y y' : symbols) (e e' : expr) : Prop := rsim eq (infer up x y e) (infer up x' y' e').

Lemma good_list es es' y y' : Forall PE es -> map (re_expr f) es = map (re_expr f) es' -> incl (flat_map tables_expr es) L ->
  ysim y y' -> Forall2 (good y y') es es'.
Proof.
  intros H E. apply map_eq_Forall2 in E. revert H. induction E as [|e e' es es' He Hes IH]; intros H HL Hy; constructor.
  - inversion H as [|? ? K ?]; subst. apply (K e' He); [exact (incl_app_l _ _ _ HL)|exact Hy].
  - inversion H; subst. apply IH; auto. exact (incl_app_r _ _ _ HL).
Qed.

Lemma good_whens ws ws' y y' : Forall (fun p => PE (fst p) /\ PE (snd p)) ws ->
  map (fun p => (re_expr f (fst p), re_expr f (snd p))) ws = map (fun p => (re_expr f (fst p), re_expr f (snd p))) ws' ->
  incl (flat_map (fun p => tables_expr (fst p) ++ tables_expr (snd p)) ws) L -> ysim y y' ->
  Forall2 (fun p p' => good y y' (fst p) (fst p') /\ good y y' (snd p) (snd p')) ws ws'.
Proof.
  intros H E. apply map_eq_Forall2 in E. revert H. induction E as [|e e' es es' He Hes IH]; intros H HL Hy; constructor.
  - inversion H as [|? ? [K1 K2] ?]; subst. injection He as E1 E2. pose proof (incl_app_l _ _ _ HL) as HL1. split.
    + apply (K1 _ E1); [exact (incl_app_l _ _ _ HL1)|exact Hy].
    + apply (K2 _ E2); [exact (incl_app_r _ _ _ HL1)|exact Hy].
  - inversion H; subst. apply IH; auto. exact (incl_app_r _ _ _ HL).
Qed.

Lemma guards_sim ws ws' y y' g : Forall2 (fun p p' => good y y' (fst p) (fst p') /\ good y y' (snd p) (snd p')) ws ws' ->
  osim eq (guards (infer up x y) g ws) (guards (infer up x' y') g ws').
Proof.
  induction 1 as [|[a b] [a' b'] ws ws' [H1 H2] Hw IH]; [reflexivity|]. cbn [guards fst snd] in *.
  apply rsim_eq_inv in H1. rewrite H1. destruct (infer up x' y' a') as [[t|e]| |]; cbn; auto. destruct (g t); cbn; auto.
Qed.

Lemma bodies_sim ws ws' y y' : Forall2 (fun p p' => good y y' (fst p) (fst p') /\ good y y' (snd p) (snd p')) ws ws' ->
  rsim eq (bodies (infer up x y) ws) (bodies (infer up x' y') ws').
Proof.
  assert (G : forall ws ws', Forall2 (fun p p' => good y y' (fst p) (fst p') /\ good y y' (snd p) (snd p')) ws ws' ->
    forall acc, rsim eq (bodies_rest (infer up x y) acc ws) (bodies_rest (infer up x' y') acc ws')).
  { induction 1 as [|[a b] [a' b'] vs vs' [H1 H2] Hw IH]; intros acc; [reflexivity|]. cbn [bodies_rest fst snd] in *.
    apply (rsim_bind eq); [exact H2|]. intros t ? <-. apply (rsim_bind eq); [apply rsim_eq|]. intros acc' ? <-. apply IH. }
  intros [|[a b] [a' b'] vs vs' [H1 H2] Hw]; [exact I|]. cbn [bodies fst snd] in *.
  apply (rsim_bind eq); [exact H2|]. intros t ? <-. apply G, Hw.
Qed.

Lemma members_sim es es' y y' : Forall2 (good y y') es es' -> rsim eq (members (infer up x y) es) (members (infer up x' y') es').
Proof.
  assert (G : forall es es', Forall2 (good y y') es es' ->
    forall acc, rsim eq (members_rest (infer up x y) acc es) (members_rest (infer up x' y') acc es')).
  { induction 1 as [|e e' vs vs' He Hv IH]; intros acc; cbn [members_rest]; [apply rsim_eq|].
    apply rsim_eq_inv in He. rewrite He. destruct (infer up x' y' e') as [r| |]; cbn [bind]; [apply IH|exact I|exact I]. }
  intros [|e e' vs vs' He Hv]; [exact I|]. cbn [members].
  apply rsim_eq_inv in He. rewrite He. destruct (infer up x' y' e') as [r| |]; cbn [bind]; [apply G, Hv|exact I|exact I].
Qed.

Lemma first_row_sim es es' y y' : Forall2 (good y y') es es' -> forall n,
  rsim lsim (first_row (infer up x y) n es) (first_row (infer up x' y') n es').
Proof.
  induction 1 as [|e e' vs vs' He Hv IH]; intros n; [constructor|]. cbn [first_row].
  apply (rsim_bind eq); [exact He|]. intros t ? <-. apply (rsim_bind eq); [apply rsim_eq|]. intros [d u] ? <-.
  apply (rsim_bind lsim); [apply IH|]. intros r r' Hr. constructor; [|exact Hr]. repeat split.
Qed.

Lemma next_row_sim es es' y y' l l' : Forall2 (good y y') es es' -> lsim l l' ->
  rsim lsim (next_row (infer up x y) l es) (next_row (infer up x' y') l' es').
Proof.
  intros H. revert l l'. induction H as [|e e' vs vs' He Hv IH]; intros l l' Hl; [constructor|].
  destruct Hl as [|a a' l l' Ha Hl]; [constructor|]. cbn [next_row].
  apply (rsim_bind eq); [exact He|]. intros t ? <-. rewrite <- (attr_type_sim _ _ _ Ha).
  apply (rsim_bind eq); [apply rsim_eq|]. intros [ts|d u] ? <-; [exact I|].
  apply (rsim_bind lsim); [apply IH, Hl|]. intros r r' Hr. constructor; [|exact Hr]. split; [apply Ha|split; reflexivity].
Qed.

Lemma else_sim o o' t : optsim (rsim eq) o o' -> rsim eq (else_type o t) (else_type o' t).
Proof.
  destruct o as [a|], o' as [b|]; cbn [optsim]; try contradiction; intros H.
  - apply rsim_eq_inv in H as ->. apply rsim_eq.
  - apply rsim_eq.
Qed.

Lemma opt_sim o o' y y' : if_some PE o -> option_map (re_expr f) o = option_map (re_expr f) o' ->
  incl match o with None => [] | Some e => tables_expr e end L -> ysim y y' -> optsim (good y y') o o'.
Proof.
  destruct o as [e|], o' as [e'|]; cbn; try discriminate; auto. intros H [= E] HL Hy. exact (H _ E HL y y' Hy).
Qed.

Lemma logical_sim o o' y y' : optsim (good y y') o o' ->
  rsim eq match o with None => ok tt | Some e => t <-? infer up x y e ;; pure (logical t) end
          match o' with None => ok tt | Some e => t <-? infer up x' y' e ;; pure (logical t) end.
Proof.
  destruct o as [e|], o' as [e'|]; cbn [optsim]; try contradiction; [|reflexivity]. intros H.
  apply (rsim_bind eq); [exact H|]. intros t ? <-. apply rsim_eq.
Qed.

Lemma respelled :
  (forall e, PE e) /\ (forall s, PSP s) /\ (forall s, PS s) /\ (forall c, PC c) /\ (forall e, PX e) /\ (forall t, PT t) /\
  (forall c, PR c) /\ (forall c, PK c).
Proof.
  apply sql_induction.
  - intros l [] E HL y y' Hy; try discriminate. injection E as <-. apply rsim_eq.
  - intros q [] E HL y y' Hy; try discriminate. injection E as E. cbn [infer]. apply rsim_pure, name_type_sim; [exact Hy|apply path_sim, E].
  - intros es H [] E HL y y' Hy; try discriminate. injection E as E. cbn [infer].
    apply (rsim_bind (Forall2 eq)).
    + apply (collect_sim (good y y') eq); [apply good_list; assumption|]. auto.
    + intros ts ts' K. replace ts' with ts; [reflexivity|]. clear -K. induction K; congruence.
  - intros s H [] E HL y y' Hy; try discriminate. injection E as E. cbn [infer].
    apply (rsim_bind tsim); [exact (H _ E HL)|]. intros r r' Hr. rewrite (select_scalar_sim _ _ _ Hr). apply rsim_eq.
  - intros op e H [] E HL y y' Hy; try discriminate. injection E as <- E. cbn [infer].
    apply (rsim_bind eq); [exact (H _ E HL _ _ Hy)|]. intros t ? <-. apply rsim_eq.
  - intros op l r H1 H2 [] E HL y y' Hy; try discriminate. injection E as <- E1 E2. cbn [infer].
    apply (rsim_bind eq); [exact (H1 _ E1 (incl_app_l _ _ _ HL) _ _ Hy)|]. intros t ? <-.
    apply (rsim_bind eq); [exact (H2 _ E2 (incl_app_r _ _ _ HL) _ _ Hy)|]. intros t2 ? <-. apply rsim_eq.
  - intros op l r H1 H2 [] E HL y y' Hy; try discriminate. injection E as <- E1 E2. cbn [infer].
    apply (rsim_bind eq); [exact (H1 _ E1 (incl_app_l _ _ _ HL) _ _ Hy)|]. intros t ? <-.
    apply (rsim_bind eq); [exact (H2 _ E2 (incl_app_r _ _ _ HL) _ _ Hy)|]. intros t2 ? <-. apply rsim_eq.
  - intros e s H1 H2 [] E HL y y' Hy; try discriminate. injection E as E1 E2. cbn [infer].
    apply (rsim_bind eq); [exact (H1 _ E1 (incl_app_l _ _ _ HL) _ _ Hy)|]. intros t ? <-.
    apply (rsim_bind tsim); [exact (H2 _ E2 (incl_app_r _ _ _ HL) _ _ Hy)|]. intros r r' Hr.
    rewrite (in_type_sim _ _ _ _ Hr). apply rsim_eq.
  - intros e lo hi H1 H2 H3 [] E HL y y' Hy; try discriminate. injection E as E1 E2 E3. cbn [infer].
    apply (rsim_bind eq); [exact (H1 _ E1 (incl_app_l _ _ _ HL) _ _ Hy)|]. intros t ? <-.
    apply incl_app_r in HL.
    apply (rsim_bind eq); [exact (H2 _ E2 (incl_app_l _ _ _ HL) _ _ Hy)|]. intros t2 ? <-.
    apply (rsim_bind eq); [exact (H3 _ E3 (incl_app_r _ _ _ HL) _ _ Hy)|]. intros t3 ? <-. apply rsim_eq.
  - intros o ws els Ho Hw He [] E HL y y' Hy; try discriminate. injection E as E1 E2 E3. cbn [tables_expr] in HL.
    pose proof (opt_sim _ _ y y' Ho E1 (incl_app_l _ _ _ HL) Hy) as So. apply incl_app_r in HL.
    pose proof (good_whens _ _ y y' Hw E2 (incl_app_l _ _ _ HL) Hy) as Sw.
    pose proof (opt_sim _ _ y y' He E3 (incl_app_r _ _ _ HL) Hy) as Se.
    assert (Sl : optsim (rsim eq) (match els with None => None | Some e => Some (infer up x y e) end)
                       (match els0 with None => None | Some e => Some (infer up x' y' e) end)).
    { destruct els, els0; cbn in *; auto. }
    destruct o as [c|], e as [c'|]; cbn [optsim] in So; try contradiction; cbn [infer].
    + apply (rsim_bind eq); [exact So|]. intros t ? <-.
      apply (osim_bind eq); [apply guards_sim, Sw|]. intros _ _ _.
      apply (rsim_bind eq); [apply bodies_sim, Sw|]. intros tb ? <-. apply else_sim, Sl.
    + apply (osim_bind eq); [apply guards_sim, Sw|]. intros _ _ _.
      apply (rsim_bind eq); [apply bodies_sim, Sw|]. intros tb ? <-. apply else_sim, Sl.
  - intros s H [] E HL y y' Hy; try discriminate. injection E as E. exact (H _ E HL).
  - intros es H [] E HL y y' Hy; try discriminate. injection E as E. cbn [infer_spec].
    apply (rsim_bind eq); [apply members_sim, good_list; assumption|]. intros t ? <-.
    apply (rsim_bind eq); [apply rsim_eq|]. intros [d u] ? <-. repeat constructor.
  - intros q [] E HL y y' Hy; try discriminate. injection E as E. cbn [infer_spec].
    apply HT; [apply HL; left; reflexivity|apply path_sim, E].
  - intros common e order lim Hc He Ho Hl [common' e' order' lim'] E HL. injection E as E1 E2 E3 E4. cbn [infer_select].
    cbn [tables_select] in HL. pose proof (incl_app_l _ _ _ HL) as L1. apply incl_app_r in HL.
    pose proof (incl_app_l _ _ _ HL) as L2. apply incl_app_r in HL. pose proof (incl_app_l _ _ _ HL) as L3. apply incl_app_r in HL.
    apply (rsim_bind ysim).
    { apply map_eq_Forall2 in E1. apply (fold_err_sim ysim _ _ _ _ _ E1); [|constructor].
      intros y y' c c' Hin Hy Ec. rewrite Forall_forall in Hc.
      destruct (Hc c Hin c' Ec (incl_flat_map _ _ _ _ L1 Hin)) as [Hid Hq].
      apply (rsim_bind tsim); [exact Hq|]. intros t t' Ht. apply rsim_pure, add_relation_sim; assumption. }
    intros y y' Hy. apply (rsim_bind tsim); [exact (He _ E2 L2)|]. intros t t' Ht. apply (rsim_bind eq).
    { apply map_eq_Forall2 in E3. apply (fold_err_sim eq _ _ _ _ _ E3); [|reflexivity].
      intros [] [] o o' Hin _ Eo. rewrite Forall_forall in Ho. injection Eo as Eo _ _.
      apply (rsim_bind eq); [exact (Ho o Hin _ Eo (incl_flat_map _ _ _ _ L3 Hin) _ _ Hy)|]. intros u ? <-.
      apply (rsim_bind eq); [apply rsim_eq|]. intros. reflexivity. }
    intros _ _ _. destruct lim as [[rows off]|], lim' as [[rows' off']|]; try discriminate; [|exact Ht].
    cbn in E4. injection E4 as E4 E5. cbn [if_some fst snd] in *. destruct Hl as [Hl1 Hl2].
    apply (rsim_bind eq); [exact (Hl1 _ E4 (incl_app_l _ _ _ HL) _ _ sim_nil)|]. intros n ? <-.
    apply (rsim_bind eq); [apply rsim_eq|]. intros _ _ _.
    pose proof (opt_sim _ _ [] [] Hl2 E5 (incl_app_r _ _ _ HL) sim_nil) as So.
    destruct off as [o|], off' as [o'|]; cbn [optsim] in So; try contradiction; [|exact Ht].
    apply (rsim_bind eq); [exact So|]. intros m ? <-. apply (rsim_bind eq); [apply rsim_eq|]. intros _ _ _. exact Ht.
  - intros id columns q H [id' columns' q'] E HL. injection E as E1 E2 E3. split; [exact E1|]. cbn [infer_cte].
    apply (rsim_bind tsim); [exact (H _ E3 HL)|]. intros t t' Ht.
    destruct columns as [l|], columns' as [l'|]; try discriminate; [|exact Ht]. injection E2 as E2.
    apply (rsim_bind lsim); [apply rsim_pure, pick_columns_sim; [exact Ht|apply path_sim, E2]|]. intros a a' Ha. exact Ha.
  - intros rows H [] E HL; try discriminate. injection E as E. cbn [infer_set]. apply map_eq_Forall2 in E.
    assert (G : Forall2 (Forall2 (good [] [])) rows rows0).
    { cbn [tables_set] in HL. revert H HL. induction E as [|r r' rs rs' Er Ers IH]; intros H HL; constructor.
      - inversion H; subst. apply good_list; auto; [exact (incl_app_l _ _ _ HL)|apply sim_nil].
      - inversion H; subst. apply IH; auto. exact (incl_app_r _ _ _ HL). }
    destruct G as [|r r' rs rs' Hr Hrs]; [exact I|]. cbn [values_type].
    apply (rsim_bind lsim); [apply first_row_sim, Hr|]. intros a a' Ha.
    apply (rsim_bind lsim); [|intros b b' Hb; exact Hb].
    apply (fold_err_sim lsim _ _ _ _ _ Hrs); [|exact Ha]. intros s s' r0 r0' _ Hs Hr0. apply next_row_sim; assumption.
  - intros mode columns from wh group Hc Hf Hw Hg [] E HL; try discriminate. injection E as <- E1 E2 E3 E4. cbn [infer_set].
    cbn [tables_set] in HL. pose proof (incl_app_l _ _ _ HL) as L1. apply incl_app_r in HL.
    pose proof (incl_app_l _ _ _ HL) as L2. apply incl_app_r in HL. pose proof (incl_app_l _ _ _ HL) as L3. apply incl_app_r in HL.
    apply (rsim_bind (fun a b => ysim (fst a) (fst b) /\ lsim (snd a) (snd b))).
    { apply map_eq_Forall2 in E2. apply (fold_err_sim _ _ _ _ _ _ E2); [|split; constructor].
      intros [y l] [y' l'] t t' Hin [Hy Hl] Et. cbn [fst snd] in Hy, Hl. rewrite Forall_forall in Hf.
      apply (rsim_bind _ _ _ _ _ _ (Hf t Hin t' Et (incl_flat_map _ _ _ _ L2 Hin) y y' Hy)).
      intros [y1 l1] [y1' l1'] [Hy1 Hl1]. split; [exact Hy1|]. apply Forall2_app; assumption. }
    intros [y l] [y' l'] [Hy Hl]. cbn [fst snd] in Hy, Hl.
    apply (rsim_bind eq); [apply logical_sim, opt_sim; assumption|]. intros _ _ _.
    apply (rsim_bind eq); [|intros _ _ _; apply Hc; assumption].
    destruct group as [[gs having]|], group_by as [[gs' having']|]; try discriminate; [|reflexivity].
    cbn in E4. injection E4 as E4 E5. destruct Hg as [Hg1 Hg2]. cbn [fst snd] in *.
    apply (rsim_bind eq).
    { pose proof (good_list _ _ y y' Hg1 E4 (incl_app_l _ _ _ HL) Hy) as G.
      apply (fold_err_sim eq _ _ _ _ _ G); [|reflexivity]. intros [] [] e e' _ _ He.
      apply (rsim_bind eq); [exact He|]. intros; reflexivity. }
    intros _ _ _. apply logical_sim, opt_sim; auto. exact (incl_app_r _ _ _ HL).
  - intros op l r H1 H2 [] E HL; try discriminate. injection E as <- E1 E2. cbn [infer_set].
    apply (rsim_bind tsim); [exact (H1 _ E1 (incl_app_l _ _ _ HL))|]. intros t1 t1' Ht1.
    apply (rsim_bind tsim); [exact (H2 _ E2 (incl_app_r _ _ _ HL))|]. intros t2 t2' Ht2.
    apply (rsim_bind lsim); [apply rsim_pure, unify_columns_sim; assumption|]. intros a a' Ha. exact Ha.
  - intros q alias [] E HL y y' Hy; try discriminate. injection E as E1 E2. cbn [infer_table].
    apply (rsim_bind tsim); [apply HT; [apply HL; left; reflexivity|apply path_sim, E1]|]. intros r r' Hr.
    apply (osim_bind (nsim up)).
    { destruct alias as [n|], alias0 as [n'|]; try discriminate; [injection E2 as E2; exact E2|apply last_name_sim, path_sim, E1]. }
    intros n n' Hn. apply (rsim_bind ysim); [apply rsim_pure, add_relation_sim; assumption|].
    intros y1 y1' Hy1. split; [exact Hy1|exact Hr].
  - intros s alias H [] E HL y y' Hy; try discriminate. injection E as E1 E2. cbn [infer_table].
    apply (rsim_bind tsim); [exact (H _ E1 HL)|]. intros r r' Hr. split; [exact Hy|exact Hr].
  - intros l r op c H1 H2 _ [] E HL y y' Hy; try discriminate. injection E as E1 E2 <- E3. cbn [infer_table].
    apply (rsim_bind _ _ _ _ _ _ (H1 _ E1 (incl_app_l _ _ _ HL) _ _ Hy)). intros [y1 a1] [y1' a1'] [Hy1 Ha1].
    apply (rsim_bind _ _ _ _ _ _ (H2 _ E2 (incl_app_r _ _ _ HL) _ _ Hy1)). intros [y2 a2] [y2' a2'] [Hy2 Ha2].
    split; [exact Hy2|]. apply Forall2_app; assumption.
  - intros [] E HL y y' a a' Hy Ha; try discriminate. cbn [infer_columns]. apply all_columns_sim, Ha.
  - intros l H [] E HL y y' a a' Hy Ha; try discriminate. injection E as E. cbn [infer_columns].
    apply (rsim_bind (stsim up)); [|intros [s1 s2] [s1' s2'] [Hs _]; exact Hs].
    apply map_eq_Forall2 in E. apply (fold_err_sim _ _ _ _ _ _ E); [|split; constructor].
    intros s s' c c' Hin Hs Ec. rewrite Forall_forall in H. exact (H c Hin c' Ec (incl_flat_map _ _ _ _ HL Hin) _ _ _ _ Hy Hs).
  - intros n [] E HL y y' s s' Hy Hs; try discriminate. injection E as E. cbn [infer_column].
    pose proof (nget_sim up _ _ _ _ _ Hy E) as K. revert K.
    destruct (nget up y n) as [[t| |m]|], (nget up y' n0) as [[t'| |m']|]; cbn [optsim isim]; try contradiction; try (intros _; exact I).
    intros Hm. apply (osim_bind (stsim up)); [apply relation_columns_sim; assumption|]. intros a b Hab. exact Hab.
  - intros e rename H [] E HL y y' s s' Hy Hs; try discriminate. injection E as E1 E2. cbn [infer_column].
    apply (rsim_bind eq); [exact (H _ E1 HL _ _ Hy)|]. intros t ? <-. apply (rsim_bind eq); [apply rsim_eq|]. intros [d u] ? <-.
    apply push_sim; [exact Hs|]. destruct rename, rename0; try discriminate; [injection E2 as E2; exact E2|reflexivity].
Qed.

Lemma expr_respelled e : PE e. Proof. apply respelled. Qed.
Lemma select_respelled s : PS s. Proof. apply respelled. Qed.
Lemma cte_respelled c : PC c. Proof. apply respelled. Qed.
Lemma set_respelled e : PX e. Proof. apply respelled. Qed.

Lemma where_sim o o' y y' : option_map (re_expr f) o = option_map (re_expr f) o' -> incl (tables_where o) L -> ysim y y' ->
  rsim eq match o with None => ok tt | Some e => t <-? infer up x y e ;; pure (logical t) end
          match o' with None => ok tt | Some e => t <-? infer up x' y' e ;; pure (logical t) end.
Proof.
  intros E HL Hy. apply logical_sim, opt_sim; auto. destruct o; cbn; auto using expr_respelled.
Qed.

Lemma combine_sim {A A' B B'} (R : A -> A' -> Prop) (Q : B -> B' -> Prop) l l' m m' : Forall2 R l l' -> Forall2 Q m m' ->
  Forall2 (fun p p' => R (fst p) (fst p') /\ Q (snd p) (snd p')) (combine l m) (combine l' m').
Proof.
  intros H. revert m m'. induction H; intros m m' Hm; [constructor|]. destruct Hm; cbn; constructor; auto.
Qed.

Lemma Forall2_same_length {A B} (R : A -> B -> Prop) l l' : Forall2 R l l' -> List.length l = List.length l'.
Proof. induction 1; cbn; auto. Qed.

Lemma existsb_sim m m' : msim up (@eq (data_type * bool)) m m' ->
  existsb (fun e => negb (snd (snd e))) m = existsb (fun e => negb (snd (snd e))) m'.
Proof. induction 1 as [|e e' m m' [_ He] Hm IH]; [reflexivity|]. cbn [existsb]. rewrite He, IH. reflexivity. Qed.

Lemma insert_respelled i i' : map f (i_table i) = map f (i_table i') -> option_map (map f) (i_columns i) = option_map (map f) (i_columns i') ->
  re_set f (i_source i) = re_set f (i_source i') -> incl (i_table i :: tables_set (i_source i)) L ->
  rsim eq (validate_insert up x i) (validate_insert up x' i').
Proof.
  intros E1 E2 E3 HL. unfold validate_insert.
  apply (rsim_bind tsim); [apply HT; [apply HL; left; reflexivity|apply path_sim, E1]|]. intros t t' Ht.
  apply (rsim_bind tsim); [apply set_respelled; [exact E3|intros q Hq; apply HL; right; exact Hq]|]. intros v v' Hv.
  apply (rsim_bind (msim up eq)); [|intros m m' Hm; rewrite (existsb_sim _ _ Hm); apply rsim_eq].
  destruct (i_columns i) as [l|], (i_columns i') as [l'|]; try discriminate.
  - injection E2 as E2. apply path_sim in E2. rewrite (Forall2_same_length _ _ _ E2), (Forall2_same_length _ _ _ Hv).
    destruct (negb _); [exact I|]. apply (fold_err_sim (msim up eq) _ _ _ _ _ (combine_sim _ _ _ _ _ _ Hv E2)); [|apply row_type_map_sim, Ht].
    intros m m' [a n] [a' n'] _ Hm [Ha Hn]. apply rsim_pure, insert_column_sim; assumption.
  - apply (fold_err_sim (msim up eq) _ _ _ _ _ Hv); [|apply row_type_map_sim, Ht].
    intros m m' a a' _ Hm Ha. apply rsim_pure, insert_column_sim; [exact Hm|exact Ha|apply Ha].
Qed.

Lemma update_respelled u u' : map f (u_table u) = map f (u_table u') ->
  map (fun a => (map f (fst a), re_expr f (snd a))) (u_assignments u) = map (fun a => (map f (fst a), re_expr f (snd a))) (u_assignments u') ->
  option_map (re_expr f) (u_where u) = option_map (re_expr f) (u_where u') ->
  incl (u_table u :: flat_map (fun a => tables_expr (snd a)) (u_assignments u) ++ tables_where (u_where u)) L ->
  rsim eq (validate_update up x u) (validate_update up x' u').
Proof.
  intros E1 E2 E3 HL. unfold validate_update.
  assert (HL' : incl (flat_map (fun a => tables_expr (snd a)) (u_assignments u) ++ tables_where (u_where u)) L)
    by (intros q Hq; apply HL; right; exact Hq).
  apply (rsim_bind tsim); [apply HT; [apply HL; left; reflexivity|apply path_sim, E1]|]. intros t t' Ht.
  apply (osim_bind (nsim up)); [apply last_name_sim, path_sim, E1|]. intros n n' Hn.
  apply (rsim_bind ysim); [apply rsim_pure, add_relation_sim; [constructor|exact Hn|exact Ht]|]. intros y y' Hy.
  apply (rsim_bind (msim up eq)); [|intros _ _ _; apply where_sim; [exact E3|exact (incl_app_r _ _ _ HL')|exact Hy]].
  apply map_eq_Forall2 in E2. apply (fold_err_sim (msim up eq) _ _ _ _ _ E2); [|constructor].
  intros g g' [l e] [l' e'] Hin Hg Ea. injection Ea as El Ee. cbn [fst snd] in *.
  apply (rsim_bind eq); [apply expr_respelled; [exact Ee| |exact Hy]; exact (incl_flat_map _ _ _ _ (incl_app_l _ _ _ HL') Hin)|].
  intros st ? <-. apply (rsim_bind eq); [apply rsim_eq|]. intros [d b] ? <-.
  apply path_sim in El. apply (fold_err_sim (msim up eq) _ _ _ _ _ El); [|exact Hg].
  intros h h' c c' _ Hh Hc. apply rsim_pure, assign_column_sim; [apply row_type_map_sim, Ht|exact Hh|exact Hc].
Qed.

Lemma delete_respelled d d' : map f (d_table d) = map f (d_table d') ->
  option_map (re_expr f) (d_where d) = option_map (re_expr f) (d_where d') -> incl (d_table d :: tables_where (d_where d)) L ->
  rsim eq (validate_delete up x d) (validate_delete up x' d').
Proof.
  intros E1 E3 HL. unfold validate_delete.
  apply (rsim_bind tsim); [apply HT; [apply HL; left; reflexivity|apply path_sim, E1]|]. intros t t' Ht.
  apply (osim_bind (nsim up)); [apply last_name_sim, path_sim, E1|]. intros n n' Hn.
  apply (rsim_bind ysim); [apply rsim_pure, add_relation_sim; [constructor|exact Hn|exact Ht]|]. intros y y' Hy.
  apply where_sim; [exact E3|intros q Hq; apply HL; right; exact Hq|exact Hy].
Qed.

Lemma statement_respelled s s' : respell f s = respell f s' -> incl (tables_of s) L ->
  rsim eq (validate up x s) (validate up x' s').
Proof.
  assert (G : forall s s', re_statement f s = re_statement f s' -> incl (tables_of (SqlStatement s)) L ->
    rsim eq (validate_statement up x s) (validate_statement up x' s')).
  { intros [q|i|d|u] [q'|i'|d'|u'] E HL; try discriminate; cbn [validate_statement tables_of] in *.
    - injection E as E. apply (rsim_bind tsim); [apply select_respelled; assumption|]. intros; reflexivity.
    - injection E as E1 E2 E3. apply insert_respelled; assumption.
    - injection E as E1 E2. apply delete_respelled; assumption.
    - injection E as E1 E2 E3. apply update_respelled; assumption. }
  destruct s as [s|s|q p|q], s' as [s'|s'|q' p'|q']; intros E HL; try discriminate; cbn [validate].
  - injection E as E. apply G; assumption.
  - injection E as E. apply G; assumption.
  - apply rsim_eq.
  - injection E as E. apply (rsim_bind tsim); [apply HT; [apply HL; left; reflexivity|apply path_sim, E]|]. intros; reflexivity.
Qed.
End Respelled.

Section Top.
Variable up : Z -> list Z.

Lemma lsim_same l l' : lsim up l l' <-> same_columns up l l'.
Proof.
  unfold same_columns. split.
  - induction 1 as [|a a' l l' (H1 & H2 & H3) Hl IH]; [reflexivity|]. cbn [map]. f_equal; [|exact IH]. unfold nsim in H1. congruence.
  - intros H. apply map_eq_Forall2 in H. clear -H. induction H as [|a a' l l' Ha Hl IH]; constructor; [|exact IH].
    injection Ha as H1 H2 H3. repeat split; assumption.
Qed.

(** ** C66 *)

Lemma validate_case db db' d d' s s' : same_database up db db' -> name_eqb up d d' = true -> same_statement up s s' ->
  validate up (set_context_new up db d) s = validate up (set_context_new up db' d') s'.
Proof.
  intros Hdb Hd Hs. apply rsim_eq_inv. apply (statement_respelled up _ _ (tables_of s)); [|exact Hs|apply incl_refl].
  intros q q' _ Hq. apply resolve_sim; [|exact Hq]. apply database_sim; [exact Hdb|]. apply name_eqb_upper, Hd.
Qed.

Lemma ctes_case db db' d d' cs cs' : same_database up db db' -> name_eqb up d d' = true ->
  map (re_cte (upper up)) cs = map (re_cte (upper up)) cs' -> rsim (xsim up) (initialize up db d cs) (initialize up db' d' cs').
Proof.
  intros Hdb Hd Hc. unfold initialize. apply map_eq_Forall2 in Hc.
  apply (fold_err_sim (xsim up) _ _ _ _ _ Hc); [|apply database_sim; [exact Hdb|apply name_eqb_upper, Hd]].
  intros x x' c c' _ Hx Ec.
  destruct (cte_respelled up x x' (tables_cte c) (fun q q' _ Hq => resolve_sim up x x' q q' Hx Hq) c c' Ec (incl_refl _)) as [Hid Ht].
  apply (rsim_bind (tsim up)); [exact Ht|]. intros t t' Htt. destruct Hx as (H1 & H2 & H3). unfold define_relation.
  pose proof (nget_sim up _ _ _ _ _ H3 Hid) as K. revert K.
  destruct (nget up (x_tables x) (cte_id c)), (nget up (x_tables x') (cte_id c')); cbn; try contradiction; auto.
  intros _. repeat split; auto. apply nput_sim; assumption.
Qed.

Lemma query_case db db' d d' cs cs' x q q' : same_database up db db' -> name_eqb up d d' = true ->
  map (re_cte (upper up)) cs = map (re_cte (upper up)) cs' -> same_query up q q' -> initialize up db d cs = ok x ->
  exists x', initialize up db' d' cs' = ok x' /\
    match infer_select up x q, infer_select up x' q' with
    | Ret (Ok t), Ret (Ok t') => same_columns up (r_attrs t) (r_attrs t')
    | Ret (Err _), Ret (Err _) | Panic, Panic | Undef, Undef => True
    | _, _ => False
    end.
Proof.
  intros Hdb Hd Hc Hq Hi. pose proof (ctes_case _ _ _ _ _ _ Hdb Hd Hc) as H. rewrite Hi in H.
  destruct (initialize up db' d' cs') as [[x'|e]| |] eqn:Ei; try contradiction. exists x'. split; [reflexivity|].
  pose proof (select_respelled up x x' (tables_select q) (fun q q' _ Hq => resolve_sim up x x' q q' H Hq) q q' Hq (incl_refl _)) as K.
  destruct (infer_select up x q) as [[t|e]| |], (infer_select up x' q') as [[t'|e']| |]; try contradiction; auto.
  apply lsim_same, K.
Qed.

(** ** C67 *)

Lemma nsim_refl_path q : psim up q q.
Proof. induction q; constructor; [reflexivity|assumption]. Qed.

Lemma tsim_refl t : tsim up t t.
Proof. unfold tsim. apply lsim_same. reflexivity. Qed.

Lemma resolve_congr x q q' : psim up q q' -> resolve_table up x q = resolve_table up x q'.
Proof.
  intros Hq. assert (E : forall V (m : nmap V) a b, nsim up a b -> nget up m a = nget up m b)
    by (intros V m a b H; apply nget_congr, name_eqb_upper, H).
  destruct Hq as [|n n' ? ? H1 [|m m' ? ? H2 [|]]]; cbn [resolve_table]; try reflexivity.
  - rewrite (E _ (x_tables x) _ _ H1). destruct (nget up (x_tables x) n'); [reflexivity|].
    destruct (nget up (x_namespaces x) (x_default x)) as [ns|]; [|reflexivity]. rewrite (E _ ns _ _ H1). reflexivity.
  - rewrite (E _ (x_tables x) _ _ H1). destruct (nget up (x_tables x) n'); [reflexivity|]. rewrite (E _ (x_namespaces x) _ _ H1).
    destruct (nget up (x_namespaces x) n') as [ns|]; [|reflexivity]. rewrite (E _ ns _ _ H2). reflexivity.
Qed.

Lemma validate_frame x x' s : (forall q, In q (tables_of s) -> resolve_table up x q = resolve_table up x' q) ->
  validate up x s = validate up x' s.
Proof.
  intros H. apply rsim_eq_inv. apply (statement_respelled up x x' (tables_of s)); [|reflexivity|apply incl_refl].
  intros q q' Hin Hq. rewrite (H q Hin), (resolve_congr x' _ _ Hq).
  destruct (resolve_table up x' q') as [[t|e]| |]; cbn; auto. apply tsim_refl.
Qed.

Lemma last_entry_put {V W} (g : V -> W) (m : nmap V) n v k : name_eqb up k n = false ->
  last_entry up (map (fun e => (fst e, g (snd e))) (nput up m n v)) k = last_entry up (map (fun e => (fst e, g (snd e))) m) k.
Proof.
  intros H. induction m as [|[a w] m IH]; cbn [nput map last_entry fst snd].
  - rewrite H. reflexivity.
  - destruct (name_cmp up n a) eqn:E; cbn [map last_entry fst snd].
    + apply name_cmp_eqb in E. rewrite <- (name_eqb_congr up _ _ k E), H. reflexivity.
    + destruct (last_entry up (map (fun e => (fst e, g (snd e))) m) k); [reflexivity|]. destruct (name_eqb up k a); [reflexivity|].
      rewrite H. reflexivity.
    + rewrite IH. reflexivity.
Qed.

Lemma validate_new_schema db db' d n s : create_schema up db n = Ret (db', Ok tt) -> name_eqb up d n = false ->
  (forall a t, In [a; t] (tables_of s) -> name_eqb up a n = false) ->
  validate up (set_context_new up db' d) s = validate up (set_context_new up db d) s.
Proof.
  intros Hc Hd Ht. assert (E : db' = nput up db n (schema_new n)).
  { unfold create_schema in Hc. destruct (nget up db n); cbn in Hc; congruence. }
  apply validate_frame. intros q Hq. unfold resolve_table. cbn [set_context_new x_tables x_namespaces x_default nget].
  assert (G : forall k, name_eqb up k n = false -> nget up (namespaces_of up db') k = nget up (namespaces_of up db) k).
  { intros k Hk. unfold namespaces_of. rewrite !nget_ncollect, E. apply last_entry_put, Hk. }
  destruct q as [|a [|b [|]]]; try reflexivity.
  - rewrite (G _ Hd). reflexivity.
  - rewrite (G a (Ht _ _ Hq)). reflexivity.
Qed.
End Top.
