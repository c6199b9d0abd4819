(** * Rewriting keeps the types *)

From Coq Require Import Sorting.Permutation.
From Verif Require Import Base ListFacts SqlNameModel SqlNameProofs SqlModel SqlSpec SqlStmtSpec SqlFromSpec SqlColumnsSpec SqlSafeSpec SqlRules
  SqlRulesProofs SqlRulesTop SqlRewriteSpec SqlRewriteInd SqlRewriteProofs.

(** ** What makes validation return is kept *)

Lemma Forall2_safe {A} (f : A -> bool) l l' : Forall2 (fun a b => f a = f b) l l' -> forallb f l = forallb f l'.
Proof. induction 1; cbn; congruence. Qed.

Lemma nonempty_same {A} (R : A -> A -> Prop) l l' : Forall2 R l l' -> nonempty l = nonempty l'.
Proof. intros []; reflexivity. Qed.

Lemma forallb_perm {A} (f : A -> bool) l l' : Permutation l l' -> forallb f l = forallb f l'.
Proof. induction 1; cbn; [reflexivity|congruence| |congruence]. destruct (f x), (f y); reflexivity. Qed.

Lemma nonempty_perm {A} (l l' : list A) : Permutation l l' -> nonempty l = nonempty l'.
Proof.
  intros P. apply Permutation_length in P. destruct l, l'; cbn in *; congruence.
Qed.

Definition safe_opt (o : option expr) : bool := match o with None => true | Some e => safe e end.

Lemma both_safe o o' : both (fun e e' => safe e = safe e') o o' -> safe_opt o = safe_opt o'.
Proof. intros [|a b H]; [reflexivity|exact H]. Qed.

Definition kept (e e' : expr) : Prop := is_row e = is_row e' /\ safe e = safe e'.

Lemma case_shape_kept whens whens' : Forall2 (fun w w' => kept (fst w) (fst w') /\ kept (snd w) (snd w')) whens whens' ->
  case_shape whens = case_shape whens'.
Proof.
  intros [|[a b] [a' b'] l l' [_ [H _]] F]; [reflexivity|]. cbn in *. destruct F; [rewrite H; reflexivity|reflexivity].
Qed.

Lemma safe_case o whens els : safe (ECase o whens els) =
  safe_opt o && case_shape whens && forallb (fun p => safe (fst p) && safe (snd p)) whens && safe_opt els.
Proof. reflexivity. Qed.

Definition safe_limit (l : expr * option expr) : bool := safe (fst l) && safe_opt (snd l).
Definition safe_group (g : list expr * option expr) : bool := forallb safe (fst g) && safe_opt (snd g).
Definition given_safe {A} (f : A -> bool) (o : option A) : bool := match o with None => true | Some a => f a end.

Lemma safe_select_eq common e order lim : safe_select (Select common e order lim) =
  forallb safe_cte common && safe_set e && forallb (fun o => safe (fst (fst o))) order && given_safe safe_limit lim.
Proof. destruct lim as [[a b]|]; reflexivity. Qed.

Lemma safe_query_eq mode columns from wh group : safe_set (SQuery mode columns from wh group) =
  safe_columns columns && forallb safe_table from && safe_opt wh && given_safe safe_group group.
Proof. destruct group as [[a b]|]; reflexivity. Qed.


Lemma safe_kept :
  (forall e e', same_expr e e' -> kept e e') /\ (forall s s', same_select s s' -> safe_select s = safe_select s') /\
  (forall e e', same_set e e' -> safe_set e = safe_set e').
Proof.
  apply (same_induction kept (fun s s' => safe_spec s = safe_spec s') (fun s s' => safe_select s = safe_select s')
    (fun c c' => safe_cte c = safe_cte c') (fun e e' => safe_set e = safe_set e')
    (fun f f' => forallb safe_table f = forallb safe_table f') (fun t t' => safe_table t = safe_table t') (fun _ _ => True)
    (fun c c' => safe_columns c = safe_columns c') (fun k k' => safe_column k = safe_column k')); try (intros; exact I).
  - intros. split; [reflexivity|]. cbn. destruct (safe e), (safe lo), (safe hi); reflexivity.
  - intros. split; [reflexivity|]. cbn. apply andb_comm.
  - intros. split; reflexivity.
  - intros. split; reflexivity.
  - intros. split; reflexivity.
  - intros. split; [reflexivity|]. cbn. apply andb_comm.
  - intros. split; [reflexivity|]. cbn. rewrite andb_assoc. reflexivity.
  - intros. split; [reflexivity|]. cbn. destruct (safe a), (safe b), (safe c); reflexivity.
  - intros e es es' P. split; [reflexivity|]. cbn. rewrite (nonempty_perm _ _ P), (forallb_perm safe _ _ P). reflexivity.
  - intros. split; reflexivity.
  - intros a b []. split; congruence.
  - intros a b c [] []. split; congruence.
  - intros es es' F. split; [reflexivity|]. cbn. apply Forall2_safe. eapply Forall2_imp; [|exact F]. intros a b []; assumption.
  - intros s s' H. split; [reflexivity|exact H].
  - intros op e e' [_ H]. split; [reflexivity|exact H].
  - intros op a b a' b' [_ H] [_ H']. split; [reflexivity|]. cbn. congruence.
  - intros op a b a' b' [_ H] [_ H']. split; [reflexivity|]. cbn. congruence.
  - intros e e' s s' [_ H] H'. split; [reflexivity|]. cbn. congruence.
  - intros e lo hi e' lo' hi' [_ H1] [_ H2] [_ H3]. split; [reflexivity|]. cbn. congruence.
  - intros o o' whens whens' els els' B F B'. split; [reflexivity|]. rewrite !safe_case, (case_shape_kept _ _ F).
    rewrite (both_safe o o'); [|eapply both2; [|exact B]; intros a b []; assumption].
    rewrite (both_safe els els'); [|eapply both2; [|exact B']; intros a b []; assumption].
    rewrite (Forall2_safe (fun p => safe (fst p) && safe (snd p)) whens whens'); [reflexivity|].
    eapply Forall2_imp; [|exact F]. intros a b [[_ H] [_ H']]. congruence.
  - intros s s' H. exact H.
  - intros es es' F. cbn. rewrite (nonempty_same _ _ _ F). f_equal. apply Forall2_safe. eapply Forall2_imp; [|exact F]. intros a b []; assumption.
  - reflexivity.
  - intros common common' e order lim P. rewrite !safe_select_eq, (forallb_perm safe_cte _ _ P). reflexivity.
  - reflexivity.
  - congruence.
  - intros common common' e e' order order' lim lim' F X O L. rewrite !safe_select_eq.
    rewrite (Forall2_safe safe_cte common common' F), X.
    rewrite (Forall2_safe (fun o => safe (fst (fst o))) order order'); [|eapply Forall2_imp; [|exact O]; intros a b [[_ H] _]; exact H].
    f_equal. destruct L as [|l l' [[_ H] B]]; [reflexivity|]. cbn. unfold safe_limit. rewrite H. f_equal.
    apply both_safe. eapply both2; [|exact B]. intros a b []; assumption.
  - intros id columns q q' H. exact H.
  - intros mode l from from' wh group P. rewrite !safe_query_eq, (forallb_perm safe_table _ _ P). reflexivity.
  - intros mode columns from wh gs gs' having P. rewrite !safe_query_eq. cbn. unfold safe_group. cbn.
    rewrite (forallb_perm safe _ _ P). reflexivity.
  - reflexivity.
  - congruence.
  - intros rows rows' F. cbn. rewrite (nonempty_same _ _ _ F). f_equal. apply Forall2_safe. eapply Forall2_imp; [|exact F].
    intros r r' G. apply Forall2_safe. eapply Forall2_imp; [|exact G]. intros a b []; assumption.
  - intros mode columns columns' from from' wh wh' group group' C F B G. rewrite !safe_query_eq, C, F.
    rewrite (both_safe wh wh'); [|eapply both2; [|exact B]; intros a b []; assumption]. f_equal.
    destruct G as [|g g' [G B']]; [reflexivity|]. cbn. unfold safe_group. f_equal.
    + apply Forall2_safe. eapply Forall2_imp; [|exact G]. intros a b []; assumption.
    + apply both_safe. eapply both2; [|exact B']. intros a b []; assumption.
  - intros op l r l' r' H H'. cbn. congruence.
  - intros a b l r c. rewrite !forallb_app. cbn. rewrite <- !andb_assoc. reflexivity.
  - congruence.
  - congruence.
  - intros from from' F. apply Forall2_safe. exact F.
  - intros a b c k1 k2 k3 k4. cbn. rewrite andb_assoc. reflexivity.
  - reflexivity.
  - intros s s' alias H. exact H.
  - intros l l' r r' op c c' H H' _. cbn. congruence.
  - reflexivity.
  - intros l l' F. cbn. apply Forall2_safe. exact F.
  - reflexivity.
  - intros e e' rename [_ H]. exact H.
Qed.

(** ** Types *)

Section Typed.
Context (up : Z -> list Z) (db : database) (dflt : name) (W : well_named up db) (D : has_default up db dflt).
Notation table := (catalog up db dflt).
Notation typed := (typed up table).
Notation members_typed := (members_typed up table).
Notation selects := (selects up table).
Notation common_table := (common_table up table).
Notation set_typed := (set_typed up table).
Notation item_typed := (item_typed up table).
Notation columns_typed := (columns_typed up table).
Notation column_typed := (column_typed up table).
Notation scope_ok rels := (distinct up (map fst rels)).

Lemma one_type rels e t t' : scope_ok rels -> safe e = true -> typed rels e t -> typed rels e t' -> t = t'.
Proof. intros R S. exact (typed_fun up db dflt W rels e t t' R D S). Qed.

(** The relations and columns that a FROM clause gives. *)
Definition from_typed (from : list table_expr) (rels : relations) (attrs : list attribute) : Prop :=
  exists parts, Forall2 (fun t p => item_typed t (fst p) (snd p)) from parts /\ rels = flat_map fst parts /\ attrs = flat_map snd parts.

Lemma query_rule mode columns from wh group attrs : set_typed (SQuery mode columns from wh group) attrs <->
  exists rels all requested, from_typed from rels all /\ scope_ok rels /\
    opt (fun e => exists n, typed rels e (TyScalar DLogical n)) wh /\
    opt (fun g => Forall (fun e => exists t, typed rels e t) (fst g) /\
                  opt (fun e => exists n, typed rels e (TyScalar DLogical n)) (snd g)) group /\
    columns_typed rels all columns requested /\ labelled up requested attrs.
Proof.
  split.
  - intros H. inversion H as [|? ? ? ? ? parts requested ? F Dr O G C L|]; subst.
    exists (flat_map fst parts), (flat_map snd parts), requested. split; [exists parts; auto|]. auto.
  - intros (rels & all & requested & (parts & F & -> & ->) & Dr & O & G & C & L). econstructor; eassumption.
Qed.

(** [e'] has the types that [e] has. *)
Definition gives (rels : relations) (e e' : expr) : Prop := forall t, typed rels e t -> typed rels e' t.

Definition PE (e e' : expr) : Prop :=
  same_expr e e' /\ (safe e = true -> forall rels, scope_ok rels -> forall t, typed rels e t <-> typed rels e' t).
Definition PSP (s s' : set_spec) : Prop :=
  same_spec s s' /\ (safe_spec s = true -> forall rels, scope_ok rels -> forall d m, members_typed rels s d m <-> members_typed rels s' d m).
Definition PS (s s' : select) : Prop :=
  same_select s s' /\ (safe_select s = true -> forall attrs, selects s attrs <-> selects s' attrs).
Definition PC (c c' : cte) : Prop :=
  same_cte c c' /\ cte_id c = cte_id c' /\ (safe_cte c = true -> forall attrs, common_table c attrs <-> common_table c' attrs).
Definition PX (e e' : set_expr) : Prop :=
  same_set e e' /\ (safe_set e = true -> forall attrs, set_typed e attrs <-> set_typed e' attrs).
Definition PF (f f' : list table_expr) : Prop :=
  same_from f f' /\ forallb safe_table f = forallb safe_table f' /\
  (forallb safe_table f = true -> forall rels attrs, from_typed f rels attrs <-> from_typed f' rels attrs).
Definition PT (t t' : table_expr) : Prop :=
  same_item t t' /\ safe_table t = safe_table t' /\
  (safe_table t = true -> forall rels attrs, item_typed t rels attrs <-> item_typed t' rels attrs).
Definition PN (n n' : join_constraint) : Prop := same_on n n'.
Definition PR (c c' : result_columns) : Prop :=
  same_columns c c' /\
  (safe_columns c = true -> forall rels, scope_ok rels -> forall attrs req, columns_typed rels attrs c req <-> columns_typed rels attrs c' req).
Definition PK (k k' : result_column) : Prop :=
  same_column k k' /\
  (safe_column k = true -> forall rels, scope_ok rels -> forall req, column_typed rels k req <-> column_typed rels k' req).

Lemma kept_safe e e' : same_expr e e' -> safe e = safe e'.
Proof. intros H. apply (proj1 safe_kept) in H. apply H. Qed.

Lemma two_ways e e' rels : PE e e' -> safe e = true -> scope_ok rels -> gives rels e e' /\ gives rels e' e.
Proof. intros [_ H] S R. split; intros t Ht; apply (H S rels R t); exact Ht. Qed.

Lemma two_ways_list es es' rels : Forall2 PE es es' -> forallb safe es = true -> scope_ok rels ->
  Forall2 (gives rels) es es' /\ Forall2 (gives rels) es' es.
Proof.
  induction 1 as [|a b l l' P F IH]; intros S R; [split; constructor|]. cbn in S. apply andb_true_iff in S. destruct S as [S1 S2].
  destruct (two_ways _ _ rels P S1 R). destruct (IH S2 R). split; constructor; assumption.
Qed.

Lemma two_ways_opt o o' rels : both PE o o' -> safe_opt o = true -> scope_ok rels ->
  both (gives rels) o o' /\ both (gives rels) o' o.
Proof.
  intros [|a b P] S R; [split; constructor|]. destruct (two_ways _ _ rels P S R). split; constructor; assumption.
Qed.

Lemma case_gives rels o o' whens whens' els els' : both (gives rels) o o' ->
  Forall2 (fun w w' => gives rels (snd w) (snd w')) whens whens' -> both (gives rels) els els' ->
  gives rels (ECase o whens els) (ECase o' whens' els').
Proof.
  intros B F B' t H. inversion H as [| | | | | | |? ? ? ? d ns m N O G X| |]; subst. constructor.
  - destruct F; [congruence|discriminate].
  - eapply opt_swap; [|exact B|exact O]. intros a a' K [t Ht]. exists t. apply K; exact Ht.
  - eapply Forall2_swap; [|exact F|exact G]. intros a a' n K; apply K.
  - inversion X; subst; inversion B'; subst; constructor. auto.
Qed.

Lemma first_gives es es' : Forall2 (gives []) es es' -> forall k attrs, first_typed up table k es attrs -> first_typed up table k es' attrs.
Proof.
  induction 1 as [|a b l l' G F IH]; intros k attrs H; [exact H|]. inversion H; subst. constructor; [apply G; assumption|assumption|].
  apply IH. assumption.
Qed.

Lemma row_gives es es' : Forall2 (gives []) es es' -> forall attrs attrs', row_typed up table attrs es attrs' -> row_typed up table attrs es' attrs'.
Proof.
  induction 1 as [|a b l l' G F IH]; intros attrs attrs' H; [exact H|].
  inversion H; subst; [constructor|]. constructor; [apply G; assumption|]. apply IH. assumption.
Qed.

Lemma rows_gives rows rows' : Forall2 (Forall2 (gives [])) rows rows' ->
  forall attrs attrs', rows_typed up table attrs rows attrs' -> rows_typed up table attrs rows' attrs'.
Proof.
  induction 1 as [|a b l l' G F IH]; intros attrs attrs' H; [exact H|].
  inversion H; subst. econstructor; [eapply row_gives; eassumption|]. apply IH. assumption.
Qed.

Lemma values_gives rows rows' : Forall2 (Forall2 (gives [])) rows rows' -> forall attrs, set_typed (SValues rows) attrs -> set_typed (SValues rows') attrs.
Proof.
  intros F attrs H. inversion H; subst. inversion F; subst. econstructor; [eapply first_gives; eassumption|eapply rows_gives; eassumption].
Qed.

Lemma two_ways_rows rows rows' : Forall2 (Forall2 PE) rows rows' -> forallb (forallb safe) rows = true ->
  Forall2 (Forall2 (gives [])) rows rows' /\ Forall2 (Forall2 (gives [])) rows' rows.
Proof.
  induction 1 as [|a b l l' P F IH]; intros S; [split; constructor|]. cbn in S. apply andb_true_iff in S. destruct S as [S1 S2].
  destruct (two_ways_list _ _ [] P S1 (FOP_nil _)). destruct (IH S2). split; constructor; assumption.
Qed.

Lemma in_list_perm rels e es es' : Permutation es es' -> gives rels (EIn e (SpList es)) (EIn e (SpList es')).
Proof.
  intros P t H. inversion H as [| | | | | | | |? ? ? d n m He M O|]; subst. inversion M as [? ? ? ns N F| |]; subst.
  destruct (Forall2_perm _ _ _ P _ F) as (ns' & P' & F'). rewrite (any_perm _ _ P') in O. econstructor; [exact He| |exact O].
  constructor; [|exact F']. intros ->. apply Permutation_sym, Permutation_nil in P. contradiction.
Qed.

Lemma with_perm common common' e order lim attrs : Permutation common common' ->
  selects (Select common e order lim) attrs -> selects (Select common' e order lim) attrs.
Proof.
  intros P H. inversion H as [? ? ? ? scope ? F Dr X O L]; subst.
  destruct (Forall2_perm _ _ _ P _ F) as (scope' & P' & F'). econstructor; [exact F'| |exact X| |exact L].
  - eapply distinct_perm; [|exact Dr]. apply Permutation_map. exact P'.
  - eapply Forall_impl; [|exact O]. intros o (d & n & Ho). exists d, n. eapply typed_perm; eassumption.
Qed.

Lemma from_perm mode l from from' wh group attrs : Permutation from from' ->
  set_typed (SQuery mode (RList l) from wh group) attrs -> set_typed (SQuery mode (RList l) from' wh group) attrs.
Proof.
  intros P H. inversion H as [|? ? ? ? ? parts requested ? F Dr O G C L|]; subst.
  destruct (Forall2_perm _ _ _ P _ F) as (parts' & P' & F').
  assert (Pr : Permutation (flat_map fst parts) (flat_map fst parts')) by (apply Permutation_flat_map; exact P').
  econstructor; [exact F'| | | | |exact L].
  - eapply distinct_perm; [|exact Dr]. apply Permutation_map. exact Pr.
  - destruct O as [|e0 [n O]]; constructor. exists n. eapply typed_perm; eassumption.
  - destruct G as [|[gs h] [G H']]; constructor. cbn in *. split.
    + eapply Forall_impl; [|exact G]. intros e1 [t1 Ht]. exists t1. eapply typed_perm; eassumption.
    + destruct H' as [|e0 [n H']]; constructor. exists n. eapply typed_perm; eassumption.
  - eapply columns_perm; [exact Pr|exact C].
Qed.

Lemma group_perm mode columns from wh gs gs' having attrs : Permutation gs gs' ->
  set_typed (SQuery mode columns from wh (Some (gs, having))) attrs -> set_typed (SQuery mode columns from wh (Some (gs', having))) attrs.
Proof.
  intros P H. inversion H as [|? ? ? ? ? parts requested ? F Dr O G C L|]; subst. econstructor; try eassumption.
  inversion G as [|? [G1 G2]]; subst. constructor. cbn in *. split; [|exact G2]. eapply Permutation_Forall; eassumption.
Qed.

(** *** Laws *)

Lemma less_equal_typed rels a b t : typed rels (ECompare CLessEqual a b) t <->
  exists d n m, typed rels a (TyScalar d n) /\ typed rels b (TyScalar d m) /\ orderable d /\ t = TyScalar DLogical (n || m).
Proof.
  rewrite typed_compare. split.
  - intros (t1 & t2 & H1 & H2 & H). inversion H as [? d n m I|? ts us I|? d n m I O|]; subst;
      [cbn in I; repeat destruct I as [I|I]; discriminate || contradiction..|]. exists d, n, m. auto.
  - intros (d & n & m & H1 & H2 & O & ->). eexists _, _. split; [exact H1|]. split; [exact H2|]. apply cr_order; [cbn; tauto|exact O].
Qed.

Lemma between_law e lo hi rels t : safe e = true -> scope_ok rels ->
  typed rels (EBetween e lo hi) t <-> typed rels (EBinary BAnd (ECompare CLessEqual lo e) (ECompare CLessEqual e hi)) t.
Proof.
  intros S R. rewrite binary_typed. cbn. split.
  - intros H. inversion H as [| | | | | |? ? ? ? d n1 n2 n3 H1 H2 H3 O| | |]; subst. exists (n2 || n1), (n1 || n3).
    split; [apply less_equal_typed; eauto 8|]. split; [apply less_equal_typed; eauto 8|]. f_equal. destruct n1, n2, n3; reflexivity.
  - intros (n & m & H1 & H2 & ->). apply less_equal_typed in H1. apply less_equal_typed in H2.
    destruct H1 as (d & a & b & L1 & L2 & O & E1). destruct H2 as (d' & a' & b' & L1' & L2' & O' & E2).
    pose proof (one_type rels e _ _ R S L2 L1') as E. injection E as <- <-. injection E1 as ->. injection E2 as ->.
    replace ((a || b) || (b || b')) with (b || a || b') by (destruct a, b, b'; reflexivity).
    econstructor; eassumption.
Qed.

Lemma flip_law op op' a b rels t : flipped op op' -> typed rels (ECompare op a b) t <-> typed rels (ECompare op' b a) t.
Proof.
  intros F. rewrite !typed_compare. split; intros (t1 & t2 & H1 & H2 & H); exists t2, t1; (split; [exact H2|]); (split; [exact H1|]);
    eapply compare_flip; try exact H; [exact F|apply flipped_back; exact F].
Qed.

Lemma not_law op op' a b rels t : opposite op op' -> typed rels (EUnary UNot (ECompare op a b)) t <-> typed rels (ECompare op' a b) t.
Proof.
  intros F. rewrite not_typed, typed_compare. split.
  - intros (n & H & ->). apply typed_compare in H. destruct H as (t1 & t2 & H1 & H2 & H). exists t1, t2. split; [exact H1|].
    split; [exact H2|]. eapply compare_opposite; eassumption.
  - intros (t1 & t2 & H1 & H2 & H). destruct (compare_logical _ _ _ _ H) as [n ->]. exists n. split; [|reflexivity].
    apply typed_compare. exists t1, t2. split; [exact H1|]. split; [exact H2|].
    eapply compare_opposite; [apply opposite_back; exact F|exact H].
Qed.

Lemma dual_law op op' a b rels t : dual op op' ->
  typed rels (EUnary UNot (EBinary op a b)) t <-> typed rels (EBinary op' (EUnary UNot a) (EUnary UNot b)) t.
Proof.
  intros F. rewrite not_typed, binary_typed. assert (E : works_on op = DLogical /\ works_on op' = DLogical) by (destruct F; auto).
  destruct E as [E E']. split.
  - intros (n & H & ->). apply binary_typed in H. destruct H as (n1 & n2 & H1 & H2 & H). rewrite E in *. rewrite E'. exists n1, n2.
    split; [apply not_typed; eauto|]. split; [apply not_typed; eauto|exact H].
  - intros (n1 & n2 & H1 & H2 & ->). apply not_typed in H1. apply not_typed in H2. destruct H1 as (m1 & H1 & E1). destruct H2 as (m2 & H2 & E2).
    rewrite E' in *. injection E1 as ->. injection E2 as ->. exists (m1 || m2). split; [|reflexivity]. apply binary_typed.
    rewrite E. eauto.
Qed.

Lemma subtract_law a b rels t : typed rels (EBinary BSubtract a b) t <-> typed rels (EBinary BAdd a (EUnary UNegate b)) t.
Proof.
  rewrite !binary_typed. cbn. split.
  - intros (n & m & H1 & H2 & ->). exists n, m. split; [exact H1|]. split; [apply negate_typed; eauto|reflexivity].
  - intros (n & m & H1 & H2 & ->). apply negate_typed in H2. destruct H2 as (m' & H2 & [= <-]). eauto.
Qed.

Lemma commute_law op a b rels t : typed rels (EBinary op a b) t -> typed rels (EBinary op b a) t.
Proof.
  rewrite !binary_typed. intros (n & m & H1 & H2 & ->). exists m, n. split; [exact H2|]. split; [exact H1|]. rewrite orb_comm. reflexivity.
Qed.

Lemma regroup_law op a b c rels t : typed rels (EBinary op (EBinary op a b) c) t <-> typed rels (EBinary op a (EBinary op b c)) t.
Proof.
  rewrite !binary_typed. split.
  - intros (n & m & H1 & H2 & ->). apply binary_typed in H1. destruct H1 as (n1 & n2 & H1 & H3 & [= ->]).
    exists n1, (n2 || m). split; [exact H1|]. split; [apply binary_typed; eauto|]. rewrite orb_assoc. reflexivity.
  - intros (n & m & H1 & H2 & ->). apply binary_typed in H2. destruct H2 as (n1 & n2 & H2 & H3 & [= ->]).
    exists (n || n1), n2. split; [apply binary_typed; eauto|]. split; [exact H3|]. rewrite orb_assoc. reflexivity.
Qed.

Lemma distribute_law op op' a b c rels t : distributes op op' -> safe a = true -> scope_ok rels ->
  typed rels (EBinary op a (EBinary op' b c)) t <-> typed rels (EBinary op' (EBinary op a b) (EBinary op a c)) t.
Proof.
  intros F S R. assert (E : works_on op' = works_on op) by (destruct F; reflexivity). rewrite !binary_typed. rewrite E. split.
  - intros (n & m & H1 & H2 & ->). apply binary_typed in H2. rewrite E in H2. destruct H2 as (n1 & n2 & H2 & H3 & [= ->]).
    exists (n || n1), (n || n2). split; [apply binary_typed; eauto|]. split; [apply binary_typed; eauto|].
    f_equal. destruct n, n1, n2; reflexivity.
  - intros (n & m & H1 & H2 & ->). apply binary_typed in H1. apply binary_typed in H2.
    destruct H1 as (n1 & n2 & H1 & H3 & [= ->]). destruct H2 as (m1 & m2 & H2 & H4 & [= ->]).
    pose proof (one_type rels a _ _ R S H1 H2) as [= <-]. exists n1, (n2 || m2). split; [exact H1|].
    split; [apply binary_typed; rewrite E; eauto|]. f_equal. destruct n1, n2, m2; reflexivity.
Qed.

Lemma cross_law a b l r c rels attrs :
  from_typed (a ++ TJoin l r JCross c :: b) rels attrs <-> from_typed (a ++ l :: r :: b) rels attrs.
Proof.
  split; intros (parts & F & -> & ->).
  - apply Forall2_app_inv_l in F. destruct F as (p1 & p2 & F1 & F2 & ->). inversion F2 as [|? p ? p3 H F3]; subst.
    inversion H; subst. destruct p as [rl al]. cbn in *. subst.
    exists (p1 ++ (rels1, attrs1) :: (rels2, attrs2) :: p3). split.
    + apply Forall2_app; [exact F1|]. constructor; [assumption|]. constructor; assumption.
    + rewrite !flat_map_app. cbn. rewrite <- !app_assoc. auto.
  - apply Forall2_app_inv_l in F. destruct F as (p1 & p2 & F1 & F2 & ->). inversion F2 as [|? p ? p3 H F3]; subst.
    inversion F3 as [|? p' ? p4 H' F4]; subst.
    exists (p1 ++ (fst p ++ fst p', snd p ++ snd p') :: p4). split.
    + apply Forall2_app; [exact F1|]. constructor; [|exact F4]. constructor; assumption.
    + rewrite !flat_map_app. cbn. rewrite <- !app_assoc. auto.
Qed.

Lemma join_regroup_law a b c k1 k2 k3 k4 rels attrs :
  item_typed (TJoin (TJoin a b JCross k1) c JCross k2) rels attrs <-> item_typed (TJoin a (TJoin b c JCross k3) JCross k4) rels attrs.
Proof.
  split; intros H; inversion H as [| |? ? ? ? r1 r2 a1 a2 H1 H2]; subst.
  - inversion H1; subst. rewrite <- !app_assoc. constructor; [assumption|]. constructor; assumption.
  - inversion H2; subst. rewrite !app_assoc. constructor; [|assumption]. constructor; assumption.
Qed.

(** *** Inside of statements *)

Ltac laws := intros; split; [constructor; assumption|]; intros S rels R t.
Ltac safe_parts := repeat match goal with H : _ && _ = true |- _ => apply andb_true_iff in H; destruct H end.

Lemma related_list es es' : Forall2 PE es es' -> Forall2 same_expr es es'.
Proof. apply Forall2_imp. intros a b [H _]. exact H. Qed.
Lemma related_opt o o' : both PE o o' -> both same_expr o o'.
Proof. apply both2. intros a b [H _]. exact H. Qed.

Lemma select_gives common common' e e' order order' lim lim' attrs :
  Forall2 (fun c c' => cte_id c = cte_id c' /\ forall l, common_table c l -> common_table c' l) common common' ->
  (forall l, set_typed e l -> set_typed e' l) ->
  (forall rels, scope_ok rels -> Forall2 (fun o o' => gives rels (fst (fst o)) (fst (fst o'))) order order') ->
  both (fun l l' => gives [] (fst l) (fst l') /\ both (gives []) (snd l) (snd l')) lim lim' ->
  selects (Select common e order lim) attrs -> selects (Select common' e' order' lim') attrs.
Proof.
  intros F X O L H. inversion H as [? ? ? ? scope ? Fs Dr Hx Ho Hl]; subst. econstructor; [|exact Dr|apply X; exact Hx| |].
  - eapply Forall2_swap; [|exact F|exact Fs]. cbn. intros c c' r [E K] [E' Hc]. split; [congruence|apply K; exact Hc].
  - eapply Forall_swap; [|exact (O scope Dr)|exact Ho]. cbn. intros o o' K (d & n & Ht). exists d, n. apply K; exact Ht.
  - eapply opt_swap; [|exact L|exact Hl]. cbn. intros l l' [K B] [Ht Hs]. split; [apply K; exact Ht|].
    eapply opt_swap; [|exact B|exact Hs]. intros a a' Ka. apply Ka.
Qed.

Lemma query_gives mode columns columns' from from' wh wh' group group' attrs :
  (forall rels all, from_typed from rels all -> from_typed from' rels all) ->
  (forall rels, scope_ok rels -> forall all req, columns_typed rels all columns req -> columns_typed rels all columns' req) ->
  (forall rels, scope_ok rels -> both (gives rels) wh wh') ->
  (forall rels, scope_ok rels -> both (fun g g' => Forall2 (gives rels) (fst g) (fst g') /\ both (gives rels) (snd g) (snd g')) group group') ->
  set_typed (SQuery mode columns from wh group) attrs -> set_typed (SQuery mode columns' from' wh' group') attrs.
Proof.
  intros F C O G. rewrite !query_rule. intros (rels & all & req & Hf & Dr & Ho & Hg & Hc & L). exists rels, all, req.
  split; [apply F; exact Hf|]. split; [exact Dr|]. split; [|split; [|split; [apply C; assumption|exact L]]].
  - eapply opt_swap; [|exact (O rels Dr)|exact Ho]. intros a a' K [n Ht]. exists n. apply K; exact Ht.
  - eapply opt_swap; [|exact (G rels Dr)|exact Hg]. cbn. intros g g' [K B] [Ht Hs]. split.
    + eapply Forall_swap; [|exact K|exact Ht]. intros a a' Ka [t Ha]. exists t. apply Ka; exact Ha.
    + eapply opt_swap; [|exact B|exact Hs]. intros a a' Ka [n Ha]. exists n. apply Ka; exact Ha.
Qed.

Lemma forallb_Forall2 {A} (f : A -> bool) (R : A -> A -> Prop) l l' : Forall2 R l l' -> forallb f l = true ->
  Forall2 (fun a b => R a b /\ f a = true) l l'.
Proof.
  induction 1 as [|a b l l' H F IH]; intros S; constructor; cbn in S; apply andb_true_iff in S; destruct S; auto.
Qed.

Theorem rewriting :
  (forall e e', same_expr e e' -> PE e e') /\ (forall s s', same_select s s' -> PS s s') /\
  (forall e e', same_set e e' -> PX e e').
Proof.
  apply (same_induction PE PSP PS PC PX PF PT PN PR PK).
  - intros e lo hi. split; [constructor|]. intros S rels R t. cbn in S. safe_parts. apply between_law; assumption.
  - laws. apply flip_law. assumption.
  - laws. apply not_law. assumption.
  - laws. apply dual_law. assumption.
  - intros a b. split; [constructor|]. intros S rels R t. apply subtract_law.
  - laws. split; apply commute_law.
  - laws. apply regroup_law.
  - laws. cbn in S. safe_parts. apply distribute_law; assumption.
  - laws. split; apply in_list_perm; [|apply Permutation_sym]; assumption.
  - intros e. split; [constructor|]. tauto.
  - intros a b [H K]. split; [apply e_sym; exact H|]. intros S rels R t. symmetry. apply K; [|exact R].
    rewrite (kept_safe _ _ H). exact S.
  - intros a b c [H K] [H' K']. split; [eapply e_trans; eassumption|]. intros S rels R t. rewrite (K S rels R t). apply K'; [|exact R].
    rewrite <- (kept_safe _ _ H). exact S.
  - intros es es' F. split; [constructor; apply related_list; exact F|]. intros S rels R t. cbn in S.
    destruct (two_ways_list _ _ rels F S R) as [A B].
    split; intros H; inversion H; subst; constructor; (eapply Forall2_swap; [|eassumption|eassumption]); intros x y u K; apply K.
  - intros s s' [H K]. split; [constructor; exact H|]. intros S rels R t. cbn in S. specialize (K S).
    split; intros Ht; inversion Ht; subst; constructor; apply K; assumption.
  - intros op e e' P. split; [constructor; apply P|]. intros S rels R t. cbn in S. destruct (two_ways _ _ rels P S R) as [A B].
    rewrite !typed_unary. split; intros (t1 & H1 & H2); exists t1; auto.
  - intros op a b a' b' P P'. split; [constructor; [apply P|apply P']|]. intros S rels R t. cbn in S. safe_parts.
    destruct (two_ways _ _ rels P ltac:(assumption) R) as [A B]. destruct (two_ways _ _ rels P' ltac:(assumption) R) as [A' B'].
    rewrite !typed_binary. split; intros (t1 & t2 & H1 & H2 & H3); exists t1, t2; auto.
  - intros op a b a' b' P P'. split; [constructor; [apply P|apply P']|]. intros S rels R t. cbn in S. safe_parts.
    destruct (two_ways _ _ rels P ltac:(assumption) R) as [A B]. destruct (two_ways _ _ rels P' ltac:(assumption) R) as [A' B'].
    rewrite !typed_compare. split; intros (t1 & t2 & H1 & H2 & H3); exists t1, t2; auto.
  - intros e e' s s' P [H K]. split; [constructor; [apply P|exact H]|]. intros S rels R t. cbn in S. safe_parts.
    destruct (two_ways _ _ rels P ltac:(assumption) R) as [A B]. specialize (K ltac:(assumption) rels R).
    split; intros Ht; inversion Ht; subst; (econstructor; [|apply K; eassumption|eassumption]); auto.
  - intros e lo hi e' lo' hi' P1 P2 P3. split; [constructor; [apply P1|apply P2|apply P3]|]. intros S rels R t. cbn in S. safe_parts.
    destruct (two_ways _ _ rels P1 ltac:(assumption) R) as [A1 B1]. destruct (two_ways _ _ rels P2 ltac:(assumption) R) as [A2 B2].
    destruct (two_ways _ _ rels P3 ltac:(assumption) R) as [A3 B3].
    split; intros Ht; inversion Ht; subst; econstructor; eauto.
  - intros o o' whens whens' els els' B F B'. split.
    { constructor; [apply related_opt; exact B| |apply related_opt; exact B']. eapply Forall2_imp; [|exact F].
      intros w w' [[H _] [H' _]]. auto. }
    intros S rels R t. rewrite safe_case in S. safe_parts.
    destruct (two_ways_opt _ _ rels B ltac:(assumption) R) as [A1 A2]. destruct (two_ways_opt _ _ rels B' ltac:(assumption) R) as [C1 C2].
    assert (G : Forall2 (fun w w' => gives rels (snd w) (snd w') /\ gives rels (snd w') (snd w)) whens whens').
    { eapply Forall2_imp; [|eapply forallb_Forall2; [exact F|eassumption]]. intros w w' [[_ P] Sw]. cbn in Sw. safe_parts.
      apply two_ways; assumption. }
    split; apply case_gives; try assumption.
    + eapply Forall2_imp; [|exact G]. intros w w' []; assumption.
    + eapply Forall2_imp; [|apply Forall2_back; exact G]. intros w w' []; assumption.
  - intros s s' [H K]. split; [constructor; exact H|]. intros S rels R d m. cbn in S. specialize (K S).
    split; intros Ht; inversion Ht; subst; constructor; apply K; assumption.
  - intros es es' F. split; [constructor; apply related_list; exact F|]. intros S rels R d m. cbn in S. safe_parts.
    destruct (two_ways_list _ _ rels F ltac:(assumption) R) as [A B].
    split; intros Ht; inversion Ht; subst.
    + constructor; [intros ->; inversion F; subst; congruence|].
      eapply Forall2_swap; [|exact A|eassumption]. intros x y u K. apply K.
    + constructor; [intros ->; inversion F; subst; congruence|].
      eapply Forall2_swap; [|exact B|eassumption]. intros x y u K. apply K.
  - intros q. split; [constructor|]. tauto.
  - intros common common' e order lim P. split; [constructor; exact P|]. intros S attrs.
    split; apply with_perm; [exact P|apply Permutation_sym; exact P].
  - intros s. split; [constructor|]. tauto.
  - intros a b c [H K] [H' K']. split; [eapply q_trans; eassumption|]. intros S attrs. rewrite (K S attrs). apply K'.
    rewrite <- (proj1 (proj2 safe_kept) _ _ H). exact S.
  - intros common common' e e' order order' lim lim' F [H K] O L. split.
    { constructor; [|exact H| |].
      - eapply Forall2_imp; [|exact F]. intros c c' [Hc _]. exact Hc.
      - eapply Forall2_imp; [|exact O]. intros o o' [[Ho _] E]. auto.
      - eapply both2; [|exact L]. cbn. intros l l' [[Hl _] B]. split; [exact Hl|apply related_opt; exact B]. }
    intros S attrs. rewrite safe_select_eq in S. safe_parts.
    assert (Fc : Forall2 (fun c c' => cte_id c = cte_id c' /\ forall l, common_table c l <-> common_table c' l) common common').
    { eapply Forall2_imp; [|eapply forallb_Forall2; [exact F|eassumption]]. intros c c' [(_ & E & Kc) Sc]. auto. }
    assert (Oc : forall rels, scope_ok rels -> Forall2 (fun o o' => gives rels (fst (fst o)) (fst (fst o')) /\ gives rels (fst (fst o')) (fst (fst o))) order order').
    { intros rels R. eapply Forall2_imp; [|eapply (forallb_Forall2 (fun o => safe (fst (fst o)))); [exact O|eassumption]].
      intros o o' [[P _] So]. apply two_ways; assumption. }
    assert (Lc : both (fun l l' => (gives [] (fst l) (fst l') /\ both (gives []) (snd l) (snd l')) /\
                                   (gives [] (fst l') (fst l) /\ both (gives []) (snd l') (snd l))) lim lim').
    { destruct L as [|l l' [P B]]; constructor. cbn in *. unfold safe_limit in *. safe_parts.
      destruct (two_ways _ _ [] P ltac:(assumption) (FOP_nil _)). destruct (two_ways_opt _ _ [] B ltac:(assumption) (FOP_nil _)). auto. }
    split; apply select_gives.
    + eapply Forall2_imp; [|exact Fc]. intros c c' [E Kc]. split; [exact E|intros l; apply Kc].
    + intros l. apply K. assumption.
    + intros rels R. eapply Forall2_imp; [|exact (Oc rels R)]. intros o o' []; assumption.
    + eapply both2; [|exact Lc]. intros l l' []; assumption.
    + eapply Forall2_imp; [|apply Forall2_back; exact Fc]. intros c c' [E Kc]. split; [symmetry; exact E|intros l; apply Kc].
    + intros l. apply K. assumption.
    + intros rels R. eapply Forall2_imp; [|apply Forall2_back; exact (Oc rels R)]. intros o o' []; assumption.
    + eapply both2; [|apply both_back; exact Lc]. intros l l' []; assumption.
  - intros id columns q q' [H K]. split; [constructor; exact H|]. split; [reflexivity|]. intros S attrs. specialize (K S).
    split; intros Hc; inversion Hc; subst; econstructor; try eassumption; apply K; assumption.
  - intros mode l from from' wh group P. split; [constructor; exact P|]. intros S attrs.
    split; apply from_perm; [exact P|apply Permutation_sym; exact P].
  - intros mode columns from wh gs gs' having P. split; [constructor; exact P|]. intros S attrs.
    split; apply group_perm; [exact P|apply Permutation_sym; exact P].
  - intros e. split; [constructor|]. tauto.
  - intros a b c [H K] [H' K']. split; [eapply x_trans; eassumption|]. intros S attrs. rewrite (K S attrs). apply K'.
    rewrite <- (proj2 (proj2 safe_kept) _ _ H). exact S.
  - intros rows rows' F. split.
    { constructor. eapply Forall2_imp; [|exact F]. intros r r'. apply related_list. }
    intros S attrs. cbn in S. safe_parts. destruct (two_ways_rows _ _ F ltac:(assumption)) as [A B].
    split; apply values_gives; assumption.
  - intros mode columns columns' from from' wh wh' group group' [Hc Kc] (Hf & Ef & Kf) B G. split.
    { constructor; [exact Hc|exact Hf|apply related_opt; exact B|]. eapply both2; [|exact G]. cbn. intros g g' [F B'].
      split; [apply related_list; exact F|apply related_opt; exact B']. }
    intros S attrs. rewrite safe_query_eq in S. safe_parts.
    assert (Gc : forall rels, scope_ok rels ->
      both (fun g g' => (Forall2 (gives rels) (fst g) (fst g') /\ both (gives rels) (snd g) (snd g')) /\
                        (Forall2 (gives rels) (fst g') (fst g) /\ both (gives rels) (snd g') (snd g))) group group').
    { intros rels R. destruct G as [|g g' [F B']]; constructor. cbn in *. unfold safe_group in *. safe_parts.
      destruct (two_ways_list _ _ rels F ltac:(assumption) R). destruct (two_ways_opt _ _ rels B' ltac:(assumption) R). auto. }
    split; apply query_gives.
    + intros rels all. apply Kf; assumption.
    + intros rels R all req. apply Kc; assumption.
    + intros rels R. apply (two_ways_opt _ _ rels B); assumption.
    + intros rels R. eapply both2; [|exact (Gc rels R)]. intros g g' []; assumption.
    + intros rels all. apply Kf; assumption.
    + intros rels R all req. apply Kc; assumption.
    + intros rels R. apply (two_ways_opt _ _ rels B); assumption.
    + intros rels R. eapply both2; [|apply both_back; exact (Gc rels R)]. intros g g' []; assumption.
  - intros op l r l' r' [H K] [H' K']. split; [constructor; assumption|]. intros S attrs. cbn in S. safe_parts.
    split; intros Ht; inversion Ht; subst; (econstructor; [apply K; eassumption|apply K'; eassumption|eassumption]).
  - intros a b l r c. split; [constructor|]. split; [rewrite !forallb_app; cbn; rewrite <- !andb_assoc; reflexivity|].
    intros S rels attrs. apply cross_law.
  - intros a b c (H & E & K) (H' & E' & K'). split; [eapply f_trans; eassumption|]. split; [congruence|].
    intros S rels attrs. rewrite (K S rels attrs). apply K'. congruence.
  - intros a b (H & E & K). split; [apply f_sym; exact H|]. split; [congruence|]. intros S rels attrs. symmetry. apply K. congruence.
  - intros from from' F. split; [constructor; eapply Forall2_imp; [|exact F]; intros t t' (H & _); exact H|].
    split; [apply Forall2_safe; eapply Forall2_imp; [|exact F]; intros t t' (_ & E & _); exact E|].
    intros S rels attrs. pose proof (forallb_Forall2 _ _ _ _ F S) as G.
    split; intros (parts & Fp & -> & ->); exists parts; (split; [|auto]).
    + eapply Forall2_swap; [|exact G|exact Fp]. cbn. intros t t' p [(_ & _ & K) St] Hp. apply K; assumption.
    + eapply Forall2_swap; [|apply Forall2_back; exact G|exact Fp]. cbn. intros t t' p [(_ & _ & K) St] Hp. apply K; assumption.
  - intros a b c k1 k2 k3 k4. split; [constructor|]. split; [cbn; rewrite andb_assoc; reflexivity|]. intros S rels attrs. apply join_regroup_law.
  - intros t. split; [constructor|]. split; [reflexivity|]. tauto.
  - intros s s' alias [H K]. split; [constructor; exact H|]. split; [apply (proj1 (proj2 safe_kept)); exact H|].
    intros S rels attrs. cbn in S. specialize (K S). split; intros Ht; inversion Ht; subst; constructor; apply K; assumption.
  - intros l l' r r' op c c' (H & E & K) (H' & E' & K') Hn. split; [constructor; assumption|]. split; [cbn; congruence|].
    intros S rels attrs. cbn in S. safe_parts.
    split; intros Ht; inversion Ht; subst; constructor; (apply K || apply K'); assumption.
  - intros e e' [H _]. constructor. exact H.
  - intros l. constructor.
  - split; [constructor|]. tauto.
  - intros l l' F. split; [constructor; eapply Forall2_imp; [|exact F]; intros k k' [H _]; exact H|].
    intros S rels R attrs req. cbn in S. pose proof (forallb_Forall2 _ _ _ _ F S) as G.
    split; intros Ht; inversion Ht; subst; constructor.
    + eapply Forall2_swap; [|exact G|eassumption]. cbn. intros k k' p [[_ K] St] Hp. apply K; assumption.
    + eapply Forall2_swap; [|apply Forall2_back; exact G|eassumption]. cbn. intros k k' p [[_ K] St] Hp. apply K; assumption.
  - intros n. split; [constructor|]. tauto.
  - intros e e' rename P. split; [constructor; apply P|]. intros S rels R req. cbn in S. destruct (two_ways _ _ rels P S R) as [A B].
    split; intros Ht; inversion Ht; subst; constructor; auto.
Qed.

Definition expr_rewriting := proj1 rewriting.
Definition select_rewriting := proj1 (proj2 rewriting).
Definition set_rewriting := proj2 (proj2 rewriting).

(** ** Statements *)

Lemma filter_swap q attrs wh wh' : both same_expr wh wh' -> safe_opt wh = true ->
  (filter_typed up table q attrs wh <-> filter_typed up table q attrs wh').
Proof.
  intros B S. assert (R : scope_ok [(last q [], attrs)]) by (repeat constructor).
  assert (B' : both PE wh wh') by (eapply both2; [|exact B]; exact expr_rewriting).
  destruct (two_ways_opt _ _ _ B' S R) as [A1 A2]. unfold filter_typed.
  split; eapply opt_swap; try eassumption; cbn; intros a a' K [n Ha]; exists n; apply K; exact Ha.
Qed.

Lemma assign_gives (Q Q' : expr -> data_type -> bool -> Prop) attrs l l' :
  Forall2 (fun a a' => fst a = fst a' /\ forall d n, Q (snd a) d n -> Q' (snd a') d n) l l' ->
  assignable up Q attrs l -> assignable up Q' attrs l'.
Proof.
  intros F [Dr H]. split.
  - assert (E : flat_map fst l = flat_map fst l'); [|rewrite <- E; exact Dr]. clear H Dr.
    induction F as [|a a' l l' [E _] F IH]; cbn; [reflexivity|]. rewrite E, IH. reflexivity.
  - clear Dr. induction F as [|a a' l l' [E K] F IH]; inversion H as [|? ? (t & n & Ht & G) H']; subst; constructor; [|auto].
    exists t, n. split; [apply K; exact Ht|]. rewrite <- E. exact G.
Qed.

Lemma safe_statement_kept s s' : same_statement s s' -> safe_statement s = safe_statement s'.
Proof.
  intros H. destruct H as [s s' H|i i' Ei Ec H|u u' Et F B|d d' Et B]; cbn.
  - apply (proj1 (proj2 safe_kept)). exact H.
  - apply (proj2 (proj2 safe_kept)). exact H.
  - change (forallb (fun a => safe (snd a)) (u_assignments u) && safe_opt (u_where u) =
            forallb (fun a => safe (snd a)) (u_assignments u') && safe_opt (u_where u')).
    f_equal; [apply Forall2_safe; eapply Forall2_imp; [|exact F]; intros a a' [_ K]; apply kept_safe; exact K|].
    apply both_safe. eapply both2; [|exact B]. apply kept_safe.
  - apply both_safe. eapply both2; [|exact B]. apply kept_safe.
Qed.

Lemma statement_rewriting s s' : same_statement s s' -> safe_statement s = true ->
  (statement_typed up table s <-> statement_typed up table s').
Proof.
  intros H. destruct H as [s s' H|i i' Ei Ec H|u u' Et F B|d d' Et B]; cbn; intros S.
  - destruct (select_rewriting _ _ H) as [_ K]. specialize (K S).
    split; intros Ht; inversion Ht; subst; econstructor; apply K; eassumption.
  - destruct (set_rewriting _ _ H) as [_ K]. specialize (K S).
    split; intros Ht; inversion Ht as [|? attrs values Hc Hs Hv| |]; subst.
    + apply (st_insert up table i' attrs values); [rewrite <- Ei; exact Hc|apply K; exact Hs|rewrite <- Ec; exact Hv].
    + apply (st_insert up table i attrs values); [rewrite Ei; exact Hc|apply K; exact Hs|rewrite Ec; exact Hv].
  - safe_parts. assert (R : forall attrs : list attribute, scope_ok [(last (u_table u') [], attrs)]) by (intros; repeat constructor).
    pose proof (forallb_Forall2 (fun a => safe (snd a)) _ _ _ F ltac:(assumption)) as G.
    split; intros Ht; inversion Ht as [| |? attrs Hc Ha Hw|]; subst; econstructor.
    + rewrite <- Et. exact Hc.
    + eapply assign_gives; [|exact Ha]. eapply Forall2_imp; [|exact G]. cbn. intros a a' [[E K] Sa]. split; [exact E|].
      intros t n Hn. rewrite Et in Hn. apply (proj2 (expr_rewriting _ _ K) Sa _ (R attrs)). exact Hn.
    + rewrite <- Et. apply (filter_swap _ _ _ _ B); assumption.
    + rewrite Et. exact Hc.
    + eapply assign_gives; [|exact Ha]. eapply Forall2_imp; [|apply Forall2_back; exact G]. cbn. intros a a' [[E K] Sa]. split; [symmetry; exact E|].
      intros t n Hn. rewrite Et. apply (proj2 (expr_rewriting _ _ K) Sa _ (R attrs)). exact Hn.
    + rewrite Et. apply (filter_swap _ _ _ _ B); assumption.
  - split; intros Ht; inversion Ht as [| | |? attrs Hc Hw]; subst; econstructor.
    + rewrite <- Et. exact Hc.
    + rewrite <- Et. apply (filter_swap _ _ _ _ B); assumption.
    + rewrite Et. exact Hc.
    + rewrite Et. apply (filter_swap _ _ _ _ B); assumption.
Qed.

Lemma sql_rewriting s s' : same_sql s s' -> safe_sql s = true ->
  validate up (set_context_new up db dflt) s' = validate up (set_context_new up db dflt) s.
Proof.
  intros H S.
  assert (S' : safe_sql s' = true) by (rewrite <- S; symmetry; destruct H; apply safe_statement_kept; assumption).
  assert (E : sql_typed up table s <-> sql_typed up table s').
  { destruct H as [a b H|a b H]; (split; intros Ht; inversion Ht; subst; constructor; apply (statement_rewriting _ _ H S); assumption). }
  pose proof (sql_exact up db dflt W s D S) as A. pose proof (sql_exact up db dflt W s' D S') as A'.
  pose proof (sql_refused up db dflt W s D S) as B. pose proof (sql_refused up db dflt W s' D S') as B'.
  destruct (SqlPanic.validate_returns up (set_context_new up db dflt) s (default_registered up db dflt D) S) as [[[]|[]] Ev].
  - rewrite Ev. apply A', E, A. exact Ev.
  - rewrite Ev. apply B'. intros Hs. apply B in Ev. apply Ev, E. exact Hs.
Qed.

Lemma query_rewriting s s' attrs : same_select s s' -> safe_select s = true ->
  ((exists r, infer_select up (set_context_new up db dflt) s = ok r /\ r_attrs r = attrs) <->
   (exists r, infer_select up (set_context_new up db dflt) s' = ok r /\ r_attrs r = attrs)).
Proof.
  intros H S. rewrite (query_exact up db dflt W s attrs D S).
  rewrite (query_exact up db dflt W s' attrs D); [|rewrite <- (proj1 (proj2 safe_kept) _ _ H); exact S].
  apply (proj2 (select_rewriting _ _ H) S).
Qed.

Lemma expression_rewriting e e' rels y t : same_expr e e' -> safe e = true -> add_relations up [] rels = Ok y ->
  (infer up (set_context_new up db dflt) y e = ok t <-> infer up (set_context_new up db dflt) y e' = ok t).
Proof.
  intros H S Sc. rewrite (expr_exact up db dflt W rels y e t Sc D S).
  rewrite (expr_exact up db dflt W rels y e' t Sc D); [|rewrite <- (kept_safe _ _ H); exact S].
  apply (proj2 (expr_rewriting _ _ H) S). eapply scope_distinct. exact Sc.
Qed.
End Typed.
