(** * Accepted queries give tables of the reported columns *)

From Coq Require Import ZifyBool ZifyNat.
From Verif Require Import Base SqlNameModel SqlModel SqlNameProofs SqlTypeProofs SqlSpec SqlScope SqlEval SqlInd
  SqlColumnsSpec SqlRules SqlRulesBase.
From Verif Require Import SqlSpec SqlRun.
Local Open Scope nat_scope.
Local Open Scope list_scope.

(** ** Replies *)

Section Fine.
Context (loose : bool).

Definition fine {A : Type} (P : A -> Prop) (r : reply A) : Prop :=
  (exists a, r = Done a /\ P a) \/ r = Failed \/ (r = Unchecked /\ loose = true).

Lemma fine_done {A} (P : A -> Prop) a : P a -> fine P (Done a).
Proof. intros H. left. eauto. Qed.

Lemma fine_weaken {A} (P Q : A -> Prop) r : (forall a, P a -> Q a) -> fine P r -> fine Q r.
Proof. intros H [(a & -> & Ha)|[->|[-> L]]]; unfold fine; eauto. Qed.

Lemma fine_next {A B} (P : A -> Prop) (Q : B -> Prop) r f : fine P r -> (forall a, P a -> fine Q (f a)) -> fine Q (next r f).
Proof. intros [(a & -> & Ha)|[->|[-> L]]] H; cbn; [auto|right; left; reflexivity|right; right; auto]. Qed.

Lemma fine_answer strict r t : good strict r t -> fine (fun v => fits strict v t) (of_answer r).
Proof. intros [(v & -> & H)| ->]; cbn; [apply fine_done; exact H|right; left; reflexivity]. Qed.

Lemma fine_each {A B} (P : A -> B -> Prop) (f : A -> reply B) l :
  Forall (fun a => fine (P a) (f a)) l -> fine (Forall2 P l) (each f l).
Proof.
  induction 1 as [|a l Ha Hl IH]; cbn [each]; [apply fine_done; constructor|].
  eapply fine_next; [exact Ha|]. intros b Hb. eapply fine_next; [exact IH|]. intros bs Hbs. apply fine_done. constructor; assumption.
Qed.

Lemma fine_keep {A} (f : A -> reply bool) l :
  Forall (fun a => fine (fun _ => True) (f a)) l -> fine (fun k => incl k l) (keep f l).
Proof.
  induction 1 as [|a l Ha Hl IH]; cbn [keep]; [apply fine_done; intros x []|].
  eapply fine_next; [exact Ha|]. intros b _. eapply fine_next; [exact IH|]. intros k Hk. apply fine_done.
  destruct b; [apply incl_cons; [left; reflexivity|]|]; apply incl_tl; exact Hk.
Qed.

Lemma fine_unchecked {A} (r : reply A) : loose = true -> fine (fun _ => True) (unchecked r).
Proof. intros L. destruct r; cbn; unfold fine; eauto. Qed.
End Fine.

Lemma incl_Forall {A} (P : A -> Prop) k l : incl k l -> Forall P l -> Forall P k.
Proof. intros H. rewrite !Forall_forall. auto. Qed.

Lemma firsts_incl {A B} (same : B -> B -> bool) l : forall seen, incl (@firsts A B same seen l) (map snd l).
Proof.
  induction l as [|[k a] l IH]; intros seen; cbn; [intros x []|]. destruct (existsb (same k) seen).
  - apply incl_tl, IH.
  - apply incl_cons; [left; reflexivity|apply incl_tl, IH].
Qed.

Lemma distinct_rows_incl same_row l : incl (distinct_rows same_row l) l.
Proof.
  unfold distinct_rows. eapply incl_tran; [apply firsts_incl|]. rewrite map_map. cbn. rewrite map_id. apply incl_refl.
Qed.

Lemma combine_rows_incl same_row op a b : incl (combine_rows same_row op a b) (a ++ b).
Proof.
  destruct op; cbn.
  - eapply incl_tran; [apply distinct_rows_incl|]. apply incl_appl. intros x Hx. apply filter_In in Hx. apply Hx.
  - eapply incl_tran; [apply distinct_rows_incl|]. apply incl_appl. intros x Hx. apply filter_In in Hx. apply Hx.
  - apply distinct_rows_incl.
  - apply incl_refl.
Qed.

Lemma firstn_incl {A} k (l : list A) : incl (firstn k l) l.
Proof. intros x Hx. rewrite <- (firstn_skipn k l). apply in_or_app. auto. Qed.

Lemma skipn_incl {A} k (l : list A) : incl (skipn k l) l.
Proof. intros x Hx. rewrite <- (firstn_skipn k l). apply in_or_app. auto. Qed.

Lemma limit_incl n k l : incl (up_to n (from_row k l)) l.
Proof.
  apply (incl_tran (m := from_row k l)).
  - destruct n; [apply firstn_incl|apply incl_refl].
  - destruct k; [apply skipn_incl|apply incl_refl].
Qed.

(** ** Rows *)

Definition ok_cell (strict : bool) (a : attribute) (v : value) : Prop :=
  of_type v (a_type a) /\ (strict = true -> a_null a = false -> v <> VNull).
Definition ok_row (strict : bool) : list attribute -> row -> Prop := Forall2 (ok_cell strict).
Definition ok_env (strict : bool) (rels : relations) (en : env) : Prop :=
  Forall2 (fun r e => fst r = fst e /\ Forall2 (fun a c => a_name a = fst c /\ ok_cell strict a (snd c)) (snd r) (snd e)) rels en.
Definition ok_frame (star : bool) strict rels attrs (f : frame) : Prop :=
  ok_env strict rels (fst f) /\ (star = true -> ok_row strict attrs (snd f)).
Definition ok_source star strict rels attrs (s : source) : Prop :=
  ok_frame star false rels attrs (f_pad s) /\ Forall (ok_frame star strict rels attrs) (f_rows s).
Definition ok_table strict attrs (t : table) : Prop :=
  t_width t = length attrs /\ Forall (ok_row strict attrs) (t_rows t).

Lemma ok_cell_weaken strict a v : ok_cell strict a v -> ok_cell false a v.
Proof. intros [H _]. split; [exact H|discriminate]. Qed.

Lemma Forall2_weaken {A B} (P Q : A -> B -> Prop) l m : (forall a b, P a b -> Q a b) -> Forall2 P l m -> Forall2 Q l m.
Proof. intros H. induction 1; constructor; auto. Qed.

Lemma ok_env_weaken strict rels en : ok_env strict rels en -> ok_env false rels en.
Proof.
  apply Forall2_weaken. intros r e [E H]. split; [exact E|]. revert H. apply Forall2_weaken. intros a c [E' H]. split; [exact E'|].
  eapply ok_cell_weaken; exact H.
Qed.

Lemma ok_row_weaken strict attrs r : ok_row strict attrs r -> ok_row false attrs r.
Proof. apply Forall2_weaken. intros a v. apply ok_cell_weaken. Qed.

Lemma ok_frame_weaken star strict rels attrs f : ok_frame star strict rels attrs f -> ok_frame star false rels attrs f.
Proof. intros [H1 H2]. split; [eapply ok_env_weaken; eassumption|]. intros E. eapply ok_row_weaken; auto. Qed.

Lemma glue_ok star strict rels1 rels2 attrs1 attrs2 f1 f2 :
  ok_frame star strict rels1 attrs1 f1 -> ok_frame star strict rels2 attrs2 f2 ->
  ok_frame star strict (rels1 ++ rels2) (attrs1 ++ attrs2) (glue f1 f2).
Proof. intros [H1 H2] [H3 H4]. split; [apply Forall2_app; assumption|]. intros E. apply Forall2_app; [apply H2|apply H4]; exact E. Qed.

Lemma Forall2_len {A B} (P : A -> B -> Prop) l m : Forall2 P l m -> length l = length m.
Proof. induction 1; cbn; congruence. Qed.

Lemma fits_cell strict v a : fits strict v (attr_type a) <-> ok_cell strict a v.
Proof.
  unfold fits, attr_type. rewrite of_stype_scalar. split; intros [H1 H2]; split; try exact H1.
  - intros S N. eapply H2; [exact S|]. rewrite N. reflexivity.
  - intros S d [= _ N]. apply H2; assumption.
Qed.

(** ** Columns *)

Section Names.
Context (up : Z -> list Z).

Lemma ok_filter strict rels en a :
  ok_env strict rels en ->
  Forall2 (fun a c => a_name a = fst c /\ ok_cell strict a (snd c))
          (named up a (flat_map snd rels)) (filter (fun c => name_eqb up a (fst c)) (flat_map snd en)).
Proof.
  intros H. unfold named.
  assert (G : Forall2 (fun a c => a_name a = fst c /\ ok_cell strict a (snd c)) (flat_map snd rels) (flat_map snd en)).
  { induction H as [|r e rels en [_ Hr] H IH]; [constructor|]. cbn. apply Forall2_app; assumption. }
  induction G as [|b c l1 l2 (E & H1) G IH]; [constructor|]. cbn. rewrite E.
  destruct (name_eqb up a (fst c)); [constructor; auto|exact IH].
Qed.

Lemma ok_filter_rel strict rels en r : ok_env strict rels en ->
  ok_env strict (filter (fun e => name_eqb up r (fst e)) rels) (filter (fun e => name_eqb up r (fst e)) en).
Proof.
  intros H. induction H as [|x e rels en [E Hr] H IH]; [constructor|]. cbn. rewrite E.
  destruct (name_eqb up r (fst e)); [constructor; auto|exact IH].
Qed.

Lemma refers_lookup strict rels en q t :
  distinct up (map fst rels) -> Forall (fun r => distinct up (map a_name (snd r))) rels -> ok_env strict rels en ->
  refers up rels q t -> good strict (lookup up en q) t.
Proof.
  intros Hd Hdis Hc Ht. destruct q as [|a [|b [|c q]]]; try contradiction; cbn in Ht.
  - destruct Ht as (_ & b & Hb & ->). cbn.
    pose proof (ok_filter strict rels en a Hc) as H. rewrite Hb in H.
    inversion H as [|? [n v] ? l (E & H1) H3]; subst. inversion H3; subst. apply good_val. apply fits_cell. exact H1.
  - destruct Ht as (n & attrs & d & Hin & Ha & Hl & Hb & ->). cbn.
    pose proof (ok_filter_rel strict rels en a Hc) as H. rewrite (filter_rel up rels a n attrs Hd Hin Ha) in H.
    inversion H as [|? [m cols] ? l (E & H1) H3]; subst. inversion H3; subst. cbn in H1.
    assert (Hd1 : distinct up (map a_name attrs)) by (rewrite Forall_forall in Hdis; apply (Hdis _ Hin)).
    pose proof (filter_named up attrs b d Hl Hb Hd1) as Hf.
    assert (K4 : ok_env strict [(n, attrs)] [(m, cols)]) by (constructor; [split; assumption|constructor]).
    apply (ok_filter _ _ _ b) in K4. cbn [flat_map snd] in K4. rewrite !app_nil_r in K4. rewrite Hf in K4.
    inversion K4 as [|? [k v] ? l (E' & K1) K3]; subst. inversion K3; subst. apply good_val. apply fits_cell. exact K1.
Qed.
End Names.

(** ** Columns that are at most as demanding *)

Definition weaker (l l' : list attribute) : Prop :=
  Forall2 (fun a b => a_type a = a_type b /\ (a_null a = true -> a_null b = true)) l l'.

Lemma weaker_refl l : weaker l l.
Proof. induction l; constructor; auto. Qed.

Lemma weaker_trans l1 l2 l3 : weaker l1 l2 -> weaker l2 l3 -> weaker l1 l3.
Proof.
  intros H. revert l3. induction H as [|a b l1 l2 [E N] H IH]; intros l3 H3; inversion H3 as [|? c ? l3' [E' N'] H3']; subst; constructor.
  - split; [congruence|auto].
  - apply IH; exact H3'.
Qed.

Lemma ok_row_weaker strict l l' r : weaker l l' -> ok_row strict l r -> ok_row strict l' r.
Proof.
  intros H. revert r. induction H as [|a b l l' [E N] H IH]; intros r Hr; inversion Hr as [|? v ? r' [T V] Hr']; subst; constructor.
  - split; [congruence|]. intros S B. apply V; [exact S|]. destruct (a_null a); [rewrite N in B by reflexivity; discriminate|reflexivity].
  - apply IH; exact Hr'.
Qed.

Lemma labelled_weaker up requested given : labelled up requested given -> weaker requested given.
Proof.
  intros [_ H]. revert requested H. induction given as [|b l IH]; intros [|a l'] H; try discriminate; [constructor|].
  cbn in H. injection H as E1 E2 H. constructor; [split; [auto|congruence]|]. apply IH; exact H.
Qed.

Lemma merged_left l r res : merged l r res -> length l = length r -> weaker l res /\ weaker r res.
Proof.
  revert r res. induction l as [|a l IH]; intros [|b r] [|c res] [L H] E; try discriminate.
  - split; constructor.
  - cbn in *. destruct (H 0 a b eq_refl eq_refl) as [T C]. cbn in C. injection C as ->.
    destruct (IH r res) as [W1 W2]; [split; [lia|]|lia|].
    + intros i a' b' Ha Hb. exact (H (S i) a' b' Ha Hb).
    + split; constructor; cbn; auto; split; auto; intros ->; rewrite ?orb_true_r; reflexivity.
Qed.

(** ** Sources *)

Lemma crossed_ok star strict rels1 rels2 attrs1 attrs2 a b :
  ok_source star strict rels1 attrs1 a -> ok_source star strict rels2 attrs2 b ->
  ok_source star strict (rels1 ++ rels2) (attrs1 ++ attrs2) (crossed a b).
Proof.
  intros [P1 R1] [P2 R2]. split; cbn; [apply glue_ok; assumption|].
  rewrite Forall_forall in *. intros f Hf. apply in_flat_map in Hf as (l & Hl & Hf). apply in_map_iff in Hf as (r & <- & Hr).
  apply glue_ok; auto.
Qed.

Lemma crossed_all_ok star strict parts srcs :
  Forall2 (fun p s => ok_source star strict (fst p) (snd p) s) parts srcs ->
  ok_source star strict (flat_map fst parts) (flat_map snd parts) (crossed_all srcs).
Proof.
  induction 1 as [|p s parts srcs H Hs IH]; cbn.
  - split; cbn; [split; [constructor|intros _; constructor]|]. constructor; [|constructor]. split; [constructor|intros _; constructor].
  - apply crossed_ok; assumption.
Qed.

Lemma joined_ok star strict loose t on rels1 rels2 attrs1 attrs2 a b : loose = true ->
  (forall f, fine loose (fun _ => True) (on f)) -> (strict = true -> outer_left t = false /\ outer_right t = false) ->
  ok_source star strict rels1 attrs1 a -> ok_source star strict rels2 attrs2 b ->
  fine loose (ok_source star strict (rels1 ++ rels2) (attrs1 ++ attrs2)) (joined t on a b).
Proof.
  intros L On Ht [P1 R1] [P2 R2]. unfold joined.
  assert (K : forall l, fine loose (fun k => incl k l) (keep on l)).
  { intros l. apply fine_keep. apply Forall_forall. auto. }
  eapply fine_next.
  { apply (fine_each loose (fun l p => fst p = l /\ incl (snd p) (map (glue l) (f_rows b)))). apply Forall_forall. intros l _.
    eapply fine_next; [apply K|]. intros m Hm. apply fine_done. auto. }
  intros matches Hm. cbn beta.
  eapply fine_next.
  { apply fine_keep. apply Forall_forall. intros r _. eapply fine_next; [apply K|]. intros m _. apply fine_done. exact I. }
  intros alone Ha. apply fine_done. split; cbn; [apply glue_ok; assumption|].
  apply Forall_app. split.
  - rewrite Forall_forall in *. intros f Hf. apply in_flat_map in Hf as ([l m] & Hl & Hf). cbn in Hf.
    assert (Hp : In l (f_rows a) /\ incl m (map (glue l) (f_rows b))).
    { revert Hl. clear -Hm. induction Hm as [|x p xs ps [E I] H IH]; [intros []|]. intros [->|Hl].
      - cbn in E, I. subst x. split; [left; reflexivity|exact I].
      - destruct (IH Hl). split; [right|]; assumption. }
    destruct Hp as [Hl1 Hl2]. destruct m as [|f' m].
    + destruct (outer_left t) eqn:O; [|destruct Hf]. destruct Hf as [<-|[]].
      assert (strict = false) as -> by (destruct strict; [destruct (Ht eq_refl); congruence|reflexivity]).
      apply glue_ok; auto.
    + apply Hl2 in Hf. apply in_map_iff in Hf as (r & <- & Hr). apply glue_ok; auto.
  - destruct (outer_right t) eqn:O; [|constructor].
    assert (strict = false) as -> by (destruct strict; [destruct (Ht eq_refl); congruence|reflexivity]).
    rewrite Forall_forall in *. intros f Hf. apply in_map_iff in Hf as (r & <- & Hr). apply glue_ok; auto.
Qed.

Lemma combine_ok strict attrs r : ok_row strict attrs r ->
  Forall2 (fun a c => a_name a = fst c /\ ok_cell strict a (snd c)) attrs (combine (map a_name attrs) r).
Proof. induction 1; cbn; constructor; auto. Qed.

Lemma nulls_ok (attrs : list attribute) : ok_row false attrs (map (fun _ => VNull) (map a_name attrs)).
Proof. induction attrs; cbn; constructor; auto. split; [exact I|discriminate]. Qed.

Lemma nulls_ok' attrs k : k = length attrs -> ok_row false attrs (repeat VNull k).
Proof. intros ->. induction attrs; cbn; constructor; auto. split; [exact I|discriminate]. Qed.

Lemma named_source_ok star strict id attrs rows : Forall (ok_row strict attrs) rows ->
  ok_source star strict [(id, attrs)] attrs (named_source id (map a_name attrs) rows).
Proof.
  intros H.
  assert (F : forall s r, ok_row s attrs r -> ok_frame star s [(id, attrs)] attrs ([(id, combine (map a_name attrs) r)], r)).
  { intros s r Hr. split; cbn; [|intros _; exact Hr]. constructor; [|constructor]. split; [reflexivity|]. apply combine_ok; exact Hr. }
  split; cbn.
  - apply F, nulls_ok.
  - rewrite Forall_forall in *. intros f Hf. apply in_map_iff in Hf as (r & <- & Hr). auto.
Qed.

Lemma ordered_incl arrange order l : incl (ordered arrange order l) l.
Proof.
  unfold ordered. destruct order; [apply incl_refl|]. intros r Hr. apply in_flat_map in Hr as (i & _ & Hr).
  destruct (nth_error l i) eqn:E; [|destruct Hr]. destruct Hr as [<-|[]]. eapply nth_error_In. exact E.
Qed.

Lemma joined_using_ok up w strict loose t columns on rels1 rels2 attrs1 attrs2 a b : loose = true ->
  (forall f, fine loose (fun _ => True) (on f)) -> (strict = true -> outer_left t = false /\ outer_right t = false) ->
  ok_source false strict rels1 attrs1 a -> ok_source false strict rels2 attrs2 b ->
  fine loose (ok_source false strict (rels1 ++ rels2) (attrs1 ++ attrs2)) (joined_using up w t columns on a b).
Proof.
  intros L On Ht Ha Hb. unfold joined_using. eapply fine_next.
  { apply (fine_each loose (fun _ _ => True)). apply Forall_forall. intros n _. unfold pair_of.
    destruct (position up n (f_names a)); [|right; right; auto]. destruct (position up n (f_names b)); [|right; right; auto].
    apply fine_done. exact I. }
  intros pairs _. eapply fine_next.
  { apply (joined_ok false strict loose t _ rels1 rels2 attrs1 attrs2 a b L); try assumption. intros f.
    eapply fine_next; [apply fine_unchecked; exact L|]. intros bs _. destruct (forallb _ bs); [apply On|apply fine_done; exact I]. }
  intros s [[P _] R]. apply fine_done. split; cbn.
  - split; [exact P|discriminate].
  - rewrite Forall_forall in *. intros f Hf. apply in_map_iff in Hf as (g & <- & Hg). destruct (R g Hg) as [E _]. split; [exact E|discriminate].
Qed.

Lemma column_ok strict loose a t : ok_table strict [a] t -> fine loose (Forall (fun v => ok_cell strict a v)) (column t).
Proof.
  intros [W R]. unfold column. rewrite W. cbn [length Nat.eqb].
  eapply fine_weaken; [|apply (fine_each loose (fun _ v => ok_cell strict a v))].
  - cbn. intros vs H. clear -H. induction H; constructor; auto.
  - eapply Forall_impl; [|exact R]. intros r Hr. inversion Hr as [|? v ? l Hv Hl]; subst. inversion Hl; subst. apply fine_done. exact Hv.
Qed.

Lemma is_in_ok w v d n l : of_stype v (TyScalar d n) -> Forall (fun u => of_type u d) l -> exists o, is_in w v l = Some o.
Proof.
  intros Hv. induction 1 as [|u l Hu Hl [o IH]]; cbn; [eauto|].
  edestruct (equal3_some w v u (TyScalar d n) (TyScalar d n)) as [o' ->]; [exact Hv|constructor; exact Hu| |].
  - cbn. rewrite dt_eqb_refl. reflexivity.
  - rewrite IH. eauto.
Qed.

Lemma fits_null_or strict v d n m : (n = true -> m = true) -> fits strict v (TyScalar d n) -> fits strict v (TyScalar d m).
Proof.
  intros H [H1 H2]. split.
  - apply of_stype_scalar in H1. constructor. exact H1.
  - intros S d' [= -> ->]. eapply H2; [exact S|]. destruct n; [discriminate H; reflexivity|reflexivity].
Qed.

Lemma condition_ok loose v n : fits false v (TyScalar DLogical n) -> fine loose (fun _ => True) (condition v).
Proof.
  intros H. unfold condition. destruct (as_truth_fits _ _ _ H) as [[-> _]|[b ->]]; apply fine_done; exact I.
Qed.

Lemma amount_ok count loose v n : fits false v (TyScalar DNumeric n) -> fine loose (fun _ => True) (amount count v).
Proof.
  intros H. apply fits_cases in H as [[-> _]|[(b & -> & [=])|(p & -> & _)]]; cbn; apply fine_done; exact I.
Qed.

Lemma any_in (ns : list bool) n : In n ns -> n = true -> any ns = true.
Proof. intros H ->. unfold any. apply existsb_exists. eauto. Qed.

Lemma run_when_ok strict loose f holds whens ns els d k : loose = true ->
  Forall2 (fun w n => fine loose (fun v => fits strict v (TyScalar d n)) (f (snd w))) whens ns ->
  (forall n, In n ns -> n = true -> k = true) -> fine loose (fun v => fits strict v (TyScalar d k)) els ->
  fine loose (fun v => fits strict v (TyScalar d k)) (run_when f holds whens els).
Proof.
  intros L H Hk He. induction H as [|[g b] n whens ns Hb Hw IH]; cbn [run_when]; [exact He|].
  eapply fine_next; [apply fine_unchecked; exact L|]. intros v _.
  destruct (holds v) as [[[]|]|].
  - eapply fine_weaken; [|exact Hb]. intros u. apply fits_null_or. apply Hk. left. reflexivity.
  - apply IH. intros m Hm. apply Hk. right. exact Hm.
  - apply IH. intros m Hm. apply Hk. right. exact Hm.
  - right. right. auto.
Qed.

(** ** The induction *)

Section Main.
Context (up : Z -> list Z) (w : world) (count : list Z -> nat) (same_row : row -> row -> bool)
  (arrange : list (expr * option name * direction) -> list row -> list nat)
  (tables : list name -> list attribute -> Prop) (Hnames : columns_differ up tables).

(** The tables that are not hidden are stored. *)
Definition sees (hidden : list name) (st : store) : Prop :=
  data_of (fun q attrs => tables q attrs /\ is_hidden up hidden q = false) st.

Notation run := (run up w count same_row arrange).
Notation typed := (typed up tables).
Notation good_names rels := (distinct up (map fst rels) /\ Forall (fun r => distinct up (map a_name (snd r))) rels).

Definition GE (e : expr) : Prop := forall hidden st strict loose rels en t, sees hidden st -> good_names rels -> ok_env strict rels en ->
  covered up hidden strict loose e = true -> typed rels e t -> fine loose (fun v => fits strict v t) (run st en e).
Definition GSP (s : set_spec) : Prop := forall hidden st loose rels en d m, sees hidden st -> good_names rels -> ok_env false rels en ->
  covered_spec up hidden loose s = true -> members_typed up tables rels s d m ->
  fine loose (Forall (fun v => of_type v d)) (run_spec up w count same_row arrange st en s).
Definition GS (s : select) : Prop := forall hidden st strict loose attrs, sees hidden st ->
  covered_select up hidden strict loose s = true -> selects up tables s attrs ->
  fine loose (ok_table strict attrs) (run_select up w count same_row arrange st s).
Definition GC (c : cte) : Prop := forall hidden st attrs, sees hidden st ->
  covered_cte up hidden true c = true -> common_table up tables c attrs ->
  fine true (fun d => fst d = cte_id c) (run_cte up w count same_row arrange st c).
Definition GX (e : set_expr) : Prop := forall hidden st strict loose attrs, sees hidden st ->
  covered_set up hidden strict loose e = true -> set_typed up tables e attrs ->
  fine loose (ok_table strict attrs) (run_set up w count same_row arrange st e).
Definition GT (t : table_expr) : Prop := forall hidden st star strict loose rels attrs, sees hidden st ->
  covered_table up hidden star strict loose t = true -> item_typed up tables t rels attrs ->
  Forall (fun r => distinct up (map a_name (snd r))) rels /\
  fine loose (ok_source star strict rels attrs) (run_table up w count same_row arrange st t).
Definition GK (c : result_column) : Prop := forall hidden st strict loose rels l, sees hidden st -> good_names rels ->
  covered_column up hidden strict loose c = true -> column_typed up tables rels c l ->
  (forall pad, column_width up pad c = Done (length l)) /\
  forall f, ok_env strict rels (fst f) -> fine loose (ok_row strict l) (run_column up w count same_row arrange st f c).
Definition GR (c : result_columns) : Prop := forall hidden st strict loose rels attrs l, sees hidden st -> good_names rels ->
  covered_columns up hidden strict loose c = true -> columns_typed up tables rels attrs c l ->
  let star := match c with RAll => true | RList _ => false end in
  (forall pad, ok_frame star false rels attrs pad -> columns_width up pad c = Done (length l)) /\
  forall f, ok_frame star strict rels attrs f -> fine loose (ok_row strict l) (run_columns up w count same_row arrange st f c).

Lemma scalar_or_row rels e ts : typed rels e (TyTuple ts) -> exists es, e = ETuple es.
Proof.
  intros H. inversion H as [? l E|? q t R E| |? op e1 t t' T U E|? op ? ? ? ? ? ? ? U| ? op ? ? ? ? ? ? ? U| | | |]; subst.
  - destruct l; discriminate.
  - destruct q as [|a [|b [|c q]]]; cbn in R; try contradiction; [destruct R as (_ & b & _ & E)|destruct R as (? & ? & b' & _ & _ & _ & _ & E)];
      unfold attr_type in E; discriminate.
  - eauto.
  - inversion U.
  - inversion U.
  - inversion U.
Qed.

Lemma typed_list hidden st strict loose rels en es ts : sees hidden st -> good_names rels -> ok_env strict rels en ->
  Forall GE es -> forallb (covered up hidden strict loose) es = true -> Forall2 (typed rels) es ts ->
  fine loose (fun vs => Forall2 (fits strict) vs ts) (each (run st en) es).
Proof.
  intros Sv N E IH C T. revert ts T. induction IH as [|e es He Hes IH]; intros ts T; inversion T as [|? t ? ts' T1 T2]; subst; cbn in *.
  - apply fine_done. constructor.
  - apply andb_true_iff in C as [C1 C2]. eapply fine_next; [eapply He; eassumption|]. intros v Hv. cbn.
    eapply fine_next; [apply IH; eassumption|]. intros vs Hvs. apply fine_done. constructor; assumption.
Qed.

Lemma typed_each hidden st loose rels en es : sees hidden st -> good_names rels -> ok_env false rels en ->
  Forall GE es -> forallb (covered up hidden false loose) es = true -> Forall (fun e => exists t, typed rels e t) es ->
  fine loose (fun _ => True) (each (run st en) es).
Proof.
  intros Sv N E IH C T.
  apply (fine_weaken loose (Forall2 (fun _ _ => True) es)); [auto|]. apply fine_each.
  rewrite Forall_forall in IH, T |- *. rewrite forallb_forall in C. intros e He. destruct (T e He) as [t Ht].
  apply (fine_weaken loose (fun v => fits false v t)); [auto|]. apply (IH e He hidden st false loose rels en t); auto.
Qed.

Lemma empty_names : good_names (@nil (name * list attribute)).
Proof. split; constructor. Qed.

Lemma empty_env strict : ok_env strict [] [].
Proof. constructor. Qed.

Lemma condition_run hidden st loose rels en e n : sees hidden st -> good_names rels -> ok_env false rels en -> GE e ->
  covered up hidden false loose e = true ->
  typed rels e (TyScalar DLogical n) -> fine loose (fun _ => True) (next (run st en e) condition).
Proof.
  intros Sv N E IH C T. eapply fine_next; [eapply IH; eassumption|]. intros v Hv. cbn in Hv. eapply condition_ok; exact Hv.
Qed.

(** A row of VALUES against the columns so far. *)
Lemma row_typed_equal attrs es attrs' : row_typed up tables attrs es attrs' -> length es = length attrs ->
  weaker attrs attrs' /\
  Forall2 (fun e a => exists n, typed [] e (TyScalar (a_type a) n) /\ (n = true -> a_null a = true)) es attrs'.
Proof.
  intros H. induction H as [es|attrs|a attrs e es n attrs' T R IH]; intros L.
  - destruct es; [|discriminate]. split; constructor.
  - destruct attrs; [|discriminate]. split; constructor.
  - cbn in L. destruct (IH ltac:(lia)) as [W F]. split; constructor; auto; cbn.
    + split; [reflexivity|]. intros ->. reflexivity.
    + exists n. split; [exact T|]. intros ->. apply orb_true_r.
Qed.

Lemma rows_typed_equal attrs rows attrs' : rows_typed up tables attrs rows attrs' -> Forall (fun r => length r = length attrs) rows ->
  weaker attrs attrs' /\
  Forall (fun es => Forall2 (fun e a => exists n, typed [] e (TyScalar (a_type a) n) /\ (n = true -> a_null a = true)) es attrs') rows.
Proof.
  intros H. induction H as [attrs|attrs row rows attrs1 attrs2 R H IH]; intros L.
  - split; [apply weaker_refl|constructor].
  - inversion L as [|? ? L1 L2]; subst. destruct (row_typed_equal _ _ _ R L1) as [W F].
    destruct IH as [W' F'].
    { eapply Forall_impl; [|exact L2]. intros r ->. apply (Forall2_len _ _ _ W). }
    split; [eapply weaker_trans; eassumption|]. constructor; [|exact F'].
    clear -F W'. revert row F. induction W' as [|a b l l' [E N] W IH]; intros es F; inversion F as [|e ? es' ? (n & T & Hn) F']; subst; constructor.
    + exists n. rewrite <- E. split; [exact T|auto].
    + apply IH; exact F'.
Qed.

Lemma values_run hidden st strict loose attrs es : sees hidden st -> Forall GE es -> forallb (covered up hidden strict loose) es = true ->
  Forall2 (fun e a => exists n, typed [] e (TyScalar (a_type a) n) /\ (n = true -> a_null a = true)) es attrs ->
  fine loose (ok_row strict attrs) (each (run st []) es).
Proof.
  intros Sv IH C F. revert C. induction F as [|e a es attrs (n & T & Hn) F IHF]; intros C; cbn in *.
  - apply fine_done. constructor.
  - apply andb_true_iff in C as [C1 C2]. inversion IH as [|? ? He Hes]; subst.
    eapply fine_next; [eapply He; [exact Sv|apply empty_names|apply empty_env|exact C1|exact T]|]. intros v Hv. cbn in Hv.
    eapply fine_next; [apply IHF; assumption|]. intros vs Hvs. apply fine_done. constructor; [|exact Hvs].
    apply fits_cell. eapply fits_null_or; [exact Hn|exact Hv].
Qed.

Lemma first_typed_attrs k es attrs : first_typed up tables k es attrs ->
  Forall2 (fun e a => typed [] e (TyScalar (a_type a) (a_null a))) es attrs.
Proof. induction 1; constructor; auto. Qed.

Lemma weaker_values attrs attrs' es : weaker attrs attrs' ->
  Forall2 (fun e a => typed [] e (TyScalar (a_type a) (a_null a))) es attrs ->
  Forall2 (fun e a => exists n, typed [] e (TyScalar (a_type a) n) /\ (n = true -> a_null a = true)) es attrs'.
Proof.
  intros W. revert es. induction W as [|a b l l' [E N] W IH]; intros es F; inversion F; subst; constructor.
  - rewrite <- E. eauto.
  - apply IH. assumption.
Qed.

Lemma from_run hidden st star strict loose from parts : sees hidden st -> Forall GT from ->
  forallb (covered_table up hidden star strict loose) from = true ->
  Forall2 (fun t p => item_typed up tables t (fst p) (snd p)) from parts ->
  Forall (fun r => distinct up (map a_name (snd r))) (flat_map fst parts) /\
  fine loose (fun srcs => Forall2 (fun p s => ok_source star strict (fst p) (snd p) s) parts srcs)
       (each (run_table up w count same_row arrange st) from).
Proof.
  intros Sv IH C F. revert IH C. induction F as [|t p from parts T F IHF]; intros IH C; cbn in *.
  - split; [constructor|]. apply fine_done. constructor.
  - apply andb_true_iff in C as [C1 C2]. inversion IH as [|? ? Ht Hts]; subst.
    destruct (Ht _ _ _ _ _ _ _ Sv C1 T) as [D1 F1]. destruct (IHF Hts C2) as [D2 F2]. split; [apply Forall_app; auto|].
    eapply fine_next; [exact F1|]. intros s Hs. eapply fine_next; [exact F2|]. intros ss Hss. apply fine_done. constructor; assumption.
Qed.

Lemma columns_run hidden st strict loose rels l reqs : sees hidden st -> good_names rels -> Forall GK l ->
  forallb (covered_column up hidden strict loose) l = true ->
  Forall2 (column_typed up tables rels) l reqs ->
  (forall pad, each (column_width up pad) l = Done (map (@length attribute) reqs)) /\
  forall f, ok_env strict rels (fst f) ->
    fine loose (fun vs => ok_row strict (concat reqs) (concat vs)) (each (run_column up w count same_row arrange st f) l).
Proof.
  intros Sv N IH C F. revert IH C. induction F as [|c req l reqs T F IHF]; intros IH C; cbn in *.
  - split; [reflexivity|]. intros f _. apply fine_done. constructor.
  - apply andb_true_iff in C as [C1 C2]. inversion IH as [|? ? Hc Hcs]; subst.
    destruct (Hc _ _ _ _ _ _ Sv N C1 T) as [W1 F1]. destruct (IHF Hcs C2) as [W2 F2]. split.
    + intros pad. rewrite W1. cbn. rewrite W2. reflexivity.
    + intros f Hf. eapply fine_next; [apply F1; exact Hf|]. intros v Hv. eapply fine_next; [apply F2; exact Hf|].
      intros vs Hvs. apply fine_done. cbn. apply Forall2_app; assumption.
Qed.

Ltac split_and H := repeat match type of H with
  | _ && _ = true => let H' := fresh "C" in apply andb_true_iff in H as [H H']
  end.

Lemma hidden_add hidden id q : is_hidden up (id :: hidden) q = false ->
  is_hidden up hidden q = false /\ match q with [n] => name_eqb up n id = false | _ => True end.
Proof.
  destruct q as [|n [|]]; cbn; auto. intros H. apply orb_false_iff in H as [H1 H2]. auto.
Qed.

Lemma sees_add hidden st d : sees hidden st -> sees (fst d :: hidden) (add_table up st d).
Proof.
  intros Sv q attrs [T H]. apply hidden_add in H as [H1 H2]. destruct (Sv q attrs (conj T H1)) as (rows & E & R).
  exists rows. split; [|exact R]. unfold add_table. destruct q as [|n [|n' q]]; [exact E| |exact E]. rewrite H2. exact E.
Qed.

Lemma withs_run loose common : forall hidden st scope, sees hidden st -> Forall GC common ->
  loose || match common with [] => true | _ => false end = true ->
  covered_withs (fun hidden c => covered_cte up hidden loose c) hidden common = true ->
  Forall2 (fun c r => fst r = cte_id c /\ common_table up tables c (snd r)) common scope ->
  fine loose (sees (behind hidden common)) (withs up (run_cte up w count same_row arrange) st common).
Proof.
  induction common as [|c common IH]; intros hidden st scope Sv Gc L C F; cbn [withs].
  - apply fine_done. exact Sv.
  - destruct loose; [|discriminate L]. cbn [covered_withs] in C. apply andb_true_iff in C as [C1 C2].
    inversion F as [|? r ? scope' [_ T] F']; subst. inversion Gc as [|? ? Gc1 Gc2]; subst.
    eapply fine_next; [eapply Gc1; eassumption|]. intros d Hd. cbn beta in Hd.
    eapply fine_weaken; [|eapply (IH (cte_id c :: hidden)); [|exact Gc2|reflexivity|exact C2|exact F']].
    + intros st'. unfold behind. cbn [map rev]. rewrite <- app_assoc. intros H. exact H.
    + rewrite <- Hd. apply sees_add. exact Sv.
Qed.

Lemma run_sound :
  (forall e, GE e) /\ (forall s, GSP s) /\ (forall s, GS s) /\ (forall c, GC c) /\ (forall e, GX e) /\ (forall t, GT t) /\
  (forall c, GR c) /\ (forall c, GK c).
Proof.
  apply sql_induction.
  - (* literals *) intros l hidden st strict loose rels en t Sv N E C T. inversion T; subst. cbn. apply fine_done.
    destruct l; cbn; try (apply fits_data; discriminate). apply fits_null.
  - (* names *) intros q hidden st strict loose rels en t Sv [N1 N2] E C T. inversion T; subst. cbn. apply fine_answer.
    eapply refers_lookup; eassumption.
  - (* rows *) intros es IH hidden st strict loose rels en t Sv N E C T. cbn [covered] in C. split_and C.
    inversion T as [| |? ? ts F| | | | | | |]; subst. cbn [SqlRun.run].
    eapply fine_next; [eapply typed_list; eassumption|]. intros vs Hvs. apply fine_done. cbn in Hvs. split.
    + apply of_stype_tuple. exists vs. split; [reflexivity|]. revert Hvs. apply Forall2_weaken. intros v t0 [H _]. exact H.
    + intros _ d [=].
  - (* subqueries *) intros s IH hidden st strict loose rels en t Sv N E C T. cbn [covered] in C. split_and C.
    destruct strict; [discriminate|]. inversion T as [| | | | | | | | |? ? a Ss]; subst. cbn [SqlRun.run].
    eapply fine_next; [eapply IH; eassumption|]. intros tb Htb. eapply fine_next; [apply (column_ok false); exact Htb|].
    intros [|v [|v' l]] Hl.
    + apply fine_done. split; [constructor; exact I|discriminate].
    + apply fine_done. inversion Hl as [|? ? Hv _]; subst. apply (fits_cell false v a). exact Hv.
    + right. left. reflexivity.
  - (* unary *) intros op e IH hidden st strict loose rels en t Sv N E C T. inversion T as [| | |? ? ? t0 ? T0 U| | | | | |]; subst.
    assert (Hop : op <> UIsNull /\ covered up hidden strict loose e = true) by (destruct op; cbn in C; split; try discriminate; exact C).
    cbn [SqlRun.run]. eapply fine_next; [eapply IH; [exact Sv|exact N|exact E|exact (proj2 Hop)|exact T0]|]. intros v Hv. apply fine_answer.
    eapply eval_unary_good; [exact (proj1 Hop)|exact Hv|apply unary_ok; exact U].
  - (* binary *) intros op l r IHl IHr hidden st strict loose rels en t Sv N E C T. cbn [covered] in C. split_and C.
    inversion T as [| | | |? ? ? ? t1 t2 ? T1 T2 U| | | | |]; subst. cbn [SqlRun.run].
    eapply fine_next; [eapply IHl; eassumption|]. intros v1 H1. eapply fine_next; [eapply IHr; eassumption|]. intros v2 H2.
    apply fine_answer. eapply eval_binary_good; [exact H1|exact H2|apply binary_ok; exact U].
  - (* comparisons *) intros op l r IHl IHr hidden st strict loose rels en t Sv N E C T. cbn [covered] in C. split_and C.
    inversion T as [| | | | |? ? ? ? t1 t2 ? T1 T2 U| | | |]; subst. cbn [SqlRun.run].
    eapply fine_next; [eapply IHl; eassumption|]. intros v1 H1. eapply fine_next; [eapply IHr; eassumption|]. intros v2 H2.
    apply fine_answer. eapply eval_compare_good; [|exact H1|exact H2|apply compare_ok; exact U].
    intros ->. split; [destruct t1 as [ts|d n]; [|eauto]|destruct t2 as [ts|d n]; [|eauto]];
      [destruct (scalar_or_row _ _ _ T1) as [es ->]|destruct (scalar_or_row _ _ _ T2) as [es ->]]; discriminate.
  - (* IN *) intros e s IHe IHs hidden st strict loose rels en t Sv N E C T. cbn [covered] in C. split_and C.
    destruct strict; [discriminate|]. inversion T as [| | | | | | | |? ? ? d n m T1 M O|]; subst. cbn [SqlRun.run].
    eapply fine_next; [eapply IHe; eassumption|]. intros v Hv. eapply fine_next; [eapply IHs; eassumption|]. intros l Hl.
    cbn in Hv, Hl. destruct (is_in_ok w v d n l (proj1 Hv) Hl) as [o Ho]. rewrite Ho. cbn. apply fine_done.
    apply fits_truth. intros _ [=].
  - (* BETWEEN *) intros e lo hi IHe IHlo IHhi hidden st strict loose rels en t Sv N E C T. cbn [covered] in C. split_and C.
    inversion T as [| | | | | |? ? ? ? d n1 n2 n3 T1 T2 T3 O| | |]; subst. cbn [SqlRun.run].
    eapply fine_next; [eapply IHe; eassumption|]. intros v1 H1. eapply fine_next; [eapply IHlo; eassumption|]. intros v2 H2.
    eapply fine_next; [eapply IHhi; eassumption|]. intros v3 H3.
    apply fine_answer. eapply eval_between_good; [exact H1|exact H2|exact H3|]. apply between_ok. eauto 10.
  - (* CASE *) intros o whens els IHo IHw IHe hidden st strict loose rels en t Sv N E C T. cbn [covered] in C. split_and C.
    destruct loose; [clear C|discriminate C].
    inversion T as [| | | | | | |? ? ? ? d ns m Hn To Tw Te| |]; subst.
    assert (W : Forall2 (fun w0 n => fine true (fun v => fits strict v (TyScalar d n)) (run st en (snd w0))) whens ns).
    { clear -IHw C1 Tw Sv N E. revert IHw C1. induction Tw as [|w0 n whens ns Tn Tw IH]; intros IHw C1; constructor.
      - cbn in C1. apply andb_true_iff in C1 as [C1 _]. inversion IHw as [|? ? [_ Hw] _]; subst. eapply Hw; eassumption.
      - cbn in C1. apply andb_true_iff in C1 as [_ C1]. inversion IHw; subst. apply IH; assumption. }
    assert (L : fine true (fun v => fits strict v (TyScalar d (any ns || m)))
                  (match els with None => Done VNull | Some e => run st en e end)).
    { inversion Te as [|? ? b n Tb]; subst.
      - apply fine_done. rewrite orb_true_r. apply fits_null.
      - eapply fine_weaken; [|eapply IHe; eassumption]. intros v. apply fits_null_or. intros ->. apply orb_true_r. }
    assert (K : forall n, In n ns -> n = true -> any ns || m = true).
    { intros n Hin Ht. rewrite (any_in ns n Hin Ht). reflexivity. }
    cbn [SqlRun.run]. destruct o as [e|].
    + inversion To as [|? (te & Tte)]; subst. eapply fine_next.
      * eapply (IHo hidden st false true); [exact Sv|exact N|eapply ok_env_weaken; exact E|exact C2|exact Tte].
      * intros v _. eapply run_when_ok; try eassumption; reflexivity.
    + eapply run_when_ok; try eassumption; reflexivity.
  - (* IN (SELECT) *) intros s IH hidden st loose rels en d m Sv N E C T. inversion T as [| |? ? a Ss]; subst. cbn in *.
    eapply fine_next; [eapply IH; eassumption|]. intros tb Htb. eapply fine_weaken; [|apply (column_ok false); exact Htb].
    intros l. apply Forall_impl. intros v [H _]. exact H.
  - (* IN (list) *) intros es IH hidden st loose rels en d m Sv N E C T. inversion T as [? ? ? ns Hn F| |]; subst. cbn in *.
    eapply fine_weaken; [|apply (typed_list hidden st false loose rels en es (map (fun n => TyScalar d n) ns)); try eassumption].
    + intros vs. clear. revert vs. induction ns as [|n ns IH]; intros vs H; inversion H as [|v ? ? ? [Hv _] Hvs]; subst; constructor.
      * apply of_stype_scalar in Hv. exact Hv.
      * apply IH; assumption.
    + clear -F. induction F; constructor; auto.
  - (* IN table *) intros q hidden st loose rels en d m Sv N E C T. inversion T as [|? ? a Tb|]; subst. cbn in *. assert (Hv : is_hidden up hidden q = false) by (destruct (is_hidden up hidden q); [discriminate|reflexivity]).
    destruct (Sv q _ (conj Tb Hv)) as (rows & -> & R). eapply fine_weaken; [|apply (column_ok false loose a)].
    + intros l. apply Forall_impl. intros v [H _]. exact H.
    + split; [reflexivity|]. cbn. eapply Forall_impl; [|exact R]. intros r Hr. inversion Hr as [|v ? l ? [V1 V2] Hl]; subst. inversion Hl; subst.
      constructor; [split; [exact V1|discriminate]|constructor].
  - (* SELECT statements *) intros common e order lim IHc IHe IHo IHl hidden st strict loose attrs Sv C T.
    cbn [covered_select] in C. cbv zeta in C. split_and C. inversion T as [? ? ? ? scope ? Fc Dn Te To Tl]; subst. cbn [SqlRun.run_select].
    eapply fine_next; [eapply withs_run; eassumption|]. intros st' Sv'. cbn beta in Sv'.
    eapply fine_next; [eapply IHe; eassumption|]. intros tb [Htb1 Htb2]. cbv zeta.
    assert (Htb3 : Forall (ok_row strict attrs) (ordered arrange order (t_rows tb))).
    { eapply incl_Forall; [apply ordered_incl|exact Htb2]. }
    destruct lim as [[n offset]|]; [|apply fine_done; split; assumption].
    inversion Tl as [|? [T1 T2]]; subst. cbn in C0, IHl, T1, T2. split_and C0. destruct IHl as [I1 I2].
    eapply fine_next; [eapply (I1 _ _ false); [exact Sv'|apply empty_names|apply empty_env|exact C0|exact T1]|]. intros v Hv. cbn in Hv.
    eapply fine_next; [eapply amount_ok; exact Hv|]. intros n' _.
    eapply (fine_next loose (fun _ => True)).
    { destruct offset as [o|]; [|apply fine_done; exact I]. inversion T2; subst. cbn in *.
      eapply fine_next; [eapply (I2 _ _ false); [exact Sv'|apply empty_names|apply empty_env|eassumption|eassumption]|].
      intros v' Hv'. eapply amount_ok; exact Hv'. }
    intros k _. apply fine_done. split; [exact Htb1|]. cbn. eapply incl_Forall; [apply limit_incl|exact Htb3].
  - (* common table expressions *) intros id columns q IH hidden st attrs Sv C T. cbn in *.
    assert (Tq : exists attrs0, selects up tables q attrs0) by (inversion T; subst; eauto). destruct Tq as [attrs0 Tq].
    eapply fine_next; [eapply IH; eassumption|]. intros tb _.
    eapply (fine_next true (fun _ => True)).
    { unfold with_names. destruct columns as [l|]; [|apply fine_done; exact I].
      destruct (_ =? _); [apply fine_done; exact I|right; right; auto]. }
    intros names _. apply fine_done. reflexivity.
  - (* VALUES *) intros rows IH hidden st strict loose attrs Sv C T. inversion T as [r rows' attrs0 ? T1 T2| |]; subst.
    cbn [covered_set] in C. split_and C. cbn [SqlRun.run_set].
    destruct (forallb (fun r' => length r' =? length r) rows') eqn:L.
    + pose proof (first_typed_attrs _ _ _ T1) as F1. pose proof (Forall2_len _ _ _ F1) as L1.
      assert (L2 : Forall (fun r' => length r' = length attrs0) rows').
      { rewrite forallb_forall in L. apply Forall_forall. intros r' Hr'. specialize (L r' Hr'). lia. }
      destruct (rows_typed_equal _ _ _ T2 L2) as [W F2].
      eapply fine_next.
      { apply (fine_each loose (fun _ vs => ok_row strict attrs vs)). inversion IH as [|? ? IH1 IH2]; subst.
        cbn in C. apply andb_true_iff in C as [Ca Cb]. constructor.
        - apply (values_run hidden); [exact Sv|exact IH1|exact Ca|]. eapply weaker_values; eassumption.
        - rewrite Forall_forall in *. rewrite forallb_forall in Cb. intros r' Hr'. apply (values_run hidden); auto. }
      intros rs Hrs. apply fine_done. split; cbn.
      * rewrite L1. apply (Forall2_len _ _ _ W).
      * cbn in Hrs. clear -Hrs. remember (r :: rows') as all. clear Heqall. induction Hrs; constructor; auto.
    + destruct loose; [right; right; auto|]. cbn [orb] in C0. congruence.
  - (* SELECT *) intros mode columns from wh group IHc IHf IHw IHg hidden st strict loose attrs Sv C T.
    cbn [covered_set] in C. split_and C.
    inversion T as [|? ? ? ? ? parts requested ? Fp Dn Tw Tg Tc Tl|]; subst. cbn [SqlRun.run_set].
    set (star := match columns with RAll => true | RList _ => false end) in *. destruct (from_run _ _ _ _ _ _ _ Sv IHf C2 Fp) as [Dc Fr]. assert (N : good_names (flat_map fst parts)) by (split; assumption).
    eapply fine_next; [exact Fr|]. intros srcs Hsrcs. apply crossed_all_ok in Hsrcs. cbv zeta.
    set (src := crossed_all srcs) in *. clearbody src. destruct Hsrcs as [Hpad Hrows].
    assert (Hrows' : Forall (ok_frame star false (flat_map fst parts) (flat_map snd parts)) (f_rows src)).
    { revert Hrows. apply Forall_impl. intros f. apply ok_frame_weaken. }
    assert (Kp : forall e n l, GE e -> covered up hidden false loose e = true -> typed (flat_map fst parts) e (TyScalar DLogical n) ->
                   Forall (ok_frame star false (flat_map fst parts) (flat_map snd parts)) l ->
                   fine loose (fun k => incl k l) (keep (fun f => v <~ run st (fst f) e; condition v) l)).
    { intros e n l IHe Ce Te Hl. apply fine_keep. revert Hl. apply Forall_impl. intros f [Hf _].
      eapply condition_run; eassumption. }
    eapply (fine_next loose (fun k => incl k (f_rows src))).
    { destruct wh as [e|]; [|apply fine_done; apply incl_refl]. inversion Tw as [|? [n Te]]; subst. cbn in *. eapply Kp; eassumption. }
    intros kept Hk.
    assert (Hkept' : Forall (ok_frame star false (flat_map fst parts) (flat_map snd parts)) kept) by (eapply incl_Forall; eassumption).
    eapply (fine_next loose (fun k => incl k (f_rows src))).
    { destruct group as [[gs having]|]; [|apply fine_done; exact Hk].
      inversion Tg as [|? [Tgs Th]]; subst. cbn in C0, IHg, Tgs, Th. split_and C0. destruct IHg as [Ig Ih].
      eapply fine_next.
      { apply (fine_each loose (fun f p => snd p = f)). revert Hkept'. apply Forall_impl. intros f [Hf _].
        eapply fine_next; [eapply typed_each; eassumption|]. intros k _. apply fine_done. reflexivity. }
      intros keyed Hkeyed. cbn beta in Hkeyed.
      assert (Hin : incl (firsts same_row [] keyed) kept).
      { assert (Hq : map snd keyed = kept) by (clear -Hkeyed; induction Hkeyed; cbn; congruence).
        intros f Hf. rewrite <- Hq. exact (firsts_incl same_row keyed [] f Hf). }
      destruct having as [e|]; [|apply fine_done; eapply incl_tran; eassumption].
      inversion Th as [|? [n Te]]; subst. cbn in *. eapply fine_weaken; [|eapply Kp; try eassumption].
      - intros k Hkk. eapply incl_tran; [exact Hkk|]. eapply incl_tran; eassumption.
      - eapply incl_Forall; [exact Hin|exact Hkept']. }
    intros chosen Hch.
    destruct (IHc hidden st strict loose _ _ _ Sv N C Tc) as [Wc Rc]. fold star in Wc, Rc. rewrite (Wc _ Hpad). cbn [next].
    eapply fine_next.
    { apply (fine_each loose (fun _ r => ok_row strict requested r)). eapply incl_Forall; [exact Hch|]. revert Hrows. apply Forall_impl.
      intros f Hf. apply Rc; exact Hf. }
    intros rows Hr. apply fine_done. pose proof (labelled_weaker _ _ _ Tl) as W. split; cbn.
    + apply (Forall2_len _ _ _ W).
    + assert (G : Forall (ok_row strict attrs) rows).
      { clear -Hr W. induction Hr; constructor; auto. eapply ok_row_weaker; eassumption. }
      destruct mode; [exact G|]. eapply incl_Forall; [apply distinct_rows_incl|exact G].
  - (* set operations *) intros op l r IHl IHr hidden st strict loose attrs Sv C T. cbn [covered_set] in C. split_and C.
    destruct loose; [clear C|discriminate C].
    inversion T as [| |? ? ? attrs1 attrs2 ? T1 T2 M]; subst. cbn [SqlRun.run_set].
    eapply fine_next; [eapply IHl; eassumption|]. intros a [Wa Ra]. eapply fine_next; [eapply IHr; eassumption|]. intros b [Wb Rb].
    destruct (Nat.eqb_spec (t_width a) (t_width b)) as [Hw|Hw]; [|right; right; auto].
    destruct (merged_left _ _ _ M) as [M1 M2]; [congruence|]. apply fine_done. split; cbn.
    + rewrite Wa. apply (Forall2_len _ _ _ M1).
    + eapply incl_Forall; [apply combine_rows_incl|]. apply Forall_app. split; [revert Ra|revert Rb]; apply Forall_impl; intros x;
        apply ok_row_weaker; assumption.
  - (* tables *) intros q alias hidden st star strict loose rels attrs Sv C T. inversion T as [? ? ? Tb| |]; subst.
    assert (Hv : is_hidden up hidden q = false) by (cbn in C; destruct (is_hidden up hidden q); [discriminate|reflexivity]).
    split; [constructor; [exact (Hnames _ _ Tb)|constructor]|]. cbn. destruct (Sv q _ (conj Tb Hv)) as (rows & -> & R).
    apply fine_done. apply named_source_ok. eapply Forall_impl; [|exact R]. intros r Hr.
    clear -Hr. induction Hr as [|v a r attrs [V1 V2] Hr IH]; constructor; [split; auto|exact IH].
  - (* subqueries in FROM *) intros s alias IH hidden st star strict loose rels attrs Sv C T. inversion T as [|? ? ? Ss|]; subst. split; [constructor|].
    cbn in *. eapply fine_next; [eapply IH; eassumption|]. intros tb [W R]. apply fine_done. split; cbn.
    + split; [constructor|]. intros _. cbn. apply nulls_ok'. exact W.
    + rewrite Forall_forall in *. intros f Hf. apply in_map_iff in Hf as (r & <- & Hr). split; [constructor|]. intros _. cbn. auto.
  - (* joins *) intros l r op c IHl IHr _ hidden st star strict loose rels attrs Sv C T. cbn [covered_table] in C. split_and C.
    destruct loose; [clear C|discriminate C].
    inversion T as [| |? ? ? ? rels1 rels2 attrs1 attrs2 T1 T2]; subst.
    destruct (IHl _ _ _ _ _ _ _ Sv C3 T1) as [D1 F1]. destruct (IHr _ _ _ _ _ _ _ Sv C2 T2) as [D2 F2].
    split; [apply Forall_app; auto|]. cbn [SqlRun.run_table].
    eapply fine_next; [exact F1|]. intros a Ha. eapply fine_next; [exact F2|]. intros b Hb.
    assert (On : forall (e : expr) (f : frame), fine true (fun _ => True) (unchecked (v <~ run st (fst f) e; condition v))).
    { intros e f. apply fine_unchecked. reflexivity. }
    destruct op as [t|t|], c as [e|l0].
    + apply joined_ok; auto. destruct t; auto; destruct strict; discriminate.
    + destruct star; [discriminate|]. apply joined_using_ok; auto; [|destruct t; auto; destruct strict; discriminate].
      intros f. apply fine_done. exact I.
    + destruct star; [discriminate|]. apply joined_using_ok; auto. destruct t; auto; destruct strict; discriminate.
    + right. right. auto.
    + apply joined_ok; auto.
    + right. right. auto.
  - (* * *) intros hidden st strict loose rels attrs l Sv N C T. inversion T; subst. split; cbn.
    + intros pad [_ Hp]. specialize (Hp eq_refl). rewrite (Forall2_len _ _ _ Hp). reflexivity.
    + intros f [_ Hf]. apply fine_done. exact (Hf eq_refl).
  - (* select lists *) intros l IH hidden st strict loose rels attrs l0 Sv N C T. inversion T as [|? ? ? reqs F]; subst.
    destruct (columns_run _ _ _ _ _ _ _ Sv N IH C F) as [W R]. split; cbn.
    + intros pad _. rewrite W. cbn. f_equal. clear. induction reqs as [|x reqs IH]; cbn; [reflexivity|]. rewrite app_length, <- IH. reflexivity.
    + intros f [Hf _]. eapply fine_next; [apply R; exact Hf|]. intros vs Hvs. apply fine_done. exact Hvs.
  - (* r.* *) intros n hidden st strict loose rels l Sv N C T. discriminate.
  - (* expressions *) intros e rename IH hidden st strict loose rels l Sv N C T. inversion T as [? ? ? d n Te|]; subst. split; [reflexivity|].
    intros f Hf. cbn in *. eapply fine_next; [eapply IH; eassumption|]. intros v Hv. apply fine_done. constructor; [|constructor].
    apply (fits_cell strict v {| a_name := _; a_type := d; a_null := n |}). exact Hv.
Qed.

End Main.
