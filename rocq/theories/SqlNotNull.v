(** * Columns made nullable or not null *)

From Coq Require Import Sorting.Sorted.
From Verif Require Import Base SqlNameModel SqlModel SqlSpec SqlStmtSpec SqlFromSpec SqlColumnsSpec SqlInd SqlScope SqlNameProofs
  SqlRespell SqlSafeSpec SqlRules SqlRulesNames SqlRulesTop SqlNotNullSpec.

(** ** Lists *)

Lemma lift_list {A B} (P P' : A -> B -> Prop) (S : B -> B -> Prop) l bs :
  Forall (fun a => forall b, P a b -> exists b', P' a b' /\ S b b') l -> Forall2 P l bs ->
  exists bs', Forall2 P' l bs' /\ Forall2 S bs bs'.
Proof.
  intros F H. revert F. induction H as [|a b l bs Hab H IH]; intros F.
  - exists []. split; constructor.
  - inversion F as [|? ? Fa F']; subst. destruct (Fa b Hab) as (b' & H1 & H2). destruct (IH F') as (bs' & H3 & H4).
    exists (b' :: bs'). split; constructor; assumption.
Qed.

Lemma Forall_flat {A B} (P : B -> Prop) (f : A -> list B) l : Forall P (flat_map f l) <-> Forall (fun a => Forall P (f a)) l.
Proof.
  induction l as [|a l IH]; cbn; [split; constructor|]. rewrite Forall_app, IH. split.
  - intros [H1 H2]. constructor; assumption.
  - intros H. inversion H; subst. auto.
Qed.

Lemma Forall2_in_l {A B} (P : A -> B -> Prop) l l' a : Forall2 P l l' -> In a l -> exists b, In b l' /\ P a b.
Proof.
  induction 1 as [|x y l l' Hxy H IH]; intros Ha; [destruct Ha|]. destruct Ha as [<-|Ha].
  - exists y. split; [left; reflexivity|exact Hxy].
  - destruct (IH Ha) as (b & Hb & Pb). exists b. split; [right; exact Hb|exact Pb].
Qed.

Lemma Forall2_flat {A B C D} (P : C -> D -> Prop) (f : A -> list C) (g : B -> list D) l l' :
  Forall2 (fun a b => Forall2 P (f a) (g b)) l l' -> Forall2 P (flat_map f l) (flat_map g l').
Proof. induction 1; cbn; [constructor|]. apply Forall2_app; assumption. Qed.

Lemma Forall2_map_eq {A B C} (f : A -> C) (g : B -> C) l l' : Forall2 (fun a b => g b = f a) l l' -> map g l' = map f l.
Proof. induction 1; cbn; congruence. Qed.

Lemma Forall2_weak {A B} (P Q : A -> B -> Prop) l l' : (forall a b, P a b -> Q a b) -> Forall2 P l l' -> Forall2 Q l l'.
Proof. intros H. induction 1; constructor; auto. Qed.

Section Change.
Context (up : Z -> list Z) (R : bool -> bool -> Prop).
Context (R_refl : forall b, R b b) (R_or : forall a a' b b', R a a' -> R b b' -> R (a || b) (a' || b')).
Notation same := (name_eqb up).
Notation aR := (retyped R).
Notation lR := (Forall2 aR).

Inductive tR : stype -> stype -> Prop :=
| tr_scalar d n n' : R n n' -> tR (TyScalar d n) (TyScalar d n')
| tr_row ts ts' : Forall2 tR ts ts' -> tR (TyTuple ts) (TyTuple ts').

Lemma tR_refl : forall t, tR t t.
Proof.
  fix IH 1. intros [ts|d n]; constructor; [|apply R_refl]. induction ts as [|t ts IHt]; constructor; [apply IH|exact IHt].
Qed.

Lemma tR_scalar d n t : tR (TyScalar d n) t -> exists n', t = TyScalar d n' /\ R n n'.
Proof. intros H. inversion H; subst. eauto. Qed.

Lemma attr_tR a a' : aR a a' -> tR (attr_type a) (attr_type a').
Proof. intros (_ & E & H). unfold attr_type. rewrite E. constructor. exact H. Qed.

Lemma any_R ns ns' : Forall2 R ns ns' -> R (any ns) (any ns').
Proof. induction 1; cbn; auto. Qed.

Lemma alike_R : forall t u t' u', alike t u -> tR t t' -> tR u u' -> alike t' u'.
Proof.
  fix IH 1. intros [ts|d n] u t' u' A T U.
  - inversion A as [|? us F]; subst. inversion T as [|? ts' FT]; subst. inversion U as [|? us' FU]; subst. constructor.
    clear A T U. revert us ts' us' F FT FU. induction ts as [|t ts IHt]; intros us ts' us' F FT FU.
    + inversion F; subst. inversion FT; subst. inversion FU; subst. constructor.
    + inversion F; subst. inversion FT; subst. inversion FU; subst. constructor.
      * eapply IH; eassumption.
      * eapply IHt; eassumption.
  - inversion A; subst. inversion T; subst. inversion U; subst. constructor.
Qed.

(** ** Columns *)

Lemma lR_names l l' : lR l l' -> map a_name l' = map a_name l.
Proof. intros H. apply Forall2_map_eq. eapply Forall2_weak; [|exact H]. intros a b (E & _). exact E. Qed.

Lemma named_R n l l' : lR l l' -> lR (named up n l) (named up n l').
Proof.
  induction 1 as [|a a' l l' Ha H IH]; [constructor|]. cbn. destruct Ha as (E & Ht & Hn). rewrite E.
  destruct (same n (a_name a)); [|exact IH]. constructor; [|exact IH]. repeat split; assumption.
Qed.

Lemma split_R l l' l1 a l2 : lR l l' -> l = l1 ++ a :: l2 ->
  exists l1' a' l2', l' = l1' ++ a' :: l2' /\ lR l1 l1' /\ aR a a' /\ lR l2 l2'.
Proof.
  intros H ->. apply Forall2_app_inv_l in H as (l1' & r & H1 & H2 & ->). inversion H2 as [|? a' ? l2' Ha Hl]; subst. eauto 8.
Qed.

Lemma last_named_R l l' a : lR l l' -> last_named up l a -> exists a', last_named up l' a' /\ aR a a'.
Proof.
  intros H (l1 & l2 & E & F). destruct (split_R _ _ _ _ _ H E) as (l1' & a' & l2' & E' & _ & Ha & H2).
  exists a'. split; [|exact Ha]. exists l1', l2'. split; [exact E'|].
  pose proof Ha as (En & _). rewrite En. clear - F H2. induction H2 as [|b b' l l' (E & _) H IH]; constructor.
  - rewrite E. inversion F; assumption.
  - apply IH. inversion F; assumption.
Qed.

Lemma first_named_R l l' n a : lR l l' -> first_named up l n a -> exists a', first_named up l' n a' /\ aR a a'.
Proof.
  intros H (l1 & l2 & E & Hs & F). destruct (split_R _ _ _ _ _ H E) as (l1' & a' & l2' & E' & H1 & Ha & _).
  exists a'. split; [|exact Ha]. exists l1', l2'. split; [exact E'|]. split.
  - destruct Ha as (En & _). rewrite En. exact Hs.
  - clear - F H1. induction H1 as [|b b' l l' (E & _) H IH]; constructor.
    + rewrite E. inversion F; assumption.
    + apply IH. inversion F; assumption.
Qed.

Definition eR (p p' : name * stype) : Prop := fst p' = fst p /\ tR (snd p) (snd p').

Lemma nput_R m m' k v v' : Forall2 eR m m' -> tR v v' -> Forall2 eR (nput up m k v) (nput up m' k v').
Proof.
  intros H Hv. induction H as [|[k1 v1] [k2 v2] m m' [E1 E2] H IH]; cbn in *.
  - constructor; [split; [reflexivity|exact Hv]|constructor].
  - subst k2. destruct (name_cmp up k k1).
    + constructor; [split; [reflexivity|exact Hv]|exact H].
    + constructor; [split; [reflexivity|exact Hv]|]. constructor; [split; [reflexivity|exact E2]|exact H].
    + constructor; [split; [reflexivity|exact E2]|exact IH].
Qed.

Lemma ncollect_R l l' : Forall2 eR l l' -> Forall2 eR (ncollect up l) (ncollect up l').
Proof.
  unfold ncollect. assert (G : forall m m', Forall2 eR m m' -> Forall2 eR l l' ->
    Forall2 eR (fold_left (fun m e => nput up m (fst e) (snd e)) l m) (fold_left (fun m e => nput up m (fst e) (snd e)) l' m')).
  { intros m m' Hm H. revert m m' Hm. induction H as [|p p' l l' [E1 E2] H IH]; intros m m' Hm; [exact Hm|].
    cbn. apply IH. rewrite E1. apply nput_R; assumption. }
  intros H. apply G; [constructor|exact H].
Qed.

Lemma starred_R attrs attrs' l : lR attrs attrs' -> starred up attrs l -> exists l', starred up attrs' l' /\ lR l l'.
Proof.
  intros H S. apply starred_ok in S.
  assert (M : Forall2 eR (rel_map up attrs) (rel_map up attrs')).
  { unfold rel_map. apply ncollect_R. clear - H. induction H as [|a a' l l' Ha H IH]; constructor; [|exact IH].
    split; [apply Ha|apply attr_tR; exact Ha]. }
  rewrite S in M. 
  assert (E : exists l', rel_map up attrs' = map (fun a => (a_name a, attr_type a)) l' /\ lR l l').
  { clear S. generalize (rel_map up attrs') as m, M. clear M. induction l as [|a l IH]; intros m M; cbn in M.
    - inversion M; subst. exists []. split; constructor.
    - inversion M as [|? p ? m' [E1 E2] M']; subst. destruct (IH m' M') as (l' & -> & Hl). cbn in E1, E2.
      unfold attr_type in E2. apply tR_scalar in E2 as (n' & E2 & Hn).
      exists ({| a_name := a_name a; a_type := a_type a; a_null := n' |} :: l'). split.
      + destruct p as [k t]. cbn in *. subst. reflexivity.
      + constructor; [|exact Hl]. repeat split. exact Hn. }
  destruct E as (l' & E & Hl). exists l'. split; [|exact Hl]. apply starred_ok. exact E.
Qed.

Lemma labelled_R req req' given : lR req req' -> labelled up req given -> exists given', labelled up req' given' /\ lR given given'.
Proof.
  intros H [L E]. exists (map (fun p => {| a_name := a_name (fst p); a_type := a_type (snd p); a_null := a_null (snd p) |}) (combine given req')).
  assert (Len : List.length given = List.length req).
  { apply (f_equal (@List.length _)) in E. rewrite !map_length in E. exact E. }
  split.
  - split.
    + rewrite (lR_names _ _ H). rewrite map_map. cbn.
      replace (map (fun p => a_name (fst p)) (combine given req')) with (map a_name given); [exact L|].
      clear - H Len. revert given Len. induction H as [|a a' l l' Ha H IH]; intros [|g gs] Len; try discriminate; [reflexivity|].
      cbn in *. f_equal. apply IH. congruence.
    + clear - H Len. rewrite map_map. cbn. revert given Len.
      induction H as [|a a' l l' Ha H IH]; intros [|g gs] Len; try discriminate; [reflexivity|]. cbn in *. f_equal. apply IH. congruence.
  - clear L. revert given E Len. induction H as [|a a' l l' Ha H IH]; intros [|g gs] E Len; try discriminate; [constructor|].
    cbn in *. injection E as E1 E2 E3. constructor; [|apply IH; congruence]. destruct Ha as (_ & Ht & Hn).
    repeat split; cbn; [congruence|]. rewrite E2. exact Hn.
Qed.

Fixpoint merge (l r : list attribute) : list attribute :=
  match l, r with
  | a :: l, b :: r => {| a_name := a_name a; a_type := a_type a; a_null := a_null a || a_null b |} :: merge l r
  | _, _ => []
  end.

Lemma merged_cons a b l r c res : merged (a :: l) (b :: r) (c :: res) <->
  a_type a = a_type b /\ c = {| a_name := a_name a; a_type := a_type a; a_null := a_null a || a_null b |} /\ merged l r res.
Proof.
  unfold merged. split.
  - intros [H1 H2]. destruct (H2 0%nat a b eq_refl eq_refl) as [E1 E2]. cbn in E2. split; [exact E1|]. split; [congruence|].
    split; [cbn in H1; congruence|]. intros i a' b' Ha Hb. exact (H2 (S i) a' b' Ha Hb).
  - intros (E1 & -> & H1 & H2). split; [cbn; congruence|]. intros [|i] a' b' Ha Hb.
    + cbn in *. injection Ha as <-. injection Hb as <-. split; [exact E1|reflexivity].
    + exact (H2 i a' b' Ha Hb).
Qed.

Lemma merged_R l l' r r' res : lR l l' -> lR r r' -> merged l r res -> exists res', merged l' r' res' /\ lR res res'.
Proof.
  intros H. revert r r' res. induction H as [|a a' l l' Ha H IH]; intros r r' res Hr M.
  - destruct M as [M _]. destruct res; [|discriminate]. exists []. split; [|constructor]. split; [reflexivity|].
    intros [|i]; discriminate.
  - inversion Hr as [|b b' r0 r0' Hb Hr0]; subst.
    + destruct M as [M _]. destruct res; [|discriminate]. exists []. split; [|constructor]. split; [reflexivity|].
      intros i ? ? _ X. destruct i; discriminate.
    + destruct res as [|c res]; [destruct M; discriminate|]. apply merged_cons in M as (E1 & -> & M).
      destruct (IH _ _ _ Hr0 M) as (res' & M' & Hres). destruct Ha as (A1 & A2 & A3), Hb as (B1 & B2 & B3).
      exists ({| a_name := a_name a'; a_type := a_type a'; a_null := a_null a' || a_null b' |} :: res'). split.
      * apply merged_cons. split; [congruence|]. split; [reflexivity|exact M'].
      * constructor; [|exact Hres]. repeat split; cbn; [congruence|congruence|apply R_or; assumption].
Qed.

(** ** Operators *)

Lemma unary_R op t t' u : unary_rule op t u -> tR t t' -> exists u', unary_rule op t' u' /\ tR u u'.
Proof.
  intros H T. inversion H; subst; apply tR_scalar in T as (n' & -> & Hn); eexists; (split; [constructor|constructor; exact Hn]).
Qed.

Lemma binary_R op t1 t1' t2 t2' u : binary_rule op t1 t2 u -> tR t1 t1' -> tR t2 t2' -> exists u', binary_rule op t1' t2' u' /\ tR u u'.
Proof.
  intros H T1 T2. inversion H; subst; apply tR_scalar in T1 as (n1 & -> & H1); apply tR_scalar in T2 as (n2 & -> & H2);
    (eexists; split; [constructor; assumption|constructor; apply R_or; assumption]).
Qed.

Lemma compare_R op t1 t1' t2 t2' u : compare_rule op t1 t2 u -> tR t1 t1' -> tR t2 t2' -> exists u', compare_rule op t1' t2' u' /\ tR u u'.
Proof.
  intros H T1 T2. inversion H as [? ? ? ? Hop|? ts us Hop F|? ? ? ? Hop Ho|? ?]; subst;
    try (apply tR_scalar in T1 as (n1 & -> & H1); apply tR_scalar in T2 as (n2 & -> & H2)).
  - eexists. split; [apply cr_equal; exact Hop|constructor; apply R_or; assumption].
  - assert (A : alike (TyTuple ts) (TyTuple us)) by (constructor; exact F).
    inversion T1 as [|? ts' F1]; subst. inversion T2 as [|? us' F2]; subst. eexists. split; [apply cr_rows; [exact Hop|]|apply tR_refl].
    pose proof (alike_R _ _ _ _ A T1 T2) as A'. inversion A'; subst. assumption.
  - eexists. split; [apply cr_order; assumption|constructor; apply R_or; assumption].
  - eexists. split; [apply cr_like|constructor; apply R_or; assumption].
Qed.

(** ** Scopes *)

Definition relR (r r' : name * list attribute) : Prop := fst r' = fst r /\ lR (snd r) (snd r').
Notation scR := (Forall2 relR).

Lemma scR_names s s' : scR s s' -> map fst s' = map fst s.
Proof. intros H. apply Forall2_map_eq. eapply Forall2_weak; [|exact H]. intros a b (E & _). exact E. Qed.

Lemma scR_attrs s s' : scR s s' -> lR (flat_map snd s) (flat_map snd s').
Proof. intros H. apply Forall2_flat. eapply Forall2_weak; [|exact H]. intros a b (_ & E). exact E. Qed.

Lemma refers_R s s' q t : scR s s' -> refers up s q t -> exists t', refers up s' q t' /\ tR t t'.
Proof.
  intros H Q. destruct q as [|r [|a [|? ?]]]; try contradiction; cbn in Q.
  - destruct Q as (F & b & E & ->). pose proof (named_R r _ _ (scR_attrs _ _ H)) as N. rewrite E in N.
    inversion N as [|? b' ? l' Hb Hl]; subst. inversion Hl; subst. exists (attr_type b'). split; [|apply attr_tR; exact Hb].
    cbn. split; [|exists b'; split; [symmetry; assumption|reflexivity]].
    clear - F H. induction H as [|x y s s' (E & _) H IH]; constructor.
    + rewrite E. inversion F; assumption.
    + apply IH. inversion F; assumption.
  - destruct Q as (n & attrs & b & Hi & Hs & Hl & Ha & ->).
    destruct (Forall2_in_l _ _ _ _ H Hi) as ([n' attrs'] & Hi' & En & Hattrs). cbn in En, Hattrs. subst n'.
    destruct (last_named_R _ _ _ Hattrs Hl) as (b' & Hl' & Hb). exists (attr_type b'). split; [|apply attr_tR; exact Hb].
    cbn. exists n, attrs', b'. split; [exact Hi'|]. split; [exact Hs|]. split; [exact Hl'|]. split; [|reflexivity].
    destruct Hb as (E & _). rewrite E. exact Ha.
Qed.

(** ** Expressions and queries *)

Section Rules.
Context (T T' : list name -> list attribute -> Prop) (L : list (list name)) (okin : Prop) (plim : expr -> Prop).
Context (Tab : tables_become (Forall2 (retyped R)) T T' L).
Context (Okin : okin -> forall n, R true n -> n = true).
Context (Lim : (forall n, R false n -> n = false) \/
  forall e, plim e -> typed up T [] e (TyScalar DNumeric false) -> typed up T' [] e (TyScalar DNumeric false)).
Notation okpart := (fun p => match p with PartIn _ _ => okin | PartLimit e => plim e end).
Notation ok ts ps := (incl ts L /\ Forall okpart ps).

Let PE (e : expr) : Prop := ok (tables_expr e) (parts_expr e) -> forall s s' t, scR s s' -> typed up T s e t ->
  exists t', typed up T' s' e t' /\ tR t t'.
Let PSP (m : set_spec) : Prop := ok (tables_spec m) (parts_spec m) -> forall s s' d n, scR s s' -> members_typed up T s m d n ->
  exists n', members_typed up T' s' m d n' /\ R n n'.
Let PS (q : select) : Prop := ok (tables_select q) (parts_select q) -> forall l, selects up T q l -> exists l', selects up T' q l' /\ lR l l'.
Let PC (c : cte) : Prop := ok (tables_cte c) (parts_cte c) -> forall l, common_table up T c l -> exists l', common_table up T' c l' /\ lR l l'.
Let PX (e : set_expr) : Prop := ok (tables_set e) (parts_set e) -> forall l, set_typed up T e l -> exists l', set_typed up T' e l' /\ lR l l'.
Let PT (t : table_expr) : Prop := ok (tables_from t) (parts_from t) -> forall s l, item_typed up T t s l ->
  exists s' l', item_typed up T' t s' l' /\ scR s s' /\ lR l l'.
Let PR (c : result_columns) : Prop := ok (tables_columns c) (parts_columns c) -> forall s s' a a' l, scR s s' -> lR a a' ->
  columns_typed up T s a c l -> exists l', columns_typed up T' s' a' c l' /\ lR l l'.
Let PK (c : result_column) : Prop := ok (tables_column c) (parts_column c) -> forall s s' l, scR s s' ->
  column_typed up T s c l -> exists l', column_typed up T' s' c l' /\ lR l l'.

Lemma ok_app a b ps qs : ok (a ++ b) (ps ++ qs) -> ok a ps /\ ok b qs.
Proof.
  intros [I F]. apply Forall_app in F as [F1 F2]. split; (split; [|assumption]); intros x Hx; apply I, in_or_app; auto.
Qed.

Lemma ok_flat {A} (f : A -> list (list name)) (g : A -> list part) l : ok (flat_map f l) (flat_map g l) ->
  Forall (fun a => ok (f a) (g a)) l.
Proof.
  intros [I F]. apply Forall_flat in F. revert I. induction F as [|a l Fa F IH]; intros I; constructor.
  - split; [|exact Fa]. intros x Hx. apply I. cbn. apply in_or_app. left. exact Hx.
  - apply IH. intros x Hx. apply I. cbn. apply in_or_app. right. exact Hx.
Qed.

Lemma ok_nil : ok [] [].
Proof. split; [intros x []|constructor]. Qed.

Lemma scalar_PE e s s' d n : PE e -> ok (tables_expr e) (parts_expr e) -> scR s s' -> typed up T s e (TyScalar d n) ->
  exists n', typed up T' s' e (TyScalar d n') /\ R n n'.
Proof. intros IH O Hs H. destruct (IH O _ _ _ Hs H) as (t' & H' & Ht). apply tR_scalar in Ht as (n' & -> & Hn). eauto. Qed.

Lemma limit_PE e : PE e -> plim e -> ok (tables_expr e) (parts_expr e) -> typed up T [] e (TyScalar DNumeric false) ->
  typed up T' [] e (TyScalar DNumeric false).
Proof.
  intros IH Pl O H. destruct Lim as [S|S]; [|exact (S e Pl H)].
  destruct (scalar_PE e [] [] _ _ IH O (Forall2_nil _) H) as (n' & H' & Hn). rewrite (S _ Hn) in H'. exact H'.
Qed.

Lemma first_PE row : Forall PE row -> Forall (fun e => ok (tables_expr e) (parts_expr e)) row ->
  forall k l, first_typed up T k row l -> exists l', first_typed up T' k row l' /\ lR l l'.
Proof.
  intros IH O. pose proof (Forall_and IH O) as F. clear IH O. induction F as [|e row [He Oe] F IH]; intros k l H.
  - inversion H; subst. exists []. split; constructor.
  - inversion H as [|? ? ? d n w attrs H1 H2 H3]; subst. destruct (scalar_PE e [] [] _ _ He Oe (Forall2_nil _) H1) as (n' & H1' & Hn).
    destruct (IH _ _ H3) as (l' & H3' & Hl). eexists. split; [constructor; eassumption|]. constructor; [|exact Hl]. repeat split. exact Hn.
Qed.

Lemma row_PE row : Forall PE row -> Forall (fun e => ok (tables_expr e) (parts_expr e)) row ->
  forall a a' l, lR a a' -> row_typed up T a row l -> exists l', row_typed up T' a' row l' /\ lR l l'.
Proof.
  intros IH O. pose proof (Forall_and IH O) as F. clear IH O. induction F as [|e row [He Oe] F IH]; intros a a' l Ha H.
  - inversion H; subst; exists []; (split; [|constructor]); [inversion Ha; subst|]; constructor.
  - inversion H as [|? |x xs ? ? n ys H1 H2]; subst.
    + inversion Ha; subst. exists []. split; constructor.
    + inversion Ha as [|? x' ? xs' Hx Hxs]; subst. destruct (scalar_PE e [] [] _ _ He Oe (Forall2_nil _) H1) as (n' & H1' & Hn).
      destruct (IH _ _ _ Hxs H2) as (l' & H2' & Hl). destruct Hx as (E1 & E2 & E3). rewrite <- E2 in H1'.
      eexists. split; [apply w_cons; eassumption|]. constructor; [|exact Hl]. repeat split; cbn; [exact E1|exact E2|apply R_or; assumption].
Qed.

Lemma rows_PE rows : Forall (Forall PE) rows -> Forall (Forall (fun e => ok (tables_expr e) (parts_expr e))) rows ->
  forall a a' l, lR a a' -> rows_typed up T a rows l -> exists l', rows_typed up T' a' rows l' /\ lR l l'.
Proof.
  intros IH O. pose proof (Forall_and IH O) as F. clear IH O. induction F as [|r rows [Hr Or] F IH]; intros a a' l Ha H.
  - inversion H; subst. exists a'. split; [constructor|exact Ha].
  - inversion H as [|? ? ? b ? H1 H2]; subst. destruct (row_PE r Hr Or _ _ _ Ha H1) as (b' & H1' & Hb).
    destruct (IH _ _ _ Hb H2) as (l' & H2' & Hl). exists l'. split; [econstructor; eassumption|exact Hl].
Qed.

Lemma opt_mp {A} (P Q : A -> Prop) o : (forall a, o = Some a -> P a -> Q a) -> opt P o -> opt Q o.
Proof. intros H X. destruct X; constructor; auto. Qed.

Lemma rules_R : (forall e, PE e) /\ (forall s, PSP s) /\ (forall s, PS s) /\ (forall c, PC c) /\ (forall e, PX e) /\
  (forall t, PT t) /\ (forall c, PR c) /\ (forall c, PK c).
Proof.
  apply sql_induction.
  - (* literal *) intros l O s s' t Hs H. inversion H; subst. exists (literal_rule l). split; [constructor|apply tR_refl].
  - (* name *) intros q O s s' t Hs H. inversion H as [|? ? ? Q| | | | | | | |]; subst.
    destruct (refers_R _ _ _ _ Hs Q) as (t' & Q' & Ht). exists t'. split; [constructor; exact Q'|exact Ht].
  - (* row *) intros es IH O s s' t Hs H. inversion H as [| |? ? ts F| | | | | | |]; subst. apply ok_flat in O.
    destruct (lift_list (typed up T s) (typed up T' s') tR es ts) as (ts' & F' & G); [|exact F|].
    + eapply Forall_impl; [|exact (Forall_and IH O)]. intros e [He Oe] b Hb. exact (He Oe _ _ _ Hs Hb).
    + exists (TyTuple ts'). split; constructor; assumption.
  - (* select *) intros q IH O s s' t Hs H. inversion H as [| | | | | | | | |? ? a Q]; subst.
    destruct (IH O _ Q) as (l' & Q' & Hl). inversion Hl as [|? a' ? l0 Ha Hl0]; subst. inversion Hl0; subst.
    exists (TyScalar (a_type a') (a_null a')). split; [constructor; exact Q'|exact (attr_tR _ _ Ha)].
  - (* unary *) intros op e IH O s s' t Hs H. inversion H as [| | |? ? ? t0 ? H1 Ru| | | | | |]; subst.
    destruct (IH O _ _ _ Hs H1) as (t0' & H1' & Ht0). destruct (unary_R _ _ _ _ Ru Ht0) as (u & Ru' & Hu).
    exists u. split; [econstructor; eassumption|exact Hu].
  - (* binary *) intros op e1 e2 IH1 IH2 O s s' t Hs H. inversion H as [| | | |? ? ? ? t1 t2 ? H1 H2 Ru| | | | |]; subst.
    apply ok_app in O as [O1 O2]. destruct (IH1 O1 _ _ _ Hs H1) as (t1' & H1' & Ht1). destruct (IH2 O2 _ _ _ Hs H2) as (t2' & H2' & Ht2).
    destruct (binary_R _ _ _ _ _ _ Ru Ht1 Ht2) as (u & Ru' & Hu). exists u. split; [econstructor; eassumption|exact Hu].
  - (* compare *) intros op e1 e2 IH1 IH2 O s s' t Hs H. inversion H as [| | | | |? ? ? ? t1 t2 ? H1 H2 Ru| | | |]; subst.
    apply ok_app in O as [O1 O2]. destruct (IH1 O1 _ _ _ Hs H1) as (t1' & H1' & Ht1). destruct (IH2 O2 _ _ _ Hs H2) as (t2' & H2' & Ht2).
    destruct (compare_R _ _ _ _ _ _ Ru Ht1 Ht2) as (u & Ru' & Hu). exists u. split; [econstructor; eassumption|exact Hu].
  - (* IN *) intros e m IH1 IH2 O s s' t Hs H. inversion H as [| | | | | | | |? ? ? d n k H1 H2 Hor|]; subst.
    destruct O as [O1 O2]. cbn in O2. inversion O2 as [|? ? Hok O3]; subst. pose proof (ok_app _ _ _ _ (conj O1 O3)) as [Oa Ob].
    destruct (scalar_PE _ _ _ _ _ IH1 Oa Hs H1) as (n' & H1' & Hn). destruct (IH2 Ob _ _ _ _ Hs H2) as (k' & H2' & Hk).
    exists (TyScalar DLogical false). split; [|apply tR_refl]. econstructor; [exact H1'|exact H2'|].
    apply (Okin Hok). rewrite <- Hor. apply R_or; assumption.
  - (* BETWEEN *) intros e lo hi IH1 IH2 IH3 O s s' t Hs H. inversion H as [| | | | | |? ? ? ? d n1 n2 n3 H1 H2 H3 Ho| | |]; subst.
    apply ok_app in O as [O1 O]. apply ok_app in O as [O2 O3].
    destruct (scalar_PE _ _ _ _ _ IH1 O1 Hs H1) as (n1' & H1' & E1). destruct (scalar_PE _ _ _ _ _ IH2 O2 Hs H2) as (n2' & H2' & E2).
    destruct (scalar_PE _ _ _ _ _ IH3 O3 Hs H3) as (n3' & H3' & E3). eexists. split; [econstructor; eassumption|]. constructor. auto.
  - (* CASE *) intros o whens els IHo IHw IHe O s s' t Hs H. inversion H as [| | | | | | |? ? ? ? d ns k Hne Ho Hw He| |]; subst.
    apply ok_app in O as [Oo O]. apply ok_app in O as [Ow Oe]. apply ok_flat in Ow.
    destruct (lift_list (fun w n => typed up T s (snd w) (TyScalar d n)) (fun w n => typed up T' s' (snd w) (TyScalar d n)) R whens ns)
      as (ns' & Hw' & Hns); [|exact Hw|].
    { pose proof (Forall_and IHw Ow) as F. eapply Forall_impl; [|exact F]. intros w [[_ Iw] Ok] n Hn. apply ok_app in Ok as [_ Ok].
      exact (scalar_PE _ _ _ _ _ Iw Ok Hs Hn). }
    assert (E : exists k', otherwise up T' s' d els k' /\ R k k').
    { inversion He as [|? ? e n H1]; subst; [exists true; split; [constructor|apply R_refl]|].
      destruct (scalar_PE _ _ _ _ _ IHe Oe Hs H1) as (n' & H1' & Hn). exists n'. split; [constructor; exact H1'|exact Hn]. }
    destruct E as (k' & He' & Hk). exists (TyScalar d (any ns' || k')). split; [|constructor; apply R_or; [apply any_R; exact Hns|exact Hk]].
    apply t_case; [exact Hne| |exact Hw'|exact He'].
    eapply opt_mp; [|exact Ho]. cbv beta. intros a -> (t & Ht). destruct (IHo Oo _ _ _ Hs Ht) as (t' & Ht' & _). exists t'. exact Ht'.
  - intros q IH O s s' d n Hs H. inversion H as [| |? ? a Q]; subst. destruct (IH O _ Q) as (l' & Q' & Hl).
    inversion Hl as [|? a' ? l0 Ha Hl0]; subst. inversion Hl0; subst. destruct Ha as (E1 & E2 & E3).
    exists (a_null a'). split; [|exact E3]. rewrite <- E2. constructor. exact Q'.
  - intros es IH O s s' d n Hs H. inversion H as [? ? ? ns Hne F| |]; subst. apply ok_flat in O.
    destruct (lift_list (fun e n => typed up T s e (TyScalar d n)) (fun e n => typed up T' s' e (TyScalar d n)) R es ns) as (ns' & F' & G); [|exact F|].
    + eapply Forall_impl; [|exact (Forall_and IH O)]. intros e [He Oe] b Hb. exact (scalar_PE _ _ _ _ _ He Oe Hs Hb).
    + exists (any ns'). split; [constructor; assumption|apply any_R; exact G].
  - intros q O s s' d n Hs H. inversion H as [|? ? a Ht|]; subst. destruct (Tab q [a]) as (l' & Ht' & Hl); [apply O; left; reflexivity|exact Ht|].
    inversion Hl as [|? a' ? l0 Ha Hl0]; subst. inversion Hl0; subst. destruct Ha as (E1 & E2 & E3).
    exists (a_null a'). split; [|exact E3]. rewrite <- E2. constructor. exact Ht'.
  - (* query *) intros common e order lim IHc IHe IHo IHl O l H. inversion H as [? ? ? ? scope ? Hc Hd He Ho Hl]; subst.
    apply ok_app in O as [Oc O]. apply ok_app in O as [Oe O]. apply ok_app in O as [Oo Ol]. apply ok_flat in Oc. apply ok_flat in Oo.
    destruct (lift_list (fun c r => fst r = cte_id c /\ common_table up T c (snd r)) (fun c r => fst r = cte_id c /\ common_table up T' c (snd r))
                relR common scope) as (scope' & Hc' & Hs); [|exact Hc|].
    { eapply Forall_impl; [|exact (Forall_and IHc Oc)]. intros c [Ic Ok] [n attrs] [E1 E2]. destruct (Ic Ok _ E2) as (attrs' & E2' & Ha).
      exists (n, attrs'). split; split; assumption || reflexivity. }
    destruct (IHe Oe _ He) as (l' & He' & Hll). exists l'. split; [|exact Hll]. apply (s_select _ _ _ _ _ _ scope'); [exact Hc'| |exact He'| |].
    + rewrite (scR_names _ _ Hs). exact Hd.
    + pose proof (Forall_and (Forall_and IHo Oo) Ho) as F. eapply Forall_impl; [|exact F]. cbv beta. intros o [[Io Ok] (d & n & Ht)].
      destruct (scalar_PE _ _ _ _ _ Io Ok Hs Ht) as (n' & Ht' & _). eauto.
    + inversion Hl as [|[a b] [H1 H2]]; subst; constructor. cbn [fst snd if_some] in *. destruct IHl as [Ia Ib].
      pose proof (ok_app (tables_expr a) _ (PartLimit a :: parts_expr a) _ Ol) as [Oa Ob]. clear Ol. destruct Oa as [Oa1 Oa2]. inversion Oa2; subst. split.
      * apply limit_PE; try assumption. split; assumption.
      * inversion H2 as [|b' Hb]; subst; constructor. destruct Ob as [Ob1 Ob2]. inversion Ob2; subst.
        apply limit_PE; try assumption. split; assumption.
  - (* WITH *) intros id names q IH O l H. inversion H as [? ? ? Hq|? ns ? attrs ? Hq F]; subst.
    + destruct (IH O _ Hq) as (l' & Hq' & Hl). exists l'. split; [constructor; exact Hq'|exact Hl].
    + destruct (IH O _ Hq) as (attrs' & Hq' & Ha).
      destruct (lift_list (fun n b => exists a, first_named up attrs n a /\ b = {| a_name := n; a_type := a_type a; a_null := a_null a |})
                  (fun n b => exists a, first_named up attrs' n a /\ b = {| a_name := n; a_type := a_type a; a_null := a_null a |}) aR ns l)
        as (l' & F' & Hl); [|exact F|].
      * apply Forall_forall. intros n _ b (a & Hf & ->). destruct (first_named_R _ _ _ _ Ha Hf) as (a' & Hf' & E1 & E2 & E3).
        eexists. split; [exists a'; split; [exact Hf'|reflexivity]|]. repeat split; assumption.
      * exists l'. split; [econstructor; eassumption|exact Hl].
  - (* VALUES *) intros rows IH O l H. inversion H as [row rows0 a ? H1 H2| |]; subst.
    pose proof (ok_flat (flat_map tables_expr) (flat_map parts_expr) _ O) as O'.
    inversion IH as [|? ? I1 I2]; subst. inversion O' as [|? ? O1 O2]; subst.
    destruct (first_PE _ I1 (ok_flat _ _ _ O1) _ _ H1) as (a' & H1' & Ha).
    destruct (rows_PE _ I2 (Forall_impl _ (fun r => ok_flat tables_expr parts_expr r) O2) _ _ _ Ha H2) as (l' & H2' & Hl).
    exists l'. split; [econstructor; eassumption|exact Hl].
  - (* SELECT *) intros mode columns from wh group IHc IHf IHw IHg O l H.
    inversion H as [|? ? ? ? ? parts req ? Hf Hd Hw Hg Hc Hl|]; subst.
    apply ok_app in O as [Oc O]. apply ok_app in O as [Of O]. apply ok_app in O as [Ow Og]. apply ok_flat in Of.
    destruct (lift_list (fun t p => item_typed up T t (fst p) (snd p)) (fun t p => item_typed up T' t (fst p) (snd p))
                (fun p p' => scR (fst p) (fst p') /\ lR (snd p) (snd p')) from parts) as (parts' & Hf' & Hp); [|exact Hf|].
    { eapply Forall_impl; [|exact (Forall_and IHf Of)]. intros t [It Ok] [s a] Ht. destruct (It Ok _ _ Ht) as (s' & a' & Ht' & Hs & Ha).
      exists (s', a'). split; [exact Ht'|split; assumption]. }
    assert (Hs : scR (flat_map fst parts) (flat_map fst parts')).
    { apply Forall2_flat. eapply Forall2_weak; [|exact Hp]. intros a b [Hab _]. exact Hab. }
    assert (Ha : lR (flat_map snd parts) (flat_map snd parts')).
    { apply Forall2_flat. eapply Forall2_weak; [|exact Hp]. intros a b [_ Hab]. exact Hab. }
    destruct (IHc Oc _ _ _ _ _ Hs Ha Hc) as (req' & Hc' & Hreq). destruct (labelled_R _ _ _ Hreq Hl) as (l' & Hl' & Hll).
    exists l'. split; [|exact Hll]. apply (x_query _ _ _ _ _ _ _ parts' req'); [exact Hf'| | | |exact Hc'|exact Hl'].
    + rewrite (scR_names _ _ Hs). exact Hd.
    + eapply opt_mp; [|exact Hw]. cbv beta. intros a -> (n & Hn). destruct (scalar_PE _ _ _ _ _ IHw Ow Hs Hn) as (n' & Hn' & _). eauto.
    + eapply opt_mp; [|exact Hg]. cbv beta. intros [es h] -> [G1 G2]. cbn [fst snd if_some] in *. destruct IHg as [I1 I2]. apply ok_app in Og as [O1 O2]. apply ok_flat in O1. split.
      * eapply Forall_impl; [|exact (Forall_and (Forall_and I1 O1) G1)]. cbv beta. intros e [[Ie Ok] (t & Ht)].
        destruct (Ie Ok _ _ _ Hs Ht) as (t' & Ht' & _). eauto.
      * eapply opt_mp; [|exact G2]. cbv beta. intros a -> (n & Hn). destruct (scalar_PE _ _ _ _ _ I2 O2 Hs Hn) as (n' & Hn' & _). eauto.
  - (* UNION ... *) intros op e1 e2 IH1 IH2 O l H. inversion H as [| |? ? ? l1 l2 ? H1 H2 M]; subst. apply ok_app in O as [O1 O2].
    destruct (IH1 O1 _ H1) as (l1' & H1' & Hl1). destruct (IH2 O2 _ H2) as (l2' & H2' & Hl2).
    destruct (merged_R _ _ _ _ _ Hl1 Hl2 M) as (l' & M' & Hl). exists l'. split; [econstructor; eassumption|exact Hl].
  - (* FROM table *) intros q alias O s l H. inversion H; subst. destruct (Tab q l) as (l' & Ht' & Hl); [apply O; left; reflexivity|assumption|].
    eexists _, l'. split; [constructor; exact Ht'|]. split; [|exact Hl]. constructor; [|constructor]. split; [reflexivity|exact Hl].
  - (* FROM select *) intros q alias IH O s l H. inversion H; subst. destruct (IH O l) as (l' & Hq & Hl); [assumption|].
    exists [], l'. split; [constructor; exact Hq|]. split; [constructor|exact Hl].
  - (* JOIN *) intros t1 t2 op c IH1 IH2 _ O s l H. inversion H as [| |? ? ? ? s1 s2 l1 l2 H1 H2]; subst. apply ok_app in O as [O1 O2].
    destruct (IH1 O1 _ _ H1) as (s1' & l1' & H1' & Hs1 & Hl1). destruct (IH2 O2 _ _ H2) as (s2' & l2' & H2' & Hs2 & Hl2).
    exists (s1' ++ s2'), (l1' ++ l2'). split; [constructor; assumption|]. split; apply Forall2_app; assumption.
  - intros O s s' a a' l Hs Ha H. inversion H; subst. exists a'. split; [constructor|exact Ha].
  - intros cs IH O s s' a a' l Hs Ha H. inversion H as [|? ? ? reqs F]; subst. apply ok_flat in O.
    destruct (lift_list (column_typed up T s) (column_typed up T' s') lR cs reqs) as (reqs' & F' & G); [|exact F|].
    + eapply Forall_impl; [|exact (Forall_and IH O)]. intros c [Ic Oc] b Hb. exact (Ic Oc _ _ _ Hs Hb).
    + exists (concat reqs'). split; [constructor; exact F'|]. clear - G. induction G; cbn; [constructor|]. apply Forall2_app; assumption.
  - intros r O s s' l Hs H. inversion H as [|? ? n attrs ? Hi Hr Hst]; subst.
    destruct (Forall2_in_l _ _ _ _ Hs Hi) as ([n' attrs'] & Hi' & En & Hattrs). cbn in En, Hattrs. subst n'.
    destruct (starred_R _ _ _ Hattrs Hst) as (l' & Hst' & Hl). exists l'. split; [econstructor; eassumption|exact Hl].
  - intros e rename IH O s s' l Hs H. inversion H as [? ? ? d n Ht|]; subst. destruct (scalar_PE _ _ _ _ _ IH O Hs Ht) as (n' & Ht' & Hn).
    eexists. split; [constructor; exact Ht'|]. constructor; [|constructor]. repeat split. exact Hn.
Qed.

End Rules.
End Change.

(** ** The three instances *)

Section Instances.
Context (up : Z -> list Z) (T T' : list name -> list attribute -> Prop).
Notation loose := (fun n n' : bool => n = true -> n' = true).
Notation strict := (fun n n' : bool => n' = true -> n = true).

Lemma no_tables R : tables_become R T T' [].
Proof. intros q attrs []. Qed.

(** An expression without tables has the same type in every catalog. *)
Lemma closed_typed e t : tables_expr e = [] -> typed up T [] e t -> typed up T' [] e t.
Proof.
  intros E H.
  destruct (rules_R up eq (fun b => eq_refl) (fun a a' b b' H1 H2 => f_equal2 orb H1 H2) T T' [] True (fun _ => True)
              (no_tables _) (fun _ n H => eq_sym H) (or_introl (fun n H => eq_sym H))) as (PE & _).
  destruct (PE e) with (s := @nil (name * list attribute)) (s' := @nil (name * list attribute)) (t := t) as (t' & H' & Ht); [|constructor|exact H|].
  - split; [rewrite E; apply incl_refl|]. apply Forall_forall. intros [|] _; exact I.
  - assert (G : forall t t', tR eq t t' -> t = t').
    { clear. fix IH 1. intros [ts|d n] t' Ht; inversion Ht as [|? ts' F]; subst; [|reflexivity]. f_equal. clear Ht. revert ts' F.
      induction ts as [|t ts IHt]; intros ts' F; inversion F; subst; [reflexivity|]. f_equal; [apply IH; assumption|apply IHt; assumption]. }
    rewrite (G _ _ Ht). exact H'.
Qed.

Lemma loose_or a a' b b' : loose a a' -> loose b b' -> loose (a || b) (a' || b').
Proof. destruct a, b, a', b'; cbn; auto. Qed.

Lemma strict_or a a' b b' : strict a a' -> strict b b' -> strict (a || b) (a' || b').
Proof. destruct a, b, a', b'; cbn; auto. Qed.

Definition looser_rules L (H : tables_become looser T T' L) :=
  rules_R up loose (fun b H => H) loose_or T T' L True (fun e => tables_expr e = []) H (fun _ n H => H eq_refl)
    (or_intror (fun e E => closed_typed e _ E)).

Lemma strict_false n : strict false n -> n = false.
Proof. destruct n; [|reflexivity]. intros H. symmetry. apply H. reflexivity. Qed.

Definition stricter_rules L (H : tables_become stricter T T' L) :=
  rules_R up strict (fun b H => H) strict_or T T' L False (fun _ => True) H (fun f => False_ind _ f) (or_introl strict_false).

Lemma limits_ok ps : limits_closed ps -> Forall (fun p => match p with PartIn _ _ => True | PartLimit e => tables_expr e = [] end) ps.
Proof. apply Forall_impl. intros [|]; auto. Qed.

Lemma in_ok ps : without_in ps -> Forall (fun p => match p with PartIn _ _ => False | PartLimit e => True end) ps.
Proof. apply Forall_impl. intros [|]; auto. Qed.

Lemma looser_refl l : looser l l.
Proof. induction l; constructor; [|assumption]. repeat split. auto. Qed.
Lemma stricter_refl l : stricter l l.
Proof. induction l; constructor; [|assumption]. repeat split. auto. Qed.

Lemma selects_looser q l : tables_become looser T T' (tables_select q) -> limits_closed (parts_select q) -> selects up T q l ->
  exists l', selects up T' q l' /\ looser l l'.
Proof.
  intros H O. destruct (looser_rules _ H) as (_ & _ & PS & _). apply PS. split; [apply incl_refl|apply limits_ok; exact O].
Qed.

Lemma selects_stricter q l : tables_become stricter T T' (tables_select q) -> without_in (parts_select q) -> selects up T q l ->
  exists l', selects up T' q l' /\ stricter l l'.
Proof.
  intros H O. destruct (stricter_rules _ H) as (_ & _ & PS & _). apply PS. split; [apply incl_refl|apply in_ok; exact O].
Qed.

Lemma set_stricter e l : tables_become stricter T T' (tables_set e) -> without_in (parts_set e) -> set_typed up T e l ->
  exists l', set_typed up T' e l' /\ stricter l l'.
Proof.
  intros H O. destruct (stricter_rules _ H) as (_ & _ & _ & _ & PX & _). apply PX. split; [apply incl_refl|apply in_ok; exact O].
Qed.

Lemma become_incl R L L' : incl L' L -> tables_become R T T' L -> tables_become R T T' L'.
Proof. intros I H q a Hq. apply H. apply I. exact Hq. Qed.

Lemma single_R R (r : name) a a' : Forall2 (retyped R) a a' -> Forall2 (relR R) [(r, a)] [(r, a')].
Proof. intros H. constructor; [|constructor]. split; [reflexivity|exact H]. Qed.

Lemma expr_looser e r a a' d n : tables_become looser T T' (tables_expr e) -> limits_closed (parts_expr e) -> looser a a' ->
  typed up T [(r, a)] e (TyScalar d n) -> exists n', typed up T' [(r, a')] e (TyScalar d n') /\ (n = true -> n' = true).
Proof.
  intros H O Ha Ht. destruct (looser_rules _ H) as (PE & _).
  destruct (PE e (conj (incl_refl _) (limits_ok _ O)) [(r, a)] [(r, a')] _ (single_R _ _ _ _ Ha) Ht) as (t' & H' & Hr).
  apply tR_scalar in Hr as (n' & -> & Hn). eauto.
Qed.

Lemma expr_stricter e r a a' d n : tables_become stricter T T' (tables_expr e) -> without_in (parts_expr e) -> stricter a a' ->
  typed up T [(r, a)] e (TyScalar d n) -> exists n', typed up T' [(r, a')] e (TyScalar d n') /\ (n' = true -> n = true).
Proof.
  intros H O Ha Ht. destruct (stricter_rules _ H) as (PE & _).
  destruct (PE e (conj (incl_refl _) (in_ok _ O)) [(r, a)] [(r, a')] _ (single_R _ _ _ _ Ha) Ht) as (t' & H' & Hr).
  apply tR_scalar in Hr as (n' & -> & Hn). eauto.
Qed.

Lemma delete_looser d : tables_become looser T T' (d_table d :: where_tables (d_where d)) -> limits_closed (parts_where (d_where d)) ->
  statement_typed up T (StDelete d) -> statement_typed up T' (StDelete d).
Proof.
  intros H O D. inversion D as [| | |? a Ht Hf]; subst. destruct (H _ _ (or_introl eq_refl) Ht) as (a' & Ht' & Ha).
  apply (st_delete _ _ _ a'); [exact Ht'|]. unfold filter_typed in *. destruct Hf as [|e (n & Hn)]; constructor.
  destruct (expr_looser e _ _ a' _ _ (become_incl _ (d_table d :: tables_expr e) _ (fun q Hq => or_intror Hq) H) O Ha Hn) as (n' & Hn' & _). eauto.
Qed.

Lemma delete_stricter d : tables_become stricter T T' (d_table d :: where_tables (d_where d)) -> without_in (parts_where (d_where d)) ->
  statement_typed up T (StDelete d) -> statement_typed up T' (StDelete d).
Proof.
  intros H O D. inversion D as [| | |? a Ht Hf]; subst. destruct (H _ _ (or_introl eq_refl) Ht) as (a' & Ht' & Ha).
  apply (st_delete _ _ _ a'); [exact Ht'|]. unfold filter_typed in *. destruct Hf as [|e (n & Hn)]; constructor.
  destruct (expr_stricter e _ _ a' _ _ (become_incl _ (d_table d :: tables_expr e) _ (fun q Hq => or_intror Hq) H) O Ha Hn) as (n' & Hn' & _). eauto.
Qed.

Lemma last_named_sym l l' c' : looser l l' -> last_named up l' c' ->
  exists c, last_named up l c /\ a_name c' = a_name c /\ (a_null c = true -> a_null c' = true).
Proof.
  intros H Hc. assert (G : stricter l' l).
  { unfold stricter. clear - H. induction H as [|a a' l l' (E1 & E2 & E3) H IH]; constructor; [|exact IH]. repeat split; auto. }
  destruct (last_named_R up strict l' l c' G Hc) as (c & Hl & E1 & E2 & E3). exists c. repeat split; auto.
Qed.

Lemma storable_R l l' targets v v' : looser l l' -> stricter v v' -> storable up l targets v -> storable up l' targets v'.
Proof.
  intros Hl Hv (S1 & S2 & S3). split; [exact S1|]. split.
  - clear S3. revert S2. clear S1. revert targets. induction Hv as [|a a' v v' (E1 & E2 & E3) Hv IH]; intros ts F; inversion F as [|n ? ns ? (c & [C1 C2] & [K1 K2]) F']; subst; constructor; [|apply IH; assumption].
    destruct (last_named_R up loose _ _ _ Hl C1) as (c' & C1' & E4 & E5 & E6). exists c'. split.
    + split; [exact C1'|]. rewrite E4. exact C2.
    + split; [congruence|]. intros N. apply E6, K2, E3, N.
  - intros c' Hc' N. destruct (last_named_sym _ _ _ Hl Hc') as (c & Hc & E & Hn).
    destruct (S3 c Hc) as (n & Hi & Hs).
    + destruct (a_null c); [|reflexivity]. rewrite (Hn eq_refl) in N. discriminate.
    + exists n. rewrite E. auto.
Qed.

Lemma insert_R i : tables_become looser T T' [i_table i] -> tables_become stricter T T' (tables_set (i_source i)) ->
  without_in (parts_set (i_source i)) -> statement_typed up T (StInsert i) -> statement_typed up T' (StInsert i).
Proof.
  intros H1 H2 O D. inversion D as [|? l v Hl Hv St| |]; subst. destruct (H1 _ _ (or_introl eq_refl) Hl) as (l' & Hl' & El).
  destruct (set_stricter _ _ H2 O Hv) as (v' & Hv' & Ev). apply (st_insert _ _ _ l' v'); [exact Hl'|exact Hv'|].
  rewrite (lR_names strict v v' Ev). exact (storable_R _ _ _ _ _ El Ev St).
Qed.

Lemma update_R u : tables_become eq T T' [u_table u] ->
  tables_become stricter T T' (flat_map (fun a => tables_expr (snd a)) (u_assignments u) ++ where_tables (u_where u)) ->
  without_in (flat_map (fun a => parts_expr (snd a)) (u_assignments u) ++ parts_where (u_where u)) ->
  statement_typed up T (StUpdate u) -> statement_typed up T' (StUpdate u).
Proof.
  intros H1 H2 O D. inversion D as [| |? l Hl Ha Hf|]; subst. destruct (H1 _ _ (or_introl eq_refl) Hl) as (l' & Hl' & <-).
  apply Forall_app in O as [Oa Ow]. apply Forall_flat in Oa. apply (st_update _ _ _ l); [exact Hl'| |].
  - destruct Ha as [A1 A2]. split; [exact A1|]. rewrite Forall_forall in *. intros a Hi. destruct (A2 a Hi) as (d & n & Ht & Hc).
    destruct (expr_stricter (snd a) (last (u_table u) []) l l d n) as (n' & Ht' & Hn).
    + eapply become_incl; [|exact H2]. intros q Hq. apply in_or_app. left. apply in_flat_map. eauto.
    + exact (Oa a Hi).
    + apply stricter_refl.
    + exact Ht.
    + exists d, n'. split; [exact Ht'|]. eapply Forall_impl; [|exact Hc]. cbv beta. intros m (c & C1 & C2 & C3). exists c. repeat split; auto; apply C1.
  - unfold filter_typed in *. destruct Hf as [|e (n & Hn)]; constructor.
    destruct (expr_stricter e (last (u_table u) []) l l DLogical n) as (n' & Hn' & _); [|exact Ow|apply stricter_refl|exact Hn|eauto].
    eapply become_incl; [|exact H2]. intros q Hq. apply in_or_app. right. exact Hq.
Qed.
End Instances.

(** ** Validation *)

Section Validation.
Context (up : Z -> list Z) (db db' : database) (dflt dflt' : name).
Context (W : well_named up db) (W' : well_named up db') (D' : has_default up db' dflt').
Notation x := (set_context_new up db dflt).
Notation x' := (set_context_new up db' dflt').
Notation T := (catalog up db dflt).
Notation T' := (catalog up db' dflt').

Lemma query_looser s r : safe_select s = true -> tables_become looser T T' (tables_select s) -> limits_closed (parts_select s) ->
  infer_select up x s = ok r -> exists r', infer_select up x' s = ok r' /\ looser (r_attrs r) (r_attrs r').
Proof.
  intros Hs H O E. destruct (selects_looser up T T' s (r_attrs r) H O) as (l' & Hq & Hl).
  - apply (query_sound up db dflt W). exists r. auto.
  - apply (query_exact up db' dflt' W' s l' D' Hs) in Hq as (r' & E' & <-). eauto.
Qed.

Lemma query_stricter s r : safe_select s = true -> tables_become stricter T T' (tables_select s) -> without_in (parts_select s) ->
  infer_select up x s = ok r -> exists r', infer_select up x' s = ok r' /\ stricter (r_attrs r) (r_attrs r').
Proof.
  intros Hs H O E. destruct (selects_stricter up T T' s (r_attrs r) H O) as (l' & Hq & Hl).
  - apply (query_sound up db dflt W). exists r. auto.
  - apply (query_exact up db' dflt' W' s l' D' Hs) in Hq as (r' & E' & <-). eauto.
Qed.

Lemma validate_keeps s : safe_statement s = true -> (statement_typed up T s -> statement_typed up T' s) ->
  validate up x (SqlStatement s) = ok tt -> validate up x' (SqlStatement s) = ok tt.
Proof.
  intros Hs H E. apply (sql_sound up db dflt W) in E. apply (sql_exact up db' dflt' W' (SqlStatement s) D'); [exact Hs|].
  inversion E; subst. constructor. auto.
Qed.

Lemma delete_looser_ok d : safe_statement (StDelete d) = true ->
  tables_become looser T T' (d_table d :: where_tables (d_where d)) -> limits_closed (parts_where (d_where d)) ->
  validate up x (SqlStatement (StDelete d)) = ok tt -> validate up x' (SqlStatement (StDelete d)) = ok tt.
Proof. intros Hs H O. apply validate_keeps; [exact Hs|]. apply delete_looser; assumption. Qed.

Lemma delete_stricter_ok d : safe_statement (StDelete d) = true ->
  tables_become stricter T T' (d_table d :: where_tables (d_where d)) -> without_in (parts_where (d_where d)) ->
  validate up x (SqlStatement (StDelete d)) = ok tt -> validate up x' (SqlStatement (StDelete d)) = ok tt.
Proof. intros Hs H O. apply validate_keeps; [exact Hs|]. apply delete_stricter; assumption. Qed.

Lemma insert_ok i : safe_statement (StInsert i) = true ->
  tables_become looser T T' [i_table i] -> tables_become stricter T T' (tables_set (i_source i)) -> without_in (parts_set (i_source i)) ->
  validate up x (SqlStatement (StInsert i)) = ok tt -> validate up x' (SqlStatement (StInsert i)) = ok tt.
Proof. intros Hs H1 H2 O. apply validate_keeps; [exact Hs|]. apply insert_R; assumption. Qed.

Lemma update_ok u : safe_statement (StUpdate u) = true -> tables_become eq T T' [u_table u] ->
  tables_become stricter T T' (flat_map (fun a => tables_expr (snd a)) (u_assignments u) ++ where_tables (u_where u)) ->
  without_in (flat_map (fun a => parts_expr (snd a)) (u_assignments u) ++ parts_where (u_where u)) ->
  validate up x (SqlStatement (StUpdate u)) = ok tt -> validate up x' (SqlStatement (StUpdate u)) = ok tt.
Proof. intros Hs H1 H2 O. apply validate_keeps; [exact Hs|]. apply update_R; assumption. Qed.
End Validation.

(** ** ALTER TABLE *)

Section Alter.
Context (up : Z -> list Z).

Lemma altered_schema (R R' : bool -> bool -> Prop) db db' s n attrs : (forall c c', R c c' -> R' (negb c) (negb c')) -> altered R db db' ->
  in_schema up db s n attrs -> exists attrs', in_schema up db' s n attrs' /\ Forall2 (retyped R') attrs attrs'.
Proof.
  intros HR H (s1 & sc & n1 & o & H1 & H2 & H3 & H4 & ->). destruct (Forall2_in_l _ _ _ _ H H1) as ([s2 sc2] & H5 & E1 & F). cbn in E1, F. subst s2.
  destruct (Forall2_in_l _ _ _ _ F H3) as ([n2 o2] & H6 & E2 & G). cbn in E2, G. subst n2.
  eexists. split; [exists s1, sc2, n1, o2; auto|]. clear - G HR. induction G as [|c c' l l' (E1 & E2 & E3) G IH]; constructor; [|exact IH].
  repeat split; cbn; auto.
Qed.

Lemma dropped_looser db db' dflt qs : not_null_dropped db db' -> tables_become looser (catalog up db dflt) (catalog up db' dflt) qs.
Proof.
  intros H q attrs _ C. assert (HR : forall c c' : bool, (c' = true -> c = true) -> negb c = true -> negb c' = true).
  { intros [|] [|] X; cbn; auto. }
  destruct q as [|n [|m [|? ?]]]; try contradiction; exact (altered_schema _ _ _ _ _ _ _ HR H C).
Qed.

Lemma added_stricter db db' dflt qs : not_null_added db db' -> tables_become stricter (catalog up db dflt) (catalog up db' dflt) qs.
Proof.
  intros H q attrs _ C. assert (HR : forall c c' : bool, (c = true -> c' = true) -> negb c' = true -> negb c = true).
  { intros [|] [|] X; cbn; auto. }
  destruct q as [|n [|m [|? ?]]]; try contradiction; exact (altered_schema _ _ _ _ _ _ _ HR H C).
Qed.
End Alter.
