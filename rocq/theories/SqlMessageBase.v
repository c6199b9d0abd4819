(** * Pieces of the functions with messages against the rules of blame *)

From Coq Require Import Strings.String.
From Verif Require Import Base StrModel SqlNameModel SqlModel SqlNameProofs SqlTypeProofs SqlSpec SqlScope SqlEval
  SqlInd SqlSafeSpec SqlPanic SqlStmtSpec SqlStmt SqlColumnsSpec SqlColumns SqlFromSpec SqlFrom SqlRules SqlRulesBase
  SqlRulesNames SqlRulesProofs SqlMessageModel SqlBlame SqlMessageDrop.
Local Open Scope list_scope.

Local Arguments rbind : simpl never.
Local Arguments mbind : simpl never.
Local Arguments drop : simpl never.

(** ** Calls with messages *)

Lemma mbind_ok {A B} (m : mres A) (f : A -> mres B) b : mbind m f = mok b <-> exists a, m = mok a /\ f a = mok b.
Proof.
  split.
  - destruct m as [[a|c]| |]; cbn; try discriminate. intros H. exists a. split; [reflexivity|exact H].
  - intros (a & -> & H). exact H.
Qed.

Lemma mbind_err {A B} (m : mres A) (f : A -> mres B) c :
  mbind m f = merr c <-> m = merr c \/ exists a, m = mok a /\ f a = merr c.
Proof.
  split.
  - destruct m as [[a|k]| |]; cbn; try discriminate.
    + intros H. right. exists a. split; [reflexivity|exact H].
    + intros [= ->]. left. reflexivity.
  - intros [->|(a & -> & H)]; [reflexivity|exact H].
Qed.

Lemma say_err {A} k (r : result A unit) c : or_say k r = merr c <-> r = Err tt /\ c = k.
Proof. destruct r as [a|[]]; cbn; split; try discriminate; [intros [? _]; discriminate|intros [= ->]; auto|intros [_ ->]; reflexivity]. Qed.

Lemma say_ok {A} k (r : result A unit) a : or_say k r = mok a <-> r = Ok a.
Proof. destruct r as [b|[]]; cbn; split; try discriminate; intros [= ->]; reflexivity. Qed.

Lemma mok_inj {A} (a b : A) : mok a = mok b -> a = b.
Proof. intros [= ->]. reflexivity. Qed.

Lemma mok_drop {A} (m : mres A) a : m = mok a <-> drop m = ok a.
Proof. destruct m as [[b|c]| |]; cbn; split; try discriminate; intros [= ->]; reflexivity. Qed.

Lemma drop_err {A} (m : mres A) c : m = merr c -> drop m = err.
Proof. intros ->. reflexivity. Qed.

Lemma err_drop {A} (m : mres A) : drop m = err -> exists c, m = merr c.
Proof. destruct m as [[b|c]| |]; try discriminate. eexists. reflexivity. Qed.

Lemma drop_returns {A} (m : mres A) n : drop m = n -> returns n -> returns m.
Proof. intros <- [r H]. destruct m as [s| |]; try discriminate. exists s. reflexivity. Qed.

(** ** Lists *)

Lemma at_first_ext {A} (P P' : A -> Prop) Q Q' l c : (forall a, P a <-> P' a) -> (forall a c, Q a c <-> Q' a c) ->
  at_first P Q l c <-> at_first P' Q' l c.
Proof.
  intros HP HQ. split; intros H; induction H; ((apply at_here; apply HQ; assumption)||(apply at_next; [apply HP; assumption|assumption])).
Qed.

Lemma at_first_nil {A} (P : A -> Prop) Q c : ~ at_first P Q [] c.
Proof. intros H. inversion H. Qed.

Lemma at_first_cons {A} (P : A -> Prop) Q a l c : at_first P Q (a :: l) c <-> Q a c \/ P a /\ at_first P Q l c.
Proof.
  split; [intros H; inversion H; auto|]. intros [H|[H1 H2]]; [apply at_here|apply at_next]; assumption.
Qed.

Lemma at_first_agree {A} (g : Prop) (s : A -> bool) (P P' : A -> Prop) Q Q' l :
  Forall (fun a => agree g (s a) (P a) (P' a) /\ forall c, agree g (s a) (Q a c) (Q' a c)) l ->
  forall c, agree g (forallb s l) (at_first P Q l c) (at_first P' Q' l c).
Proof.
  induction 1 as [|a l [H1 H2] Hl IH]; intros c; cbn [forallb].
  - split; [|intros _ _]; intros H; inversion H.
  - unfold agree. rewrite !at_first_cons, andb_true_iff. destruct H1 as [A1 A2]. destruct (H2 c) as [B1 B2]. destruct (IH c) as [C1 C2].
    split; [intros [H|[H K]]; [left|right]; auto|]. intros Hg [S1 S2] [H|[H K]]; [left|right]; auto.
Qed.

Lemma collect_err {A B} (f : A -> mres B) l c : collect_say f l = merr c <->
  at_first (fun a => exists b, f a = mok b) (fun a c => f a = merr c) l c.
Proof.
  induction l as [|a l IH]; cbn [collect_say].
  - split; [discriminate|]. intros H; inversion H.
  - rewrite mbind_err, at_first_cons. split.
    + intros [H|(b & E & H)]; [auto|]. right. split; [eauto|]. apply IH. apply mbind_err in H as [H|(bs & _ & H)]; [exact H|discriminate].
    + intros [H|[[b E] H]]; [auto|]. right. exists b. split; [exact E|]. apply mbind_err. left. apply IH. exact H.
Qed.

Lemma fold_unit_err {A} (f : A -> mres unit) l c : fold_say (fun _ a => f a) tt l = merr c <->
  at_first (fun a => f a = mok tt) (fun a c => f a = merr c) l c.
Proof.
  induction l as [|a l IH]; cbn [fold_say].
  - split; [discriminate|]. intros H; inversion H.
  - rewrite mbind_err, at_first_cons. split.
    + intros [H|([] & E & H)]; [auto|]. right. split; [exact E|]. apply IH. exact H.
    + intros [H|[E H]]; [auto|]. right. exists tt. split; [exact E|]. apply IH. exact H.
Qed.

Lemma fold_unit_ok {A} (f : A -> mres unit) l : fold_say (fun _ a => f a) tt l = mok tt <-> Forall (fun a => f a = mok tt) l.
Proof.
  induction l as [|a l IH]; cbn [fold_say]; [split; [constructor|reflexivity]|]. rewrite mbind_ok. split.
  - intros ([] & E & H). constructor; [exact E|apply IH; exact H].
  - intros H. inversion H; subst. exists tt. split; [assumption|apply IH; assumption].
Qed.

(** ** Types *)

Lemma alike_refl a : alike a a.
Proof.
  induction a as [d n|ts IH] using stype_induction; constructor. induction IH; constructor; assumption.
Qed.

Lemma alike_sym a : forall b, alike a b -> alike b a.
Proof.
  induction a as [d n|ts IH] using stype_induction; intros b H; inversion H as [|? us F]; subst; constructor.
  clear H. revert us F. induction IH as [|t ts Ht Hts IHl]; intros us F; inversion F; subst; constructor; auto.
Qed.

Lemma alike_trans a : forall b c, alike a b -> alike b c -> alike a c.
Proof.
  induction a as [d n|ts IH] using stype_induction; intros b c H K; inversion H as [|? us F]; subst; inversion K as [|? vs G]; subst; constructor.
  clear H K. revert us vs F G. induction IH as [|t ts Ht Hts IHl]; intros us vs F G; inversion F; subst; inversion G; subst; constructor; eauto.
Qed.

Lemma bare_err {A} (r : result A complaint) : bare r = Err tt <-> exists c, r = Err c.
Proof. destruct r; cbn; split; eauto; try discriminate. intros [? [=]]. Qed.

Lemma bare_ok {A} (r : result A complaint) a : bare r = Ok a <-> r = Ok a.
Proof. destruct r; cbn; split; try discriminate; intros [= ->]; reflexivity. Qed.

Lemma compat_alike a b : (exists n, compat_say a b = Ok n) <-> alike a b.
Proof.
  rewrite alike_ok, <- compat_bare. split; intros [n H]; exists n; apply bare_ok; exact H.
Qed.

Lemma compat_err a : forall b c, compat_say a b = Err c <-> unlike a b c.
Proof.
  induction a as [d n|ts IH] using stype_induction; intros [us|d' n'] c; cbn [compat_say].
  - split; [intros [= <-]; constructor|intros H; inversion H; reflexivity].
  - destruct (dt_eqb d d') eqn:E.
    + split; [discriminate|]. apply dt_eqb_eq in E. intros H. inversion H; contradiction.
    + assert (N : d <> d') by (intros ->; rewrite dt_eqb_refl in E; discriminate).
      split; [intros [= <-]; constructor; exact N|intros H; inversion H; reflexivity].
  - destruct (Nat.eqb_spec (List.length ts) (List.length us)) as [E|N]; cbn [negb].
    + assert (F : forall us acc, compat_say_fold compat_say acc ts us = Err c <->
        match acc with Err e => e = c
                     | Ok _ => at_first (fun p => alike (fst p) (snd p)) (fun p c => unlike (fst p) (snd p) c) (combine ts us) c end).
      { clear us E. induction IH as [|t ts Ht Hts IHl]; intros us acc.
        - cbn. destruct acc; (split; [try discriminate; try (intros [= ->]; reflexivity)|]); [intros H; inversion H|intros ->; reflexivity].
        - destruct us as [|u us]; [cbn; destruct acc; (split; [try discriminate; try (intros [= ->]; reflexivity)|]); [intros H; inversion H|intros ->; reflexivity]|].
          cbn [compat_say_fold combine]. rewrite IHl. destruct acc as [b|e]; [|reflexivity]. rewrite at_first_cons. cbn [fst snd].
          destruct (compat_say t u) as [m|e] eqn:Eu.
          + assert (A : alike t u) by (apply compat_alike; eauto). split; [auto|]. intros [H|[_ H]]; [|exact H].
            apply Ht in H. congruence.
          + split; [intros ->; left; apply Ht; exact Eu|]. intros [H|[H _]]; [apply Ht in H; congruence|].
            apply compat_alike in H as [m Em]. congruence. }
      rewrite F. split; [intros H; apply un_part; assumption|]. intros H. inversion H; subst; [contradiction|assumption].
    + split; [intros [= <-]; constructor; exact N|]. intros H. inversion H; subst; [reflexivity|contradiction].
  - split; [intros [= <-]; constructor|intros H; inversion H; reflexivity].
Qed.

Lemma unify_alike a : forall b t, unify_say a b = Ok t -> alike a t /\ alike a b.
Proof.
  induction a as [d n|ts IH] using stype_induction; intros [us|d' n'] t; cbn [unify_say]; try discriminate.
  - destruct (dt_eqb d d') eqn:E; [|discriminate]. apply dt_eqb_eq in E as <-. intros [= <-]. split; constructor.
  - destruct (Nat.eqb_spec (List.length ts) (List.length us)) as [E|N]; cbn [negb]; [|discriminate].
    destruct (unify_say_fold unify_say [] ts us) as [l|] eqn:F; [|discriminate]. intros [= <-].
    assert (G : forall us acc l, List.length ts = List.length us -> unify_say_fold unify_say acc ts us = Ok l ->
              exists l', l = acc ++ l' /\ Forall2 alike ts l' /\ Forall2 alike ts us).
    { clear us l E F. induction IH as [|a ts Ha Hts IHl]; intros [|u us] acc l E; cbn; try discriminate.
      - intros [= <-]. exists []. rewrite app_nil_r. auto.
      - destruct (unify_say a u) as [v|] eqn:Ev; [|discriminate]. injection E as E. intros F. apply IHl in F as (l' & -> & F1 & F2); [|exact E].
        apply Ha in Ev as [A1 A2]. exists (v :: l'). rewrite <- app_assoc. split; [reflexivity|]. split; constructor; assumption. }
    apply G in F as (l' & -> & F1 & F2); [|exact E]. cbn. split; constructor; assumption.
Qed.

Lemma unify_err a : forall b c, unify_say a b = Err c <-> unlike a b c.
Proof.
  induction a as [d n|ts IH] using stype_induction; intros [us|d' n'] c; cbn [unify_say].
  - split; [intros [= <-]; constructor|intros H; inversion H; reflexivity].
  - destruct (dt_eqb d d') eqn:E.
    + split; [discriminate|]. apply dt_eqb_eq in E. intros H. inversion H; contradiction.
    + assert (N : d <> d') by (intros ->; rewrite dt_eqb_refl in E; discriminate).
      split; [intros [= <-]; constructor; exact N|intros H; inversion H; reflexivity].
  - destruct (Nat.eqb_spec (List.length ts) (List.length us)) as [E|N]; cbn [negb].
    + assert (F : forall us acc, unify_say_fold unify_say acc ts us = Err c <->
        at_first (fun p => alike (fst p) (snd p)) (fun p c => unlike (fst p) (snd p) c) (combine ts us) c).
      { clear us E. induction IH as [|t ts Ht Hts IHl]; intros us acc.
        - cbn. split; [destruct us; discriminate|]. intros H; inversion H.
        - destruct us as [|u us]; [cbn; split; [discriminate|]; intros H; inversion H|].
          cbn [unify_say_fold combine]. rewrite at_first_cons. cbn [fst snd]. destruct (unify_say t u) as [v|e] eqn:Eu.
          + apply unify_alike in Eu as Al. rewrite IHl. split; [tauto|]. intros [H|[_ H]]; [apply Ht in H; congruence|exact H].
          + split; [intros [= ->]; left; apply Ht; exact Eu|]. intros [H|[H _]]; [apply Ht in H; congruence|].
            apply compat_alike in H as [m Em]. apply Ht, compat_err in Eu. congruence. }
      specialize (F us []). destruct (unify_say_fold unify_say [] ts us) as [l|e].
      * split; [discriminate|]. intros H. inversion H as [| | | |? ? ? ? K]; subst; [contradiction|]. apply F in K. discriminate.
      * split; [intros [= ->]; apply un_part; [exact E|]; apply F; reflexivity|].
        intros H. inversion H as [| | | |? ? ? ? K]; subst; [contradiction|]. apply F in K. congruence.
    + split; [intros [= <-]; constructor; exact N|]. intros H. inversion H; subst; [reflexivity|contradiction].
  - split; [intros [= <-]; constructor|intros H; inversion H; reflexivity].
Qed.

Lemma unify_ok_iff a b : (exists t, unify_say a b = Ok t) <-> alike a b.
Proof.
  split.
  - intros [t H]. apply unify_alike in H. tauto.
  - intros H. destruct (unify_say a b) as [t|c] eqn:E; [eauto|]. apply unify_err, compat_err in E. apply compat_alike in H as [n H]. congruence.
Qed.

Lemma unlike_right a b b' c : alike b b' -> unlike a b c -> unlike a b' c.
Proof.
  revert b b'. induction a as [d n|ts IH] using stype_induction; intros b b' Al H; inversion H as [? ? ? ? N|?|?|? us N|? us ? L F]; subst; inversion Al as [|? vs G]; subst.
  - constructor; exact N.
  - constructor.
  - constructor.
  - constructor. intros E. apply N. rewrite E. symmetry. clear -G. induction G; cbn; congruence.
  - assert (L' : List.length us = List.length vs) by (clear -G; induction G; cbn; congruence).
    apply un_part; [congruence|]. clear H Al. revert us vs L L' F G. induction IH as [|t ts Ht Hts IHl]; intros us vs L L' F G.
    + cbn in F. inversion F.
    + inversion G as [|u v us' vs' G1 G2]; subst; [discriminate|]. cbn [combine] in F |- *. rewrite at_first_cons in F |- *. cbn [fst snd] in *.
      destruct F as [F|[A F]]; [left; eapply Ht; eassumption|right]. split; [eapply alike_trans; eassumption|].
      apply (IHl us'); auto.
Qed.

Lemma unlike_sym a : forall b c, unlike a b c -> unlike b a c.
Proof.
  induction a as [d n|ts IH] using stype_induction; intros b c H; inversion H as [? ? ? ? N|?|?|? us N|? us ? L F]; subst.
  - constructor; congruence.
  - constructor.
  - constructor.
  - constructor; congruence.
  - apply un_part; [congruence|]. clear H. revert us L F. induction IH as [|t ts Ht Hts IHl]; intros us L F.
    + cbn in F. inversion F.
    + destruct us as [|u us]; [discriminate|]. cbn [combine] in F |- *. rewrite at_first_cons in F |- *. cbn [fst snd] in *.
      destruct F as [F|[A F]]; [left; apply Ht; exact F|right]. split; [apply alike_sym; exact A|]. apply IHl; [cbn in L; lia|exact F].
Qed.

Lemma unlike_left a a' b c : alike a a' -> unlike a b c -> unlike a' b c.
Proof. intros Al H. apply unlike_sym. eapply unlike_right; [exact Al|]. apply unlike_sym. exact H. Qed.

Lemma case_step_err acc u c : case_step_say acc u = Err c <->
  unlike u acc c \/ exists us, u = TyTuple us /\ alike u acc /\ c = CThenScalar.
Proof.
  unfold case_step_say. destruct (compat_say u acc) as [n|e] eqn:E.
  - assert (Al : alike u acc) by (apply compat_alike; eauto). destruct u as [us|d m].
    + split; [intros [= <-]; eauto 10|]. intros [H|(us' & _ & _ & ->)]; [apply compat_err in H; congruence|reflexivity].
    + split; [discriminate|]. intros [H|(us' & [=] & _)]. apply compat_err in H. congruence.
  - split; [intros [= ->]; left; apply compat_err; exact E|]. intros [H|(us & -> & H & _)].
    + apply compat_err in H. congruence.
    + apply compat_alike in H as [n H]. congruence.
Qed.

Lemma case_step_good acc u r : case_step_say acc u = Ok r <->
  exists d n m, acc = TyScalar d n /\ u = TyScalar d m /\ r = TyScalar d (n || m).
Proof. rewrite <- bare_ok, case_step_bare. apply case_step_ok. Qed.

Lemma in_err t r c : in_say t r = Err c <->
  List.length (r_attrs r) <> 1%nat /\ c = CInColumns \/
  exists a, r_attrs r = [a] /\
    (unlike t (attr_type a) c \/ exists d, t = TyScalar d false /\ attr_type a = TyScalar d false /\ c = CInTypes).
Proof.
  unfold in_say. destruct (r_attrs r) as [|a [|b l]].
  - split; [intros [= <-]; left; split; [discriminate|reflexivity]|]. intros [[_ ->]|(a & [=] & _)]. reflexivity.
  - destruct (compat_say t (attr_type a)) as [n|e] eqn:E.
    + assert (X : (exists d, t = TyScalar d false /\ attr_type a = TyScalar d false /\ c = CInTypes) <-> n = false /\ c = CInTypes).
      { unfold attr_type in *. destruct t as [ts|d m]; [discriminate|]. cbn in E. destruct (dt_eqb d (a_type a)) eqn:D; [|discriminate].
        apply dt_eqb_eq in D as ->. injection E as <-. split.
        - intros (d & [= -> ->] & [= ->] & ->). auto.
        - intros [H ->]. apply orb_false_iff in H as [-> ->]. eauto. }
      destruct n.
      * split; [discriminate|]. intros [[H _]|(a' & [= <-] & [H|H])]; [cbn in H; contradiction|apply compat_err in H; congruence|].
        apply X in H as [? _]. discriminate.
      * split; [intros [= <-]; right; exists a; split; [reflexivity|]; right; apply X; auto|].
        intros [[H _]|(a' & [= <-] & [H|H])]; [cbn in H; contradiction|apply compat_err in H; congruence|].
        apply X in H as [_ ->]. reflexivity.
    + split; [intros [= ->]; right; exists a; split; [reflexivity|]; left; apply compat_err; exact E|].
      intros [[H _]|(a' & [= <-] & [H|(d & -> & H & _)])]; [cbn in H; contradiction|apply compat_err in H; congruence|].
      rewrite H in E. cbn in E. rewrite dt_eqb_refl in E. discriminate.
  - split; [intros [= <-]; left; split; [discriminate|reflexivity]|]. intros [[_ ->]|(a' & [=] & _)]. reflexivity.
Qed.

(** ** Operators *)

Lemma unary_err op t c : unary_say op t = merr c <-> (forall t', ~ unary_rule op t t') /\ c = unary_complaint op.
Proof.
  unfold unary_say. rewrite say_err. change (match op with UNegate => CNegate | UNot => CNot | UIsNull => CIsNull end) with (unary_complaint op).
  destruct (unary_type op t) as [t'|[]] eqn:E.
  - apply unary_ok in E. split; [intros [? _]; discriminate|]. intros [H _]. destruct (H _ E).
  - split; intros [H ->]; (split; [|reflexivity]); [|reflexivity]. intros t' H'. apply unary_ok in H'. congruence.
Qed.

Lemma binary_err op a b c : binary_say op a b = merr c <-> (forall t, ~ binary_rule op a b t) /\ c = binary_complaint op.
Proof.
  unfold binary_say. rewrite say_err. fold (binary_complaint op).
  destruct (binary_type op a b) as [t'|[]] eqn:E.
  - apply binary_ok in E. split; [intros [? _]; discriminate|]. intros [H _]. destruct (H _ E).
  - split; intros [H ->]; (split; [|reflexivity]); [|reflexivity]. intros t' H'. apply binary_ok in H'. congruence.
Qed.

Lemma compare_err op a b c : compare_say op a b = merr c <->
  In op [CEqual; CNotEqual] /\ unlike a b c \/
  In op [CLess; CLessEqual; CGreater; CGreaterEqual] /\ ~ (is_scalar a /\ is_scalar b) /\ c = CScalarOperands \/
  In op [CLess; CLessEqual; CGreater; CGreaterEqual] /\
    (exists d1 n1 d2 n2, a = TyScalar d1 n1 /\ b = TyScalar d2 n2 /\ ~ (d1 = d2 /\ orderable d1)) /\ c = COrdered \/
  op = CLike /\ (forall t, ~ compare_rule CLike a b t) /\ c = CLikeText.
Proof.
  assert (Eq : Ret (match compat_say a b with Ok n => Ok (TyScalar DLogical n) | Err e => Err e end) = merr c <-> unlike a b c).
  { rewrite <- compat_err. destruct (compat_say a b) as [n|e]; split; try discriminate; intros [= ->]; reflexivity. }
  assert (Lt : match a, b with
      | TyScalar t1 n1, TyScalar t2 n2 =>
          if dt_eqb t1 t2 && is_ordered t1 then mok (TyScalar DLogical (n1 || n2)) else merr COrdered
      | _, _ => merr CScalarOperands
      end = merr c <->
      ~ (is_scalar a /\ is_scalar b) /\ c = CScalarOperands \/
      (exists d1 n1 d2 n2, a = TyScalar d1 n1 /\ b = TyScalar d2 n2 /\ ~ (d1 = d2 /\ orderable d1)) /\ c = COrdered).
  { destruct a as [ts|d1 n1], b as [us|d2 n2];
      try (split; [intros [= <-]; left; split; [|reflexivity]; intros [(? & ? & ?) (? & ? & ?)]; discriminate
                  |intros [[_ ->]|[(? & ? & ? & ? & E1 & E2 & _) _]]; [reflexivity|discriminate]]).
    destruct (dt_eqb d1 d2 && is_ordered d1) eqn:E.
    - apply andb_true_iff in E as [E1 E2]. apply dt_eqb_eq in E1. apply ordered_ok in E2. split; [discriminate|].
      intros [[H _]|[(? & ? & ? & ? & [= <- <-] & [= <- <-] & N) _]].
      + destruct H. split; eexists _, _; reflexivity.
      + destruct N. auto.
    - split.
      + intros [= <-]. right. split; [|reflexivity]. eexists _, _, _, _. split; [reflexivity|]. split; [reflexivity|]. intros [-> O].
        rewrite dt_eqb_refl in E. apply ordered_ok in O. rewrite O in E. discriminate.
      + intros [[H _]|[_ ->]]; [|reflexivity]. destruct H. split; eexists _, _; reflexivity. }
  assert (Li : compare_say CLike a b = merr c <-> (forall t, ~ compare_rule CLike a b t) /\ c = CLikeText).
  { pose proof (compare_drop CLike a b) as D. assert (M : forall k, compare_say CLike a b = merr k -> k = CLikeText).
    { intros k. cbn. destruct a as [|[] ?], b as [|[] ?]; try discriminate; intros [= <-]; reflexivity. }
    split.
    - intros H. split; [|apply M; exact H]. intros t R. apply compare_ok in R. rewrite H, R in D. discriminate.
    - intros [H ->]. destruct (compare_type CLike a b) as [t|[]] eqn:E; [apply compare_ok in E; destruct (H _ E)|].
      apply err_drop in D as [k D]. rewrite D. rewrite (M k D). reflexivity. }
  destruct op; cbn [compare_say]; rewrite ?Eq, ?Lt; try rewrite Li; split; intros H; cbn [In] in *; intuition (try discriminate; auto).
Qed.

Lemma between_err e lo hi c : between_say e lo hi = merr c <->
  ~ (is_scalar e /\ is_scalar lo /\ is_scalar hi) /\ c = CRangeScalar \/
  (exists d1 n1 d2 n2 d3 n3, e = TyScalar d1 n1 /\ lo = TyScalar d2 n2 /\ hi = TyScalar d3 n3 /\ ~ (d1 = d2 /\ d1 = d3 /\ orderable d1)) /\
  c = CRangeOrdered.
Proof.
  unfold between_say. destruct e as [ts|d1 n1], lo as [us|d2 n2], hi as [vs|d3 n3];
    try (split; [intros [= <-]; left; split; [|reflexivity]; intros [(? & ? & ?) [(? & ? & ?) (? & ? & ?)]]; discriminate
                |intros [[_ ->]|[(? & ? & ? & ? & ? & ? & E1 & E2 & E3 & _) _]]; [reflexivity|discriminate]]).
  destruct (dt_eqb d1 d2 && dt_eqb d1 d3 && is_ordered d1) eqn:E.
  - apply andb_true_iff in E as [E E2]. apply andb_true_iff in E as [E0 E1]. apply dt_eqb_eq in E0, E1. apply ordered_ok in E2.
    split; [discriminate|]. intros [[H _]|[(? & ? & ? & ? & ? & ? & [= <- <-] & [= <- <-] & [= <- <-] & N) _]].
    + destruct H. repeat split; eexists _, _; reflexivity.
    + destruct N. auto.
  - split.
    + intros [= <-]. right. split; [|reflexivity]. eexists _, _, _, _, _, _. repeat (split; [reflexivity|]). intros (-> & -> & O).
      rewrite !dt_eqb_refl in E. apply ordered_ok in O. rewrite O in E. discriminate.
    + intros [[H _]|[_ ->]]; [|reflexivity]. destruct H. repeat split; eexists _, _; reflexivity.
Qed.

Lemma scalar_err t : scalar t = Err tt <-> ~ is_scalar t.
Proof. destruct t as [ts|d n]; cbn; split; try discriminate; try reflexivity; [intros _ (? & ? & [=])|]. intros H. destruct H. eexists _, _; reflexivity. Qed.

Lemma logical_err t : logical t = Err tt <-> ~ is_truth t.
Proof.
  unfold is_truth. destruct (logical t) as [[]|[]] eqn:E.
  - apply logical_ok in E. split; [discriminate|]. intros H. destruct (H E).
  - split; [|reflexivity]. intros _ H. apply logical_ok in H. congruence.
Qed.

Lemma limit_err t : limit_number t = Err tt <-> ~ is_count t.
Proof.
  unfold is_count. destruct (limit_number t) as [[]|[]] eqn:E.
  - apply limit_ok in E. split; [discriminate|]. intros H. destruct (H E).
  - split; [|reflexivity]. intros _ H. apply limit_ok in H. congruence.
Qed.

Lemma unify_columns_err l : forall r c, unify_columns_say l r = Err c <->
  c = CIncompatible /\ exists i a b, nth_error l i = Some a /\ nth_error r i = Some b /\ a_type a <> a_type b.
Proof.
  induction l as [|a l IH]; intros r c.
  - cbn. split; [discriminate|]. intros (_ & [|i] & ? & ? & [=] & _).
  - destruct r as [|b r]; [cbn; split; [discriminate|]; intros (_ & [|i] & ? & ? & _ & [=] & _)|].
    cbn [unify_columns_say]. destruct (dt_eqb (a_type a) (a_type b)) eqn:E; unfold attr_type; cbn [unify_say]; rewrite E.
    + apply dt_eqb_eq in E. specialize (IH r c). destruct (unify_columns_say l r) as [rest|e].
      * split; [discriminate|]. intros (-> & [|i] & a' & b' & H1 & H2 & N); cbn in H1, H2; [congruence|].
        assert (X : (Ok rest : result (list attribute) complaint) = Err CIncompatible) by (apply IH; eauto 10). discriminate.
      * split.
        -- intros [= ->]. destruct (proj1 IH eq_refl) as (-> & i & a' & b' & H). split; [reflexivity|]. exists (S i), a', b'. exact H.
        -- intros (-> & [|i] & a' & b' & H1 & H2 & N); cbn in H1, H2; [congruence|].
           assert (X : (Err e : result (list attribute) complaint) = Err CIncompatible) by (apply IH; eauto 10). congruence.
    + assert (N : a_type a <> a_type b) by (intros H; rewrite H, dt_eqb_refl in E; discriminate).
      split; [intros [= <-]; split; [reflexivity|]; exists 0%nat, a, b; auto|intros [-> _]; reflexivity].
Qed.

(** ** The members of an IN list and the results of a CASE *)

Section Lists.
Context (f : expr -> mres stype).

(** The last member in error, and the others. *)
Inductive last_err : list expr -> complaint -> Prop :=
| le_here e es c : f e = merr c -> Forall (fun e => exists t, f e = mok t) es -> last_err (e :: es) c
| le_later e es c : last_err es c -> last_err (e :: es) c.

Lemma last_err_not es c : last_err es c -> ~ Forall (fun e => exists t, f e = mok t) es.
Proof.
  induction 1 as [e es c H _|e es c _ IH]; intros F; inversion F as [|? ? [t E]]; subst; [rewrite H in E; discriminate|auto].
Qed.

Definition miss (a : stype) := at_first (fun e => exists u, f e = mok u /\ alike a u) (fun e c => exists u, f e = mok u /\ unlike a u c).

Lemma miss_alike a a' l c : alike a a' -> miss a l c -> miss a' l c.
Proof.
  intros Al H. induction H as [e l c (u & E & U)|e l c (u & E & U) H IH]; [apply at_here|apply at_next; [|exact IH]]; exists u; (split; [exact E|]).
  - eapply unlike_left; eassumption.
  - eapply alike_trans; [apply alike_sym; exact Al|exact U].
Qed.

Lemma members_rest_fwd l : forall acc c, members_say_rest f acc l = merr c ->
  last_err l c \/ Forall (fun e => exists t, f e = mok t) l /\ match acc with Err k => c = k | Ok a => miss a l c end.
Proof.
  induction l as [|e l IH]; intros acc c; cbn [members_say_rest].
  - intros [= ->]. right. auto.
  - destruct (f e) as [[t|k]| |] eqn:E; try discriminate; cbn [bind]; intros H; apply IH in H as [H|[F H]].
    + left. apply le_later; exact H.
    + destruct acc as [a|k]; [|right; split; [constructor; eauto|exact H]].
      destruct (unify_say a t) as [u|k] eqn:U.
      * apply unify_alike in U as [U1 U2]. right. split; [constructor; eauto|]. apply at_next; [eauto|]. eapply miss_alike; [|exact H].
        apply alike_sym; exact U1.
      * right. split; [constructor; eauto|]. subst c. apply at_here. exists t. split; [exact E|]. apply unify_err; exact U.
    + left. apply le_later; exact H.
    + left. subst k. apply le_here; assumption.
Qed.

Lemma members_rest_bwd l : Forall (fun e => returns (f e)) l -> forall acc c,
  last_err l c \/ Forall (fun e => exists t, f e = mok t) l /\ match acc with Err k => c = k | Ok a => miss a l c end ->
  members_say_rest f acc l = merr c.
Proof.
  induction 1 as [|e l He Hl IH]; intros acc c; cbn [members_say_rest].
  - intros [H|[_ H]]; [inversion H|]. destruct acc as [a|k]; [inversion H|subst; reflexivity].
  - destruct He as [r Er]. rewrite Er. cbn [bind]. intros [H|[F H]].
    + inversion H as [? ? ? E F|? ? ? H']; subst; [|apply IH; left; exact H']. rewrite Er in E. injection E as ->. apply IH. right. auto.
    + inversion F as [|? ? [t Et] F']; subst. rewrite Er in Et. injection Et as ->. apply IH. right. split; [exact F'|].
      destruct acc as [a|k]; [|exact H]. inversion H as [? ? ? (u & E & U)|? ? ? (u & E & U) H']; subst; unfold mok in *; rewrite Er in E; injection E as <-.
      * apply unify_err in U. rewrite U. reflexivity.
      * apply unify_ok_iff in U as [v Ev]. rewrite Ev. apply unify_alike in Ev as [U1 _]. eapply miss_alike; eassumption.
Qed.

Lemma members_rest_good l : forall acc t, members_say_rest f acc l = mok t ->
  exists a, acc = Ok a /\ alike a t /\ Forall (fun e => exists u, f e = mok u /\ alike a u) l.
Proof.
  induction l as [|e l IH]; intros acc t; cbn [members_say_rest].
  - intros [= ->]. exists t. split; [reflexivity|]. split; [apply alike_refl|constructor].
  - destruct (f e) as [[u|k]| |] eqn:E; try discriminate; cbn [bind]; intros H; apply IH in H as (b & Eb & Al & F); try discriminate Eb.
    destruct acc as [a|k]; [|discriminate]. apply unify_alike in Eb as [U1 U2]. exists a. split; [reflexivity|].
    split; [eapply alike_trans; [exact U1|exact Al]|]. constructor; [eauto|]. revert F. apply Forall_impl. intros e' (v & Ev & Av). exists v.
    split; [exact Ev|]. eapply alike_trans; [exact U1|exact Av].
Qed.

Lemma members_rest_all l : forall a, Forall (fun e => exists u, f e = mok u /\ alike a u) l ->
  exists t, members_say_rest f (Ok a) l = mok t /\ alike a t.
Proof.
  induction l as [|e l IH]; intros a F; cbn [members_say_rest].
  - exists a. split; [reflexivity|apply alike_refl].
  - inversion F as [|? ? (u & Eu & Au) F']; subst. rewrite Eu. cbn [bind mok]. apply unify_ok_iff in Au as [v Ev]. rewrite Ev.
    apply unify_alike in Ev as [U1 U2]. destruct (IH v) as (t & Et & At).
    + revert F'. apply Forall_impl. intros e' (w & Ew & Aw). exists w. split; [exact Ew|]. eapply alike_trans; [apply alike_sym; exact U1|exact Aw].
    + exists t. split; [exact Et|]. eapply alike_trans; [exact U1|exact At].
Qed.

(** The results of a CASE after the first one. *)
Inductive results_err : stype -> list (expr * expr) -> complaint -> Prop :=
| re_wrong t g e l c : f e = merr c -> results_err t ((g, e) :: l) c
| re_unlike t g e l u c : f e = mok u -> unlike u t c -> results_err t ((g, e) :: l) c
| re_row t g e l us : f e = mok (TyTuple us) -> alike (TyTuple us) t -> results_err t ((g, e) :: l) CThenScalar
| re_next d n m g e l c : f e = mok (TyScalar d m) -> results_err (TyScalar d n) l c -> results_err (TyScalar d n) ((g, e) :: l) c.

Lemma results_null d n n' l c : results_err (TyScalar d n) l c -> results_err (TyScalar d n') l c.
Proof.
  induction l as [|[g e] l IH]; intros H; inversion H; subst.
  - apply re_wrong; assumption.
  - eapply re_unlike; [eassumption|]. eapply unlike_right; [|eassumption]. constructor.
  - eapply re_row; [eassumption|]. eapply alike_trans; [eassumption|constructor].
  - eapply re_next; [eassumption|]. apply IH; assumption.
Qed.

Lemma bodies_rest_err l : forall t c, bodies_say_rest f t l = merr c <-> results_err t l c.
Proof.
  induction l as [|[g e] l IH]; intros t c; cbn [bodies_say_rest].
  - split; [discriminate|]. intros H; inversion H.
  - rewrite mbind_err. split.
    + intros [H|(u & Eu & H)]; [apply re_wrong; exact H|]. apply mbind_err in H as [H|(t' & Et & H)].
      * injection H as H. apply case_step_err in H as [H|(us & -> & Al & ->)]; [eapply re_unlike; eassumption|eapply re_row; eassumption].
      * injection Et as Et. apply case_step_good in Et as (d & n & m & -> & -> & ->). apply IH in H. eapply re_next; [exact Eu|].
        eapply results_null. exact H.
    + intros H. inversion H as [? ? ? ? ? E|? ? ? ? u ? E U|? ? ? ? us E U|d n m ? ? ? ? E R]; subst; [auto|right..].
      * exists u. split; [exact E|]. apply mbind_err. left. unfold merr. f_equal. apply case_step_err. auto.
      * exists (TyTuple us). split; [exact E|]. apply mbind_err. left. unfold merr. f_equal. apply case_step_err. right. eauto.
      * exists (TyScalar d m). split; [exact E|]. apply mbind_err. right. exists (TyScalar d (n || m)).
        split; [unfold mok; f_equal; apply case_step_good; eauto 10|]. apply IH. eapply results_null. exact R.
Qed.

Lemma bodies_rest_good l : forall t r, bodies_say_rest f t l = mok r ->
  r = t /\ l = [] \/ exists d n ns, t = TyScalar d n /\ Forall2 (fun w m => f (snd w) = mok (TyScalar d m)) l ns /\ r = TyScalar d (n || any ns).
Proof.
  induction l as [|[g e] l IH]; intros t r; cbn [bodies_say_rest].
  - intros H. apply mok_inj in H as <-. auto.
  - intros H. apply mbind_ok in H as (u & Eu & H). apply mbind_ok in H as (t' & Et & H). injection Et as Et.
    apply case_step_good in Et as (d & n & m & -> & -> & ->). right. apply IH in H as [[-> ->]|(d' & n' & ns & [= <- <-] & F & ->)].
    + exists d, n, [m]. split; [reflexivity|]. split; [repeat constructor; exact Eu|]. cbn. rewrite orb_false_r. reflexivity.
    + exists d, n, (m :: ns). split; [reflexivity|]. split; [constructor; assumption|]. cbn. rewrite orb_assoc. reflexivity.
Qed.

Lemma bodies_rest_all l d ns : Forall2 (fun w m => f (snd w) = mok (TyScalar d m)) l ns -> forall n,
  bodies_say_rest f (TyScalar d n) l = mok (TyScalar d (n || any ns)).
Proof.
  induction 1 as [|[g e] m l ns He Hl IH]; intros n; cbn [bodies_say_rest].
  - cbn. rewrite orb_false_r. reflexivity.
  - apply mbind_ok. exists (TyScalar d m). split; [exact He|]. apply mbind_ok. exists (TyScalar d (n || m)).
    split; [unfold mok; f_equal; apply case_step_good; eauto 10|]. rewrite IH. cbn. rewrite orb_assoc. reflexivity.
Qed.

(** What a CASE reports once its operand and guards are behind it. *)
Lemma case_err whens els c :
  (t <-! bodies_say f whens ;; else_say (match els with None => None | Some e => Some (f e) end) t) = merr c <->
  (exists g e l, whens = (g, e) :: l /\ (f e = merr c \/ exists t, f e = mok t /\ results_err t l c)) \/
  (exists b d ns, els = Some b /\ whens <> [] /\ Forall2 (fun w n => f (snd w) = mok (TyScalar d n)) whens ns /\
     (f b = merr c \/ exists t, f b = mok t /\ unlike t (TyScalar d false) c)).
Proof.
  rewrite mbind_err. split.
  - intros [H|(t & Et & H)].
    + left. destruct whens as [|[g e] l]; [discriminate|]. exists g, e, l. split; [reflexivity|]. cbn [bodies_say] in H.
      apply mbind_err in H as [H|(t & Et & H)]; [auto|]. right. exists t. split; [exact Et|]. apply bodies_rest_err; exact H.
    + right. destruct els as [b|]; [|destruct t; discriminate]. destruct t as [ts|d n]; [discriminate|]. cbn [else_say] in H.
      destruct whens as [|[g e] l]; [discriminate|]. cbn [bodies_say] in Et. apply mbind_ok in Et as (t0 & E0 & Et).
      assert (F : exists ns, Forall2 (fun w n => f (snd w) = mok (TyScalar d n)) ((g, e) :: l) ns).
      { apply bodies_rest_good in Et as [[<- ->]|(d' & n' & ns & -> & F & [= <- _])]; [exists [n]|exists (n' :: ns)]; constructor; auto. }
      destruct F as [ns F]. exists b, d, ns. split; [reflexivity|]. split; [discriminate|]. split; [exact F|].
      apply mbind_err in H as [H|(u & Eu & H)]; [auto|]. right. exists u. split; [exact Eu|].
      apply mbind_err in H as [H|(n1 & _ & H)]; [|discriminate]. injection H as H. apply compat_err in H. eapply unlike_right; [|exact H]. constructor.
  - intros [(g & e & l & -> & H)|(b & d & ns & -> & Hn & F & H)].
    + left. cbn [bodies_say]. apply mbind_err. destruct H as [H|(t & Et & H)]; [auto|right]. exists t. split; [exact Et|].
      apply bodies_rest_err; exact H.
    + right. destruct whens as [|[g e] l]; [contradiction|]. inversion F as [|? n ? ns' E F']; subst. exists (TyScalar d (n || any ns')).
      split; [cbn [bodies_say]; apply mbind_ok; exists (TyScalar d n); split; [exact E|]; apply bodies_rest_all; exact F'|].
      cbn [else_say]. apply mbind_err. destruct H as [H|(t & Et & H)]; [auto|right]. exists t. split; [exact Et|]. apply mbind_err. left.
      unfold merr. f_equal. apply compat_err. eapply unlike_right; [|exact H]. constructor.
Qed.

End Lists.

Section Names.
Context (up : Z -> list Z).
Notation same := (name_eqb up).

Lemma pick_err attrs names c : pick_columns_say up attrs names = Err c <->
  at_first (fun n => exists a, first_named up attrs n a)
           (fun n c => Forall (fun a => same (a_name a) n = false) attrs /\ c = CColumnNotFound n) names c.
Proof.
  assert (F : forall n, find_column up attrs n = None <-> Forall (fun a => same (a_name a) n = false) attrs).
  { intros n. clear. induction attrs as [|a attrs IH]; cbn; [split; auto|]. destruct (same (a_name a) n) eqn:E.
    - split; [discriminate|]. intros H; inversion H; congruence.
    - rewrite IH. split; [constructor; assumption|]. intros H; inversion H; assumption. }
  induction names as [|n names IH]; cbn [pick_columns_say].
  - split; [discriminate|]. intros H; inversion H.
  - rewrite at_first_cons, <- F. destruct (find_column up attrs n) as [a|] eqn:E.
    + apply find_column_iff in E. rewrite <- IH. split.
      * destruct (pick_columns_say up attrs names); [discriminate|]. intros [= ->]. right. split; [eauto|reflexivity].
      * intros [[? _]|[_ H]]; [discriminate|]. rewrite H. reflexivity.
    + split; [intros [= <-]; auto|]. intros [[_ ->]|[[a H] _]]; [reflexivity|]. apply find_column_iff in H. congruence.
Qed.

Lemma in_scope_rel rels n : in_scope up rels n <-> find_rel up rels n <> None.
Proof.
  rewrite find_rel_none. unfold in_scope. split.
  - intros (r & I & E) F. rewrite Forall_map, Forall_forall in F. rewrite (F r I) in E. discriminate.
  - intros N. induction rels as [|r rels IH]; [destruct N; constructor|]. destruct (same n (fst r)) eqn:E.
    + exists r. split; [left; reflexivity|exact E].
    + destruct IH as (r' & I & E'); [intros F; apply N; constructor; assumption|]. exists r'. split; [right; exact I|exact E'].
Qed.

Lemma not_in_scope rels n : ~ in_scope up rels n <-> find_rel up rels n = None.
Proof. rewrite in_scope_rel. destruct (find_rel up rels n); split; try congruence; try tauto. intros H. destruct H. discriminate. Qed.

Lemma scope_holds rels y : add_relations up [] rels = Ok y -> holds up rels y.
Proof. intros E. pose proof (add_relations_holds up rels [] [] (holds_nil up)) as H. rewrite E in H. apply H. Qed.

Lemma relation_err rels y n attrs c : add_relations up [] rels = Ok y ->
  (relation_say up y n attrs = merr c <-> in_scope up rels n /\ c = CDuplicateRelation n).
Proof.
  intros Sc. unfold relation_say. rewrite say_err, in_scope_rel. pose proof (add_relation_holds up rels y n attrs (scope_holds _ _ Sc)) as H.
  destruct (add_relation up y n attrs) as [y'|[]].
  - destruct H as [H _]. rewrite H. split; [intros [? _]; discriminate|]. intros [N _]. destruct N. reflexivity.
  - split; intros [_ ->]; auto.
Qed.

Lemma relation_good rels y n attrs y' : add_relations up [] rels = Ok y ->
  (relation_say up y n attrs = mok y' <-> add_relations up [] (rels ++ [(n, attrs)]) = Ok y').
Proof.
  intros Sc. unfold relation_say. rewrite say_ok, add_relations_app, Sc. cbn. destruct (add_relation up y n attrs); split; congruence.
Qed.

Lemma relation_fresh rels y n attrs : add_relations up [] rels = Ok y -> ~ in_scope up rels n ->
  exists y', relation_say up y n attrs = mok y'.
Proof.
  intros Sc N. apply not_in_scope in N. pose proof (add_relation_holds up rels y n attrs (scope_holds _ _ Sc)) as H. unfold relation_say.
  destruct (add_relation up y n attrs) as [y'|[]]; [eexists; reflexivity|contradiction].
Qed.

Lemma scope_fresh rels n attrs y : add_relations up [] (rels ++ [(n, attrs)]) = Ok y -> ~ in_scope up rels n.
Proof.
  rewrite add_relations_app. destruct (add_relations up [] rels) as [y0|] eqn:E; [|discriminate]. cbn.
  intros H. apply not_in_scope. pose proof (add_relation_holds up rels y0 n attrs (scope_holds _ _ E)) as K.
  destruct (add_relation up y0 n attrs); [tauto|discriminate].
Qed.

Lemma named_nil n attrs : named up n attrs = [] <-> Forall (fun a => same n (a_name a) = false) attrs.
Proof.
  unfold named. induction attrs as [|a attrs IH]; cbn; [split; auto|]. destruct (same n (a_name a)) eqn:E.
  - split; [discriminate|]. intros H; inversion H; congruence.
  - rewrite IH. split; [constructor; assumption|]. intros H; inversion H; assumption.
Qed.

Lemma misnamed_ok rels y q c : add_relations up [] rels = Ok y -> (name_say up y q = Err c <-> misnamed up rels q c).
Proof.
  intros Sc. destruct (scope_holds _ _ Sc) as [_ Hg]. destruct q as [|a [|b [|d q]]]; cbn [name_say].
  - split; [intros [= <-]; apply mn_length; discriminate|]. intros H. inversion H. reflexivity.
  - rewrite Hg. destruct (find_rel up rels a) as [attrs|] eqn:F.
    + assert (I : in_scope up rels a) by (apply in_scope_rel; congruence).
      split; [intros [= <-]; constructor; exact I|]. intros H. inversion H; subst; try contradiction; try reflexivity; cbn in *; try contradiction; congruence.
    + assert (I : ~ in_scope up rels a) by (apply not_in_scope; exact F).
      destruct (named up a (flat_map snd rels)) as [|b1 [|b2 l]] eqn:N; cbn [enter].
      * split; [intros [= <-]; constructor; assumption|]. intros H. inversion H; subst; try contradiction; try reflexivity;
          cbn in *; try contradiction; try congruence; rewrite N in *; cbn in *; lia.
      * split; [discriminate|]. intros H. inversion H; subst; try contradiction; cbn in *; try contradiction; try congruence; rewrite N in *; cbn in *; try lia; discriminate.
      * split; [intros [= <-]; constructor; [assumption|rewrite N; cbn; lia]|].
        intros H. inversion H; subst; try contradiction; try reflexivity; cbn in *; try contradiction; try congruence; rewrite N in *; discriminate.
  - rewrite Hg. destruct (find_rel up rels a) as [attrs|] eqn:F.
    + assert (I : in_scope up rels a) by (apply in_scope_rel; congruence).
      assert (D : distinct up (map fst rels)) by (apply add_relations_ok; eauto).
      assert (G : nget up (rel_map up attrs) b = None <-> named up b attrs = []).
      { unfold rel_map. rewrite nget_collect_none, named_nil, !Forall_map. reflexivity. }
      pose proof (proj1 (find_rel_in up rels a attrs D) F) as (n & In1 & E1).
      assert (X : misnamed up rels [a; b] c <-> named up b attrs = [] /\ c = CNoAttribute b a).
      { split.
        - intros H. inversion H as [| | | |? ? n' attrs' In2 E2 N| ? L]; subst; try contradiction; cbn in *; try contradiction; try congruence.
          assert (F2 : find_rel up rels a = Some attrs') by (apply find_rel_in; eauto). rewrite F in F2. injection F2 as <-. auto.
        - intros [N ->]. eapply mn_no_attribute; eassumption. }
      rewrite X, <- G. destruct (nget up (rel_map up attrs) b); split; try discriminate.
      * intros [? _]. discriminate.
      * intros [= <-]. auto.
      * intros [_ ->]. reflexivity.
    + assert (I : ~ in_scope up rels a) by (apply not_in_scope; exact F).
      assert (X : (match enter None (named up a (flat_map snd rels)) with
                   | Some (SyRelation m) => match nget up m b with Some t => Ok t | None => Err (CNoAttribute b a) end
                   | _ => Err (CNotRelation a) end : result stype complaint) = Err (CNotRelation a)).
      { destruct (enter_none_cases (named up a (flat_map snd rels))) as [E|[[t E]|E]]; rewrite E; reflexivity. }
      rewrite X. split; [intros [= <-]; constructor; exact I|]. intros H. inversion H; subst; try reflexivity.
      * destruct I. exists (n, attrs). auto.
      * cbn in *. congruence.
  - split; [intros [= <-]; apply mn_length; discriminate|]. intros H. inversion H. reflexivity.
Qed.

End Names.
