(** * The pieces of the inference functions against the typing rules *)

From Coq Require Import Strings.String Sorting.Sorted Sorting.Permutation.
From Coq Require Import ZifyBool ZifyNat ZifyN.
From Verif Require Import Base StrModel StrFacts SqlNameModel SqlModel SqlNameProofs SqlTypeProofs SqlSpec SqlScope SqlEval
  SqlInd SqlSafeSpec SqlPanic SqlStmtSpec SqlStmt SqlColumnsSpec SqlColumns SqlFromSpec SqlFrom SqlRules.
Local Open Scope list_scope.

Local Arguments rbind : simpl never.

(** [A] implies [B], and also conversely if [s] holds. *)
Section Agree.
Context (g : Prop).

Definition agree (s : bool) (A B : Prop) : Prop := (A -> B) /\ (g -> s = true -> B -> A).

Lemma agree_iff s A B : (A <-> B) -> agree s A B.
Proof. unfold agree. tauto. Qed.

Lemma agree_trans s A B C : (A <-> B) -> agree s B C -> agree s A C.
Proof. unfold agree. tauto. Qed.

Lemma agree_and s1 s2 A1 A2 B1 B2 : agree s1 A1 B1 -> agree s2 A2 B2 -> agree (s1 && s2) (A1 /\ A2) (B1 /\ B2).
Proof. unfold agree. rewrite andb_true_iff. tauto. Qed.

Lemma agree_ex {T} s (A B : T -> Prop) : (forall t, agree s (A t) (B t)) -> agree s (exists t, A t) (exists t, B t).
Proof.
  unfold agree. intros H. split.
  - intros [t Ht]. exists t. apply H; exact Ht.
  - intros Hg Hs [t Ht]. exists t. apply (H t); assumption.
Qed.

Lemma agree_weaken s s' A B : (s' = true -> s = true) -> agree s A B -> agree s' A B.
Proof. unfold agree. tauto. Qed.

Lemma Forall2_agree {A B} (s : A -> bool) (P Q : A -> B -> Prop) l :
  Forall (fun a => forall b, agree (s a) (P a b) (Q a b)) l -> forall m, agree (forallb s l) (Forall2 P l m) (Forall2 Q l m).
Proof.
  induction 1 as [|a l Ha Hl IH]; intros m; cbn [forallb].
  - split; [|intros _ _]; intros H; inversion H; constructor.
  - destruct m as [|b m]; [split; [|intros _ _]; intros H; inversion H|]. unfold agree. rewrite andb_true_iff. split.
    + intros H. inversion H; subst. constructor; [apply Ha; assumption|apply IH; assumption].
    + intros Hg [S1 S2] H. inversion H; subst. constructor; [apply (Ha b); assumption|apply (IH m); assumption].
Qed.

Lemma Forall_agree {A} (s : A -> bool) (P Q : A -> Prop) l :
  Forall (fun a => agree (s a) (P a) (Q a)) l -> agree (forallb s l) (Forall P l) (Forall Q l).
Proof.
  induction 1 as [|a l Ha Hl IH]; cbn [forallb]; [split; auto|]. unfold agree. rewrite andb_true_iff. split.
  - intros H. inversion H; subst. constructor; [apply Ha; assumption|apply IH; assumption].
  - intros Hg [S1 S2] H. inversion H; subst. constructor; [apply Ha; assumption|apply IH; assumption].
Qed.

Definition safe_opt {A : Type} (s : A -> bool) (o : option A) : bool := match o with None => true | Some a => s a end.

Lemma opt_agree {A} (s : A -> bool) (P Q : A -> Prop) o :
  if_some (fun a => agree (s a) (P a) (Q a)) o -> agree (safe_opt s o) (opt P o) (opt Q o).
Proof.
  destruct o as [a|]; cbn; intros H; split.
  - intros H'. inversion H'; subst. constructor. apply H; assumption.
  - intros Hg Hs H'. inversion H'; subst. constructor. apply H; assumption.
  - intros _. constructor.
  - intros _ _ _. constructor.
Qed.

Lemma Forall2_ext {A B} (P Q : A -> B -> Prop) l m : (forall a b, P a b <-> Q a b) -> Forall2 P l m <-> Forall2 Q l m.
Proof. intros H. split; intros F; induction F; constructor; try apply H; assumption. Qed.

End Agree.

(** ** Operators *)

Lemma literal_ok l : literal_type l = literal_rule l.
Proof. destruct l; reflexivity. Qed.

Lemma unary_ok op t t' : unary_type op t = Ok t' <-> unary_rule op t t'.
Proof.
  split.
  - destruct op, t as [ts|d n]; try discriminate; try (destruct d; try discriminate); intros [= <-]; constructor.
  - intros H; inversion H; reflexivity.
Qed.

Lemma binary_ok op a b t : binary_type op a b = Ok t <-> binary_rule op a b t.
Proof.
  split.
  - destruct op, a as [|[] n]; try discriminate; destruct b as [|[] m]; try discriminate;
      intros [= <-]; constructor; cbn; tauto.
  - intros H. inversion H as [? ? ? D| |? ? ? D]; subst; [| reflexivity |]; cbn in D;
      repeat (destruct D as [<-|D]; [reflexivity|]); destruct D.
Qed.

Lemma ordered_ok d : is_ordered d = true <-> orderable d.
Proof. unfold orderable. destruct d; cbn; split; try discriminate; try reflexivity; intuition discriminate. Qed.

Lemma alike_ok a : forall b, alike a b <-> exists n, is_compatible a b = Ok n.
Proof.
  induction a as [d n|ts IH] using stype_induction; intros b.
  - destruct b as [us|d' n']; [split; [intros H; inversion H|intros [? [=]]]|]. cbn. destruct (dt_eqb d d') eqn:E.
    + apply dt_eqb_eq in E as <-. split; [eauto|constructor].
    + split; [|intros [? [=]]]. intros H. inversion H; subst. rewrite dt_eqb_refl in E. discriminate.
  - destruct b as [us|d n]; [|split; [intros H; inversion H|intros [n' [=]]]]. cbn [is_compatible]. split.
    + intros H. inversion H as [|? ? F]; subst. rewrite (Forall2_length _ _ _ F), Nat.eqb_refl. cbn [negb].
      clear H. revert us F. generalize false.
      induction IH as [|t ts Ht Hts IH]; intros acc us F; inversion F as [|? u ? us' Hu Hus]; subst; cbn [compat_fold]; [eauto|].
      apply Ht in Hu as [m ->]. apply IH; assumption.
    + destruct (List.length ts =? List.length us)%nat eqn:L; [|intros [? [=]]]. apply Nat.eqb_eq in L. cbn [negb]. intros H.
      constructor. revert us L H. generalize false.
      induction IH as [|t ts Ht Hts IH]; intros acc [|u us] L H; try discriminate; constructor; cbn [compat_fold] in H.
      * apply Ht. destruct (is_compatible t u) as [m|[]] eqn:E; [eauto|]. rewrite compat_fold_err in H. destruct H as [? [=]].
      * destruct (is_compatible t u) as [m|[]] eqn:E; [|rewrite compat_fold_err in H; destruct H as [? [=]]].
        eapply IH; [injection L as L; exact L|exact H].
Qed.

Lemma equal_ok a b t :
  (match is_compatible a b with Ok n => Ok (TyScalar DLogical n) | Err e => Err e end = Ok t) <->
  (exists d n m, a = TyScalar d n /\ b = TyScalar d m /\ t = TyScalar DLogical (n || m)) \/
  (exists ts us, a = TyTuple ts /\ b = TyTuple us /\ Forall2 alike ts us /\ t = TyScalar DLogical false).
Proof.
  split.
  - destruct (is_compatible a b) as [n|] eqn:E; [|discriminate]. intros [= <-].
    assert (A : alike a b) by (apply alike_ok; eauto). destruct a as [ts|d k], b as [us|d' k']; try discriminate.
    + right. rewrite (compatible_tuple_false _ _ _ E). inversion A; subst. eauto 10.
    + left. cbn in E. destruct (dt_eqb d d') eqn:D; [|discriminate]. apply dt_eqb_eq in D as <-. injection E as <-. eauto 10.
  - intros [(d & n & m & -> & -> & ->)|(ts & us & -> & -> & F & ->)].
    + cbn. rewrite dt_eqb_refl. reflexivity.
    + assert (A : alike (TyTuple ts) (TyTuple us)) by (constructor; exact F). apply alike_ok in A as [n E].
      rewrite E. rewrite (compatible_tuple_false _ _ _ E). reflexivity.
Qed.

Lemma compare_ok op a b t : compare_type op a b = Ok t <-> compare_rule op a b t.
Proof.
  assert (Heq : In op [CEqual; CNotEqual] -> compare_type op a b =
                 match is_compatible a b with Ok n => Ok (TyScalar DLogical n) | Err e => Err e end)
    by (cbn; intros [<-|[<-|[]]]; reflexivity).
  assert (Hlt : In op [CLess; CLessEqual; CGreater; CGreaterEqual] -> compare_type op a b =
                 match a, b with
                 | TyScalar t1 n1, TyScalar t2 n2 =>
                     if dt_eqb t1 t2 && is_ordered t1 then Ok (TyScalar DLogical (n1 || n2)) else Err tt
                 | _, _ => Err tt
                 end)
    by (cbn; intros [<-|[<-|[<-|[<-|[]]]]]; reflexivity).
  split.
  - intros H.
    assert (D : In op [CEqual; CNotEqual] \/ In op [CLess; CLessEqual; CGreater; CGreaterEqual] \/ op = CLike)
      by (destruct op; cbn; tauto).
    destruct D as [D|[D| ->]].
    + rewrite (Heq D) in H. apply equal_ok in H as [(d & n & m & -> & -> & ->)|(ts & us & -> & -> & F & ->)].
      * apply cr_equal; exact D.
      * apply cr_rows; assumption.
    + rewrite (Hlt D) in H. destruct a as [|d n], b as [|d' m]; try discriminate.
      destruct (dt_eqb d d' && is_ordered d) eqn:E; [|discriminate]. injection H as <-.
      apply andb_true_iff in E as [E1 E2]. apply dt_eqb_eq in E1 as <-. apply cr_order; [exact D|apply ordered_ok; exact E2].
    + cbn in H. destruct a as [|[] n]; try discriminate; destruct b as [|[] m]; try discriminate. injection H as <-. apply cr_like.
  - intros H. inversion H as [? d n m D|? ts us D F|? d n m D O|n m]; subst.
    + rewrite (Heq D). apply equal_ok. left. eauto 10.
    + rewrite (Heq D). apply equal_ok. right. eauto 10.
    + rewrite (Hlt D), dt_eqb_refl. apply ordered_ok in O. rewrite O. reflexivity.
    + reflexivity.
Qed.

Lemma between_ok t lo hi r : between_type t lo hi = Ok r <->
  exists d n1 n2 n3, t = TyScalar d n1 /\ lo = TyScalar d n2 /\ hi = TyScalar d n3 /\ orderable d /\
    r = TyScalar DLogical (n1 || n2 || n3).
Proof.
  split.
  - unfold between_type. destruct t as [|d n1], lo as [|d2 n2], hi as [|d3 n3]; try discriminate.
    destruct (dt_eqb d d2 && dt_eqb d d3 && is_ordered d) eqn:E; [|discriminate]. intros [= <-].
    apply andb_true_iff in E as [E E3]. apply andb_true_iff in E as [E1 E2]. apply dt_eqb_eq in E1 as <-, E2 as <-.
    apply ordered_ok in E3. eauto 10.
  - intros (d & n1 & n2 & n3 & -> & -> & -> & O & ->). cbn. apply ordered_ok in O. rewrite !dt_eqb_refl, O. reflexivity.
Qed.

Lemma logical_ok t : logical t = Ok tt <-> exists n, t = TyScalar DLogical n.
Proof. split; [destruct t as [|[] n]; try discriminate; eauto|intros [n ->]; reflexivity]. Qed.

Lemma scalar_ok t d n : scalar t = Ok (d, n) <-> t = TyScalar d n.
Proof. split; [destruct t; [discriminate|intros [= -> ->]; reflexivity]|intros ->; reflexivity]. Qed.

Lemma limit_ok t : limit_number t = Ok tt <-> t = TyScalar DNumeric false.
Proof. split; [destruct t as [|[] []]; try discriminate; reflexivity|intros ->; reflexivity]. Qed.

(** ** Lists of expressions *)

Section Lists.
Context (f : expr -> res stype).

Lemma collect_ok l : forall ts, collect f l = ok ts <-> Forall2 (fun e t => f e = ok t) l ts.
Proof.
  induction l as [|e l IH]; intros ts; cbn [collect].
  - split; [intros H; apply ok_inj in H as <-; constructor|]. intros H; inversion H; reflexivity.
  - rewrite rbind_ok. split.
    + intros (t & Et & H). apply rbind_ok in H as (ts' & Ets & H). apply ok_inj in H as <-. constructor; [exact Et|apply IH; exact Ets].
    + intros H. inversion H as [|? t ? ts' Ht Hts]; subst. exists t. split; [exact Ht|]. apply rbind_ok. exists ts'.
      split; [apply IH; exact Hts|reflexivity].
Qed.

Lemma case_step_ok acc t r : case_step acc t = Ok r <->
  exists d n m, acc = TyScalar d n /\ t = TyScalar d m /\ r = TyScalar d (n || m).
Proof.
  unfold case_step. split.
  - destruct t as [us|d m].
    + destruct (is_compatible (TyTuple us) acc); discriminate.
    + destruct acc as [|d' n]; [discriminate|]. cbn. destruct (dt_eqb d d') eqn:E; [|discriminate]. apply dt_eqb_eq in E as <-.
      intros [= <-]. exists d, n, m. split; [reflexivity|]. split; [reflexivity|]. f_equal. destruct n, m; reflexivity.
  - intros (d & n & m & -> & -> & ->). cbn. rewrite dt_eqb_refl. f_equal. f_equal. destruct n, m; reflexivity.
Qed.

Lemma bodies_rest_ok l : forall acc r, bodies_rest f acc l = ok r ->
  r = acc /\ l = [] \/
  exists d n ns, acc = TyScalar d n /\ Forall2 (fun w m => f (snd w) = ok (TyScalar d m)) l ns /\ r = TyScalar d (n || any ns).
Proof.
  induction l as [|[g e] l IH]; intros acc r; cbn [bodies_rest].
  - intros H. apply ok_inj in H as <-. auto.
  - intros H. apply rbind_ok in H as (t & Et & H). apply rbind_ok in H as (acc' & Ea & H). apply pure_ok, case_step_ok in Ea.
    destruct Ea as (d & n & m & -> & -> & ->). right. apply IH in H as [[-> ->]|(d' & n' & ns & [= <- <-] & F & ->)].
    + exists d, n, [m]. split; [reflexivity|]. split; [repeat constructor; exact Et|]. cbn. rewrite orb_false_r. reflexivity.
    + exists d, n, (m :: ns). split; [reflexivity|]. split; [constructor; assumption|]. cbn. rewrite orb_assoc. reflexivity.
Qed.

Lemma bodies_rest_back l d ns : Forall2 (fun w m => f (snd w) = ok (TyScalar d m)) l ns -> forall n,
  bodies_rest f (TyScalar d n) l = ok (TyScalar d (n || any ns)).
Proof.
  induction 1 as [|[g e] m l ns He Hl IH]; intros n; cbn [bodies_rest].
  - cbn. rewrite orb_false_r. reflexivity.
  - apply rbind_ok. exists (TyScalar d m). split; [exact He|]. apply rbind_ok. exists (TyScalar d (n || m)).
    split; [apply pure_ok, case_step_ok; eauto 10|]. rewrite IH. cbn. rewrite orb_assoc. reflexivity.
Qed.

Definition else_ok (els : option expr) (d : data_type) (m : bool) : Prop :=
  match els with None => m = true | Some e => f e = ok (TyScalar d m) end.

Lemma case_ok whens els r :
  (t <-? bodies f whens ;; else_type (match els with None => None | Some e => Some (f e) end) t) = ok r <->
  whens <> [] /\ exists d ns m, Forall2 (fun w n => f (snd w) = ok (TyScalar d n)) whens ns /\ else_ok els d m /\
                  r = TyScalar d (any ns || m).
Proof.
  rewrite rbind_ok. split.
  - intros (t & Eb & H). destruct whens as [|[g e] l]; [discriminate|]. split; [discriminate|]. cbn [bodies] in Eb.
    apply rbind_ok in Eb as (t0 & E0 & Eb).
    assert (Ht : exists d n, t = TyScalar d n).
    { destruct t as [ts|d n]; [|eauto]. destruct els; discriminate. }
    assert (C : exists d n ns, t = TyScalar d n /\ n = any ns /\
              Forall2 (fun w m => f (snd w) = ok (TyScalar d m)) ((g, e) :: l) ns).
    { destruct Ht as (d & n & ->). apply bodies_rest_ok in Eb as [[<- ->]|(d' & n' & ns & -> & F & [= -> ->])].
      - exists d, n, [n]. split; [reflexivity|]. split; [cbn; rewrite orb_false_r; reflexivity|]. repeat constructor. exact E0.
      - exists d', (n' || any ns), (n' :: ns). split; [reflexivity|]. split; [reflexivity|]. constructor; assumption. }
    destruct C as (d & n & ns & -> & -> & F). exists d, ns. destruct els as [b|]; cbn [else_type] in H.
    + apply rbind_ok in H as (tb & Eb' & H). apply rbind_ok in H as (n1 & E1 & H). apply pure_ok in E1. apply ok_inj in H as <-.
      destruct tb as [|db m]; [discriminate|]. cbn in E1. destruct (dt_eqb db d) eqn:D; [|discriminate]. apply dt_eqb_eq in D as ->.
      injection E1 as <-. exists m. split; [exact F|]. split; [exact Eb'|]. f_equal. destruct (any ns), m; reflexivity.
    + apply ok_inj in H as <-. exists true. split; [exact F|]. split; [reflexivity|]. rewrite orb_true_r. reflexivity.
  - intros (Hn & d & ns & m & F & He & ->). destruct whens as [|[g e] l]; [contradiction|].
    inversion F as [|? n ? ns' H0 F']; subst. exists (TyScalar d (n || any ns')). split.
    + cbn [bodies]. apply rbind_ok. exists (TyScalar d n). split; [exact H0|]. apply bodies_rest_back; exact F'.
    + change (any (n :: ns')) with (n || any ns'). destruct els as [b|]; cbn [else_type else_ok] in *.
      * apply rbind_ok. exists (TyScalar d m). split; [exact He|]. apply rbind_ok. exists (m || (n || any ns')).
        split; [apply pure_ok; cbn; rewrite dt_eqb_refl; reflexivity|].
        assert (X : m || (n || any ns') || (n || any ns') = n || any ns' || m) by (destruct m, n, (any ns'); reflexivity).
        rewrite X. reflexivity.
      * subst m. rewrite orb_true_r. reflexivity.
Qed.

Lemma unify_scalar a b d n : unify a b = Ok (TyScalar d n) <->
  exists n1 n2, a = TyScalar d n1 /\ b = TyScalar d n2 /\ n = n1 || n2.
Proof.
  split.
  - destruct a as [ts|d1 n1], b as [us|d2 n2]; cbn; try discriminate.
    + destruct (negb _); [discriminate|]. destruct (unify_fold _ _ _ _); discriminate.
    + destruct (dt_eqb d1 d2) eqn:E; [|discriminate]. apply dt_eqb_eq in E as <-. intros [= <- <-]. eauto.
  - intros (n1 & n2 & -> & -> & ->). cbn. rewrite dt_eqb_refl. reflexivity.
Qed.

Lemma members_rest_err l r : members_rest f (Err tt) l <> ok r.
Proof.
  induction l as [|e l IH]; cbn [members_rest]; [discriminate|].
  destruct (f e) as [[t|[]]| |]; cbn [bind]; try discriminate; exact IH.
Qed.

Lemma members_rest_ok l d : forall a n, members_rest f (Ok a) l = ok (TyScalar d n) <->
  exists m ns, a = TyScalar d m /\ Forall2 (fun e n => f e = ok (TyScalar d n)) l ns /\ n = m || any ns.
Proof.
  induction l as [|e l IH]; intros a n; cbn [members_rest].
  - rewrite pure_ok. split.
    + intros [= ->]. exists n, []. split; [reflexivity|]. split; [constructor|]. cbn. rewrite orb_false_r. reflexivity.
    + intros (m & ns & -> & F & ->). inversion F; subst. cbn. rewrite orb_false_r. reflexivity.
  - split.
    + destruct (f e) as [[t|[]]| |] eqn:Ef; cbn [bind]; try discriminate; [|intros H; apply members_rest_err in H; contradiction].
      destruct (unify a t) as [u|[]] eqn:U; [|intros H; apply members_rest_err in H; contradiction].
      intros H. apply IH in H as (m & ns & -> & F & ->). apply unify_scalar in U as (n1 & n2 & -> & -> & ->).
      exists n1, (n2 :: ns). split; [reflexivity|]. split; [constructor; [exact Ef|exact F]|]. cbn. rewrite orb_assoc. reflexivity.
    + intros (m & ns & -> & F & ->). inversion F as [|? n2 ? ns' He F']; subst. unfold ok in He. rewrite He. cbn [bind].
      rewrite (proj2 (unify_scalar (TyScalar d m) (TyScalar d n2) d (m || n2)) ltac:(eauto)). apply IH.
      exists (m || n2), ns'. split; [reflexivity|]. split; [exact F'|]. cbn. rewrite orb_assoc. reflexivity.
Qed.

Lemma members_ok l d n : members f l = ok (TyScalar d n) <->
  l <> [] /\ exists ns, Forall2 (fun e n => f e = ok (TyScalar d n)) l ns /\ n = any ns.
Proof.
  destruct l as [|e l]; cbn [members]; [split; [discriminate|intros [H _]; contradiction]|]. split.
  - destruct (f e) as [[t|[]]| |] eqn:Ef; cbn [bind]; try discriminate; [|intros H; apply members_rest_err in H; contradiction].
    intros H. apply members_rest_ok in H as (m & ns & -> & F & ->). split; [discriminate|]. exists (m :: ns). split; [|reflexivity].
    constructor; [exact Ef|exact F].
  - intros [_ (ns & F & ->)]. inversion F as [|? m ? ns' He F']; subst. unfold ok in He. rewrite He. cbn [bind].
    apply members_rest_ok. exists m, ns'. auto.
Qed.

End Lists.

(** ** Decimal numerals *)

Definition value (s : list Z) : Z := fold_left (fun v c => 10 * v + (c - 48))%Z s 0%Z.

Lemma value_snoc s c : value (s ++ [c]) = (10 * value s + (c - 48))%Z.
Proof. unfold value. rewrite fold_left_app. reflexivity. Qed.

Lemma value_nonneg s : Forall (fun c => 48 <= c <= 57)%Z s -> (0 <= value s)%Z.
Proof.
  induction s as [|c s IH] using rev_ind; intros H; [reflexivity|]. rewrite value_snoc.
  apply Forall_app in H as [H1 H2]. inversion H2; subst. specialize (IH H1). lia.
Qed.

Lemma value_pos s : Forall (fun c => 48 <= c <= 57)%Z s -> hd_error s <> Some 48%Z -> s <> [] -> (0 < value s)%Z.
Proof.
  induction s as [|c s IH] using rev_ind; intros H Hh Hn; [contradiction|]. rewrite value_snoc.
  apply Forall_app in H as [H1 H2]. inversion H2; subst. pose proof (value_nonneg s H1). destruct s as [|c0 s].
  - cbn in Hh. assert (c <> 48%Z) by congruence. cbn. lia.
  - assert (0 < value (c0 :: s))%Z by (apply IH; [exact H1|exact Hh|discriminate]). lia.
Qed.

Lemma value_inj s : forall s', Forall (fun c => 48 <= c <= 57)%Z s -> Forall (fun c => 48 <= c <= 57)%Z s' ->
  hd_error s <> Some 48%Z -> hd_error s' <> Some 48%Z -> value s = value s' -> s = s'.
Proof.
  induction s as [|c s IH] using rev_ind; intros s' F F' H H' E.
  - destruct s' as [|c' s']; [reflexivity|]. pose proof (value_pos (c' :: s') F' H' ltac:(discriminate)). change (value []) with 0%Z in E. lia.
  - destruct s' as [|c' s' _] using rev_ind.
    + pose proof (value_pos (s ++ [c]) F H ltac:(destruct s; discriminate)). change (value []) with 0%Z in E. lia.
    + rewrite !value_snoc in E. apply Forall_app in F as [F1 F2]. apply Forall_app in F' as [F1' F2'].
      inversion F2; inversion F2'; subst. assert (value s = value s' /\ c = c') as [Ev ->] by lia. f_equal.
      apply IH; try assumption.
      * destruct s; [discriminate|exact H].
      * destruct s'; [discriminate|exact H'].
Qed.

Lemma decimal_inj k s s' : decimal k s -> decimal k s' -> s = s'.
Proof. intros (A & B & C) (A' & B' & C'). apply value_inj; try assumption. unfold value. congruence. Qed.

Lemma show_numeral (up : Z -> list Z) k : numeral k (show_nat k).
Proof. destruct k as [|k]; [left; split; reflexivity|right]. split; [lia|]. apply (show_decimal up). lia. Qed.

Lemma numeral_inj k s s' : numeral k s -> numeral k s' -> s = s'.
Proof.
  intros [[-> ->]|[L D]] [[E ->]|[L' D']]; try lia; [reflexivity|]. eapply decimal_inj; eassumption.
Qed.
