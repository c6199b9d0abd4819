(** * Facts about compatibility and unification of types *)

From Verif Require Import Base SqlNameModel SqlModel SqlTypeSpec.

Lemma Forall2_length {A B} (R : A -> B -> Prop) l1 l2 : Forall2 R l1 l2 -> length l1 = length l2.
Proof. induction 1; cbn; congruence. Qed.

Section StypeInd.
Context (P : stype -> Prop) (Hs : forall t n, P (TyScalar t n)) (Ht : forall l, Forall P l -> P (TyTuple l)).
Fixpoint stype_induction (t : stype) : P t :=
  match t with
  | TyScalar d n => Hs d n
  | TyTuple l => Ht l ((fix go (l : list stype) : Forall P l :=
                          match l with
                          | [] => Forall_nil P
                          | a :: l' => Forall_cons a (stype_induction a) (go l')
                          end) l)
  end.
End StypeInd.

Lemma dt_eqb_eq a b : dt_eqb a b = true <-> a = b.
Proof. destruct a, b; cbn; split; congruence. Qed.

Lemma dt_eqb_refl a : dt_eqb a a = true.
Proof. apply dt_eqb_eq. reflexivity. Qed.

Lemma subs_Forall2 l1 l2 : subs l1 l2 <-> Forall2 sub l1 l2.
Proof.
  split.
  - revert l2. induction l1 as [|a l1 IH]; intros l2 H; inversion H; subst; constructor; auto.
  - induction 1; constructor; assumption.
Qed.

Lemma sub_scalar_l t n b : sub (TyScalar t n) b -> exists m, b = TyScalar t m /\ (n = true -> m = true).
Proof. intros H. inversion H; subst. eauto. Qed.

Lemma sub_scalar_r t n a : sub a (TyScalar t n) -> exists m, a = TyScalar t m /\ (m = true -> n = true).
Proof. intros H. inversion H; subst. eauto. Qed.

Lemma sub_tuple_l l b : sub (TyTuple l) b -> exists l', b = TyTuple l' /\ Forall2 sub l l'.
Proof. intros H. inversion H; subst. rewrite subs_Forall2 in *. eauto. Qed.

Lemma sub_tuple_r l a : sub a (TyTuple l) -> exists l', a = TyTuple l' /\ Forall2 sub l' l.
Proof. intros H. inversion H; subst. rewrite subs_Forall2 in *. eauto. Qed.

Lemma sub_tuple_intro l l' : Forall2 sub l l' -> sub (TyTuple l) (TyTuple l').
Proof. intros H. constructor. apply subs_Forall2. exact H. Qed.

Lemma sub_refl a : sub a a.
Proof.
  induction a as [t n|l IH] using stype_induction; constructor; [auto|].
  apply subs_Forall2. induction IH; constructor; assumption.
Qed.

Lemma sub_antisym a b : sub a b -> sub b a -> a = b.
Proof.
  revert b. induction a as [t n|l IH] using stype_induction; intros b H1 H2.
  - apply sub_scalar_l in H1 as (m & -> & H). inversion H2; subst. f_equal. destruct n, m; intuition congruence.
  - apply sub_tuple_l in H1 as (l' & -> & H1). apply sub_tuple_l in H2 as (l2 & [= <-] & H2). f_equal.
    revert l' H1 H2. induction IH as [|a l Ha Hl IH]; intros l2 H1 H2.
    + inversion H1. reflexivity.
    + inversion H1; subst. inversion H2; subst. f_equal; eauto.
Qed.

Lemma sub_trans a b c : sub a b -> sub b c -> sub a c.
Proof.
  revert b c. induction a as [t n|l IH] using stype_induction; intros b c H1 H2.
  - apply sub_scalar_l in H1 as (m & -> & H). apply sub_scalar_l in H2 as (k & -> & H'). constructor. auto.
  - apply sub_tuple_l in H1 as (l' & -> & H1). apply sub_tuple_l in H2 as (l2 & -> & H2). apply sub_tuple_intro.
    revert l' l2 H1 H2. induction IH as [|a l Ha Hl IH]; intros l2 l0 H1 H2.
    + inversion H1; subst. inversion H2. constructor.
    + inversion H1; subst. inversion H2; subst. constructor; eauto.
Qed.

(** The fold of [unify] without its accumulator. *)
Fixpoint unify_list (f : stype -> stype -> result stype unit) (l1 l2 : list stype) : result (list stype) unit :=
  match l1, l2 with
  | a :: l1', b :: l2' =>
      match f a b with
      | Ok x => match unify_list f l1' l2' with Ok l => Ok (x :: l) | Err e => Err e end
      | Err e => Err e
      end
  | _, _ => Ok []
  end.

Lemma unify_fold_list f l1 l2 acc :
  unify_fold f acc l1 l2 = match unify_list f l1 l2 with Ok l => Ok (acc ++ l) | Err e => Err e end.
Proof.
  revert l2 acc. induction l1 as [|a l1 IH]; intros [|b l2] acc; cbn; try (rewrite app_nil_r; reflexivity).
  destruct (f a b) as [x|e]; [|reflexivity]. rewrite IH. destruct (unify_list f l1 l2); [|reflexivity].
  rewrite <- app_assoc. reflexivity.
Qed.

Lemma unify_tuple l1 l2 :
  unify (TyTuple l1) (TyTuple l2) =
  if negb (length l1 =? length l2) then Err tt
  else match unify_list unify l1 l2 with Ok l => Ok (TyTuple l) | Err e => Err e end.
Proof.
  cbn [unify]. destruct (negb _); [reflexivity|]. rewrite unify_fold_list. destruct (unify_list unify l1 l2); reflexivity.
Qed.

Lemma unify_least a b c : unify a b = Ok c -> least_above a b c.
Proof.
  revert b c. induction a as [t n|l IH] using stype_induction; intros [l'|t' n'] c.
  - discriminate.
  - cbn. destruct (dt_eqb t t') eqn:E; [|discriminate]. apply dt_eqb_eq in E as <-. intros [= <-].
    split; [|split].
    + constructor. intros ->. reflexivity.
    + constructor. intros ->. apply orb_true_r.
    + intros d H1 H2. apply sub_scalar_l in H1 as (m & -> & H1). apply sub_scalar_l in H2 as (k & [= <-] & H2).
      constructor. destruct n, n'; cbn; auto.
  - rewrite unify_tuple. destruct (Nat.eqb_spec (length l) (length l')) as [Hl|Hl]; [cbn|discriminate].
    destruct (unify_list unify l l') as [l3|e] eqn:E; [|discriminate]. intros [= <-].
    assert (H : Forall2 sub l l3 /\ Forall2 sub l' l3 /\
                forall d, Forall2 sub l d -> Forall2 sub l' d -> Forall2 sub l3 d).
    { revert l' l3 Hl E. induction IH as [|a l Ha Hf IH]; intros [|b l'] l3 Hl E; try discriminate.
      - injection E as <-. repeat split; auto.
      - cbn in E. destruct (unify a b) as [x|e] eqn:Ex; [|discriminate].
        destruct (unify_list unify l l') as [l4|e] eqn:E4; [|discriminate]. injection E as <-.
        destruct (IH l' l4) as (H1 & H2 & H3); [cbn in Hl; lia|exact E4|].
        destruct (Ha _ _ Ex) as (A1 & A2 & A3).
        split; [constructor; assumption|split; [constructor; assumption|]].
        intros d D1 D2. inversion D1; subst. inversion D2; subst. constructor; auto. }
    destruct H as (H1 & H2 & H3). split; [|split].
    + apply sub_tuple_intro. exact H1.
    + apply sub_tuple_intro. exact H2.
    + intros d D1 D2. apply sub_tuple_l in D1 as (d1 & -> & D1). apply sub_tuple_l in D2 as (d2 & [= <-] & D2).
      apply sub_tuple_intro. auto.
  - discriminate.
Qed.

Lemma joinable_unify a b : joinable a b -> exists c, unify a b = Ok c.
Proof.
  intros (d & H1 & H2). revert b d H1 H2. induction a as [t n|l IH] using stype_induction; intros b d H1 H2.
  - apply sub_scalar_l in H1 as (m & -> & H1). apply sub_scalar_r in H2 as (k & -> & H2).
    cbn. rewrite dt_eqb_refl. eauto.
  - apply sub_tuple_l in H1 as (l2 & -> & H1). apply sub_tuple_r in H2 as (l0 & -> & H2). rewrite unify_tuple.
    assert (Hl : length l = length l0)
      by (transitivity (length l2); [eapply Forall2_length; eassumption|symmetry; eapply Forall2_length; eassumption]).
    rewrite Hl, Nat.eqb_refl. cbn [negb].
    assert (E : exists l3, unify_list unify l l0 = Ok l3).
    { clear Hl. revert l2 l0 H1 H2. induction IH as [|a l Ha Hf IH]; intros l2 l0 H1 H2.
      - inversion H1; subst. inversion H2; subst. cbn. eauto.
      - inversion H1; subst. inversion H2; subst. cbn.
        edestruct Ha as [u ->]; [eassumption|eassumption|].
        edestruct IH as [l4 ->]; [eassumption|eassumption|]. eauto. }
    destruct E as [l3 ->]. eauto.
Qed.

Lemma unify_iff a b c : unify a b = Ok c <-> least_above a b c.
Proof.
  split; [apply unify_least|]. intros (H1 & H2 & H3).
  destruct (joinable_unify a b) as [c' E]; [exists c; auto|].
  destruct (unify_least _ _ _ E) as (A1 & A2 & A3). rewrite E. f_equal. apply sub_antisym; auto.
Qed.

Lemma unify_ok_iff a b : (exists c, unify a b = Ok c) <-> joinable a b.
Proof.
  split; [|apply joinable_unify]. intros (c & E). apply unify_iff in E as (H1 & H2 & _). exists c. auto.
Qed.

Lemma result_ext {A} (r1 r2 : result A unit) : (forall a, r1 = Ok a <-> r2 = Ok a) -> r1 = r2.
Proof.
  intros H. destruct r1 as [a|[]], r2 as [b|[]]; try reflexivity.
  - symmetry. apply H. reflexivity.
  - symmetry. apply H. reflexivity.
  - apply H. reflexivity.
Qed.

Lemma unify_comm_eq a b : unify a b = unify b a.
Proof. apply result_ext. intros c. rewrite !unify_iff. unfold least_above. firstorder. Qed.

Lemma unify_idem_eq a : unify a a = Ok a.
Proof. apply unify_iff. split; [apply sub_refl|split; [apply sub_refl|auto]]. Qed.

Definition bind_r {A B E} (r : result A E) (f : A -> result B E) : result B E :=
  match r with Ok a => f a | Err e => Err e end.

Definition above3 (a b c d : stype) : Prop :=
  sub a d /\ sub b d /\ sub c d /\ forall e, sub a e -> sub b e -> sub c e -> sub d e.

Lemma unify3 a b c d : bind_r (unify a b) (fun x => unify x c) = Ok d <-> above3 a b c d.
Proof.
  split.
  - destruct (unify a b) as [x|e] eqn:E; [|discriminate]. cbn. intros E2.
    apply unify_iff in E as (H1 & H2 & H3), E2 as (K1 & K2 & K3).
    split; [eapply sub_trans; eassumption|split; [eapply sub_trans; eassumption|split; [exact K2|]]]. auto.
  - intros (H1 & H2 & H3 & H4). destruct (joinable_unify a b) as [x E]; [exists d; auto|]. rewrite E. cbn.
    apply unify_iff in E as (A1 & A2 & A3). apply unify_iff.
    split; [auto|split; [exact H3|]]. intros e E1 E2. apply H4; [..|exact E2]; eapply sub_trans; eassumption.
Qed.

Lemma unify_assoc_eq a b c :
  bind_r (unify a b) (fun x => unify x c) = bind_r (unify b c) (fun x => unify a x).
Proof.
  transitivity (bind_r (unify b c) (fun x => unify x a)).
  - apply result_ext. intros d. rewrite !unify3. unfold above3. firstorder.
  - destruct (unify b c); [cbn|reflexivity]. apply unify_comm_eq.
Qed.

(** ** Compatibility *)

Lemma compat_fold_err f l1 l2 : compat_fold f (Err tt) l1 l2 = Err tt.
Proof. revert l2; induction l1 as [|a l1 IH]; intros [|b l2]; cbn; auto. Qed.

Lemma compat_fold_ok f l1 l2 : length l1 = length l2 ->
  compat_fold f (Ok false) l1 l2 = Ok false /\ Forall2 (fun a b => exists x, f a b = Ok x) l1 l2 \/
  compat_fold f (Ok false) l1 l2 = Err tt /\ ~ Forall2 (fun a b => exists x, f a b = Ok x) l1 l2.
Proof.
  revert l2; induction l1 as [|a l1 IH]; intros [|b l2] Hl; try discriminate; cbn.
  - left. auto.
  - destruct (f a b) as [x|[]] eqn:E.
    + cbn. destruct (IH l2) as [[H1 H2]|[H1 H2]]; [cbn in Hl; lia| |].
      * left. split; [exact H1|]. constructor; eauto.
      * right. split; [exact H1|]. intros H. inversion H; subst. auto.
    + right. rewrite compat_fold_err. split; [reflexivity|]. intros H. inversion H; subst. destruct H3. congruence.
Qed.

Lemma compatible_unify a b : (exists n, is_compatible a b = Ok n) <-> (exists c, unify a b = Ok c).
Proof.
  revert b. induction a as [t n|l IH] using stype_induction; intros [l'|t' n'].
  - cbn. split; intros [? ?]; discriminate.
  - cbn. destruct (dt_eqb t t'); split; intros [? ?]; eauto; discriminate.
  - rewrite unify_tuple. cbn [is_compatible]. destruct (Nat.eqb_spec (length l) (length l')) as [Hl|Hl]; cbn [negb].
    2: split; intros [? ?]; discriminate.
    assert (Hu : Forall2 (fun a b => exists x, is_compatible a b = Ok x) l l' <-> exists l3, unify_list unify l l' = Ok l3).
    { clear - IH Hl. revert l' Hl. induction IH as [|a l Ha Hf IH]; intros [|b l'] Hl; try discriminate.
      - cbn. split; eauto.
      - cbn. split.
        + intros H. inversion H; subst. apply Ha in H3 as [x ->]. apply IH in H5 as [l3 ->]; [eauto|cbn in Hl; lia].
        + destruct (unify a b) as [x|e] eqn:E; [|intros [? ?]; discriminate].
          destruct (unify_list unify l l') as [l3|e] eqn:E3; [|intros [? ?]; discriminate]. intros _.
          constructor; [apply Ha; eauto|]. apply IH; [cbn in Hl; lia|eauto]. }
    destruct (compat_fold_ok is_compatible l l' Hl) as [[H1 H2]|[H1 H2]].
    + rewrite H1. apply Hu in H2 as [l3 ->]. split; eauto.
    + rewrite H1. split; [intros [? ?]; discriminate|].
      destruct (unify_list unify l l') eqn:E; [|intros [? ?]; discriminate]. intros _. exfalso. apply H2, Hu. eauto.
  - cbn. split; intros [? ?]; discriminate.
Qed.

Lemma compatible_tuple_false l1 l2 n : is_compatible (TyTuple l1) (TyTuple l2) = Ok n -> n = false.
Proof.
  cbn. destruct (Nat.eqb_spec (length l1) (length l2)) as [Hl|Hl]; [cbn|discriminate].
  destruct (compat_fold_ok is_compatible l1 l2 Hl) as [[-> _]|[-> _]]; congruence.
Qed.

Lemma compatible_scalar t1 n1 t2 n2 n :
  is_compatible (TyScalar t1 n1) (TyScalar t2 n2) = Ok n <-> t1 = t2 /\ n = n1 || n2.
Proof.
  cbn. destruct (dt_eqb t1 t2) eqn:E.
  - apply dt_eqb_eq in E. split; [intros [= <-]; auto|intros [_ ->]; reflexivity].
  - split; [discriminate|]. intros [-> _]. rewrite dt_eqb_refl in E. discriminate.
Qed.
