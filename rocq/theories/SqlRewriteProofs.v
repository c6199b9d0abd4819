(** * Rewriting and types *)

From Coq Require Import Sorting.Permutation.
From Verif Require Import Base SqlNameModel SqlNameProofs SqlModel SqlSpec SqlStmtSpec SqlFromSpec SqlColumnsSpec SqlSafeSpec SqlRules SqlInd SqlMessageBase
  SqlRewriteSpec SqlRewriteInd.

Lemma any_perm l l' : Permutation l l' -> any l = any l'.
Proof.
  unfold any. induction 1; cbn; [reflexivity|congruence| |congruence].
  destruct x, y; reflexivity.
Qed.

Lemma perm_filter {A} (f : A -> bool) l l' : Permutation l l' -> Permutation (filter f l) (filter f l').
Proof.
  induction 1; cbn.
  - constructor.
  - destruct (f x); [constructor|]; assumption.
  - destruct (f x), (f y); repeat constructor; apply Permutation_refl.
  - eapply perm_trans; eassumption.
Qed.

Lemma Forall2_imp {A B} (R Q : A -> B -> Prop) : (forall a b, R a b -> Q a b) -> forall l m, Forall2 R l m -> Forall2 Q l m.
Proof. intros K l m F. induction F; constructor; auto. Qed.

Lemma Forall2_perm {A B} (R : A -> B -> Prop) l l' (P : Permutation l l') : forall m, Forall2 R l m ->
  exists m', Permutation m m' /\ Forall2 R l' m'.
Proof.
  induction P; intros m F.
  - inversion F; subst. exists []. split; constructor.
  - inversion F as [|? b ? m1 R1 F1]; subst. destruct (IHP _ F1) as (m' & P' & F'). exists (b :: m'). split; constructor; assumption.
  - inversion F as [|? b ? m1 R1 F1]; subst. inversion F1 as [|? b' ? m2 R2 F2]; subst. exists (b' :: b :: m2).
    split; [constructor|]. constructor; [exact R2|]. constructor; assumption.
  - destruct (IHP1 _ F) as (m1 & P1' & F1). destruct (IHP2 _ F1) as (m2 & P2' & F2). exists m2.
    split; [eapply perm_trans; eassumption|exact F2].
Qed.

(** Relating the elements of two lists to those of a third. *)
Lemma Forall2_swap {A B} (Q : A -> A -> Prop) (R : A -> B -> Prop) :
  (forall a a' b, Q a a' -> R a b -> R a' b) -> forall l l', Forall2 Q l l' -> forall m, Forall2 R l m -> Forall2 R l' m.
Proof.
  intros K l l' F. induction F; intros m G; inversion G; subst; constructor; eauto.
Qed.

Lemma Forall2_back {A} (Q : A -> A -> Prop) l l' : Forall2 Q l l' -> Forall2 (fun a b => Q b a) l' l.
Proof. induction 1; constructor; assumption. Qed.

Lemma Forall_swap {A} (Q : A -> A -> Prop) (R : A -> Prop) :
  (forall a a', Q a a' -> R a -> R a') -> forall l l', Forall2 Q l l' -> Forall R l -> Forall R l'.
Proof. intros K l l' F. induction F; intros G; inversion G; subst; constructor; eauto. Qed.

Lemma opt_swap {A} (Q : A -> A -> Prop) (R : A -> Prop) :
  (forall a a', Q a a' -> R a -> R a') -> forall o o', both Q o o' -> opt R o -> opt R o'.
Proof. intros K o o' B H. inversion B; subst; [exact H|]. inversion H; subst. constructor. eauto. Qed.

Lemma both_back {A} (Q : A -> A -> Prop) o o' : both Q o o' -> both (fun a b => Q b a) o' o.
Proof. intros [|a b H]; constructor; exact H. Qed.

(** ** Scopes in another order *)

Section Rewriting.
Context (up : Z -> list Z) (table : list name -> list attribute -> Prop).
Notation same := (name_eqb up).
Notation typed := (typed up table).
Notation selects := (selects up table).

Lemma distinct_perm l l' : Permutation l l' -> distinct up l -> distinct up l'.
Proof.
  unfold distinct. induction 1; intros D.
  - constructor.
  - inversion D; subst. constructor; [|auto]. eapply Permutation_Forall; eassumption.
  - inversion D as [|? ? F1 D1]; subst. inversion D1 as [|? ? F2 D2]; subst. inversion F1; subst.
    constructor; [constructor; [rewrite name_eqb_sym; assumption|assumption]|]. constructor; assumption.
  - auto.
Qed.

Lemma refers_perm rels rels' q t : Permutation rels rels' -> refers up rels q t -> refers up rels' q t.
Proof.
  intros P. destruct q as [|a [|b [|? ?]]]; cbn; try tauto.
  - intros (F & c & N & E). split; [eapply Permutation_Forall; eassumption|]. exists c. split; [|exact E].
    assert (P' : Permutation (named up a (flat_map snd rels)) (named up a (flat_map snd rels'))).
    { unfold named. apply perm_filter. apply Permutation_flat_map. exact P. }
    rewrite N in P'. apply Permutation_length_1_inv in P'. exact P'.
  - intros (n & attrs & c & I & H). exists n, attrs, c. split; [eapply Permutation_in; eassumption|exact H].
Qed.

Definition moves (e : expr) : Prop :=
  forall rels rels' t, Permutation rels rels' -> typed rels e t -> typed rels' e t.

Lemma Forall2_moves {A B} (R : A -> B -> Prop) (R' : A -> B -> Prop) l m :
  Forall (fun a => forall b, R a b -> R' a b) l -> Forall2 R l m -> Forall2 R' l m.
Proof. intros F G. induction G; constructor; inversion F; subst; auto. Qed.

Lemma all_move : (forall e, moves e) /\ (forall s rels rels' d m, Permutation rels rels' ->
  members_typed up table rels s d m -> members_typed up table rels' s d m).
Proof.
  pose (PSP := fun s => forall rels rels' d m, Permutation rels rels' -> members_typed up table rels s d m -> members_typed up table rels' s d m).
  destruct (sql_induction moves PSP (fun _ => True) (fun _ => True) (fun _ => True) (fun _ => True) (fun _ => True) (fun _ => True))
    as (A & B & _); try (intros; exact I); [..|exact (conj A B)].
  - intros l rels rels' t P H. inversion H; subst. constructor.
  - intros q rels rels' t P H. inversion H; subst. constructor. eapply refers_perm; eassumption.
  - intros es F rels rels' t P H. inversion H; subst. constructor.
    eapply Forall2_moves; [|eassumption]. eapply Forall_impl; [|exact F]. intros e M b; apply M; exact P.
  - intros s _ rels rels' t P H. inversion H; subst. constructor. assumption.
  - intros op e M rels rels' t P H. inversion H; subst. econstructor; [eapply M; eassumption|assumption].
  - intros op l r Ml Mr rels rels' t P H. inversion H; subst. econstructor; [eapply Ml; eassumption|eapply Mr; eassumption|assumption].
  - intros op l r Ml Mr rels rels' t P H. inversion H; subst. econstructor; [eapply Ml; eassumption|eapply Mr; eassumption|assumption].
  - intros e s Me Ms rels rels' t P H. inversion H; subst. econstructor; [eapply Me; eassumption|eapply Ms; eassumption|assumption].
  - intros e lo hi M1 M2 M3 rels rels' t P H. inversion H; subst.
    econstructor; [eapply M1; eassumption|eapply M2; eassumption|eapply M3; eassumption|assumption].
  - intros o whens els Mo Mw Me rels rels' t P H. inversion H as [| | | | | | |? ? ? ? d ns m N O F X| |]; subst. constructor; [exact N| | |].
    + destruct O as [|e0 [t0 O]]; constructor. exists t0. eapply Mo; eassumption.
    + eapply Forall2_moves; [|exact F]. eapply Forall_impl; [|exact Mw]. intros w [_ M] n; apply M; exact P.
    + inversion X; subst; constructor. eapply Me; eassumption.
  - intros s _ rels rels' d m P H. inversion H; subst. constructor. assumption.
  - intros es F rels rels' d m P H. inversion H; subst. constructor; [assumption|].
    eapply Forall2_moves; [|eassumption]. eapply Forall_impl; [|exact F]. intros e M n; apply M; exact P.
  - intros q rels rels' d m P H. inversion H; subst. constructor. assumption.
Qed.

Definition typed_perm e : moves e := proj1 all_move e.

Lemma columns_perm rels rels' attrs attrs' l reqs : Permutation rels rels' ->
  columns_typed up table rels attrs (RList l) reqs -> columns_typed up table rels' attrs' (RList l) reqs.
Proof.
  intros P H. inversion H as [|? ? ? reqs' F]; subst. constructor. eapply Forall2_imp; [|exact F].
  intros k r K. inversion K; subst; [constructor; eapply typed_perm; eassumption|].
  econstructor; [eapply Permutation_in; eassumption|eassumption|eassumption].
Qed.

(** ** Operators *)

Lemma typed_binary rels op a b t : typed rels (EBinary op a b) t <-> exists t1 t2, typed rels a t1 /\ typed rels b t2 /\ binary_rule op t1 t2 t.
Proof.
  split; [intros H; inversion H; subst; eauto|]. intros (t1 & t2 & H1 & H2 & H3). econstructor; eassumption.
Qed.

Lemma typed_unary rels op a t : typed rels (EUnary op a) t <-> exists t1, typed rels a t1 /\ unary_rule op t1 t.
Proof.
  split; [intros H; inversion H; subst; eauto|]. intros (t1 & H1 & H3). econstructor; eassumption.
Qed.

Lemma typed_compare rels op a b t : typed rels (ECompare op a b) t <-> exists t1 t2, typed rels a t1 /\ typed rels b t2 /\ compare_rule op t1 t2 t.
Proof.
  split; [intros H; inversion H; subst; eauto|]. intros (t1 & t2 & H1 & H2 & H3). econstructor; eassumption.
Qed.

(** The data type an operator works on. *)
Definition works_on (op : binary_op) : data_type :=
  match op with BMultiply | BDivide | BAdd | BSubtract => DNumeric | BConcat => DVarchar | BAnd | BOr => DLogical end.

Lemma binary_works op t1 t2 t : binary_rule op t1 t2 t <->
  exists n m, t1 = TyScalar (works_on op) n /\ t2 = TyScalar (works_on op) m /\ t = TyScalar (works_on op) (n || m).
Proof.
  split.
  - intros H. destruct H as [op n m H|n m|op n m H]; exists n, m; cbn in H || idtac;
      repeat (destruct H as [<-|H]; [auto|]); try contradiction; auto.
  - intros (n & m & -> & -> & ->). destruct op; constructor; cbn; tauto.
Qed.

Lemma binary_typed rels op a b t : typed rels (EBinary op a b) t <->
  exists n m, typed rels a (TyScalar (works_on op) n) /\ typed rels b (TyScalar (works_on op) m) /\
              t = TyScalar (works_on op) (n || m).
Proof.
  rewrite typed_binary. split.
  - intros (t1 & t2 & H1 & H2 & H). apply binary_works in H. destruct H as (n & m & -> & -> & ->). eauto.
  - intros (n & m & H1 & H2 & ->). exists (TyScalar (works_on op) n), (TyScalar (works_on op) m). split; [exact H1|].
    split; [exact H2|]. apply binary_works. eauto.
Qed.

Lemma not_typed rels a t : typed rels (EUnary UNot a) t <-> exists n, typed rels a (TyScalar DLogical n) /\ t = TyScalar DLogical n.
Proof.
  rewrite typed_unary. split.
  - intros (t1 & H1 & H). inversion H; subst. eauto.
  - intros (n & H & ->). eexists. split; [exact H|constructor].
Qed.

Lemma negate_typed rels a t : typed rels (EUnary UNegate a) t <-> exists n, typed rels a (TyScalar DNumeric n) /\ t = TyScalar DNumeric n.
Proof.
  rewrite typed_unary. split.
  - intros (t1 & H1 & H). inversion H; subst. eauto.
  - intros (n & H & ->). eexists. split; [exact H|constructor].
Qed.

Lemma compare_logical op t1 t2 t : compare_rule op t1 t2 t -> exists n, t = TyScalar DLogical n.
Proof. intros H. destruct H; eauto. Qed.

Lemma Forall2_alike_sym ts us : Forall2 alike ts us -> Forall2 alike us ts.
Proof. induction 1; constructor; [apply alike_sym|]; assumption. Qed.

Lemma compare_flip op op' t1 t2 t : flipped op op' -> compare_rule op t1 t2 t -> compare_rule op' t2 t1 t.
Proof.
  intros F H. destruct H as [op d n m I|op ts us I G|op d n m I O|n m].
  - rewrite orb_comm. apply cr_equal. destruct F; cbn in *; tauto || (repeat destruct I as [I|I]; discriminate || contradiction).
  - apply cr_rows; [|apply Forall2_alike_sym; exact G].
    destruct F; cbn in *; tauto || (repeat destruct I as [I|I]; discriminate || contradiction).
  - rewrite orb_comm. apply cr_order; [|exact O].
    destruct F; cbn in *; tauto || (repeat destruct I as [I|I]; discriminate || contradiction).
  - inversion F.
Qed.

Lemma compare_opposite op op' t1 t2 t : opposite op op' -> compare_rule op t1 t2 t -> compare_rule op' t1 t2 t.
Proof.
  intros F H. destruct H as [op d n m I|op ts us I G|op d n m I O|n m].
  - apply cr_equal. destruct F; cbn in *; tauto || (repeat destruct I as [I|I]; discriminate || contradiction).
  - apply cr_rows; [|exact G].
    destruct F; cbn in *; tauto || (repeat destruct I as [I|I]; discriminate || contradiction).
  - apply cr_order; [|exact O].
    destruct F; cbn in *; tauto || (repeat destruct I as [I|I]; discriminate || contradiction).
  - inversion F.
Qed.

Lemma flipped_back op op' : flipped op op' -> flipped op' op.
Proof. intros []; constructor. Qed.
Lemma opposite_back op op' : opposite op op' -> opposite op' op.
Proof. intros []; constructor. Qed.
End Rewriting.
