(** * General facts about lists: sorting, pairs, indices *)

From Coq Require Import Permutation Sorted ZifyBool ZifyNat.
From Verif Require Import Base BaseFacts TypesModel MarshalModel.

(** ** Sorting *)

Lemma insert_desc_perm {A} (less : A -> A -> bool) a l : Permutation (insert_desc less a l) (a :: l).
Proof.
  induction l as [|b l IH]; cbn [insert_desc]; [reflexivity|].
  destruct (less a b); [|reflexivity].
  rewrite IH. apply perm_swap.
Qed.

Lemma sort_desc_perm {A} (less : A -> A -> bool) l : Permutation (sort_desc less l) l.
Proof.
  induction l as [|a l IH]; cbn [sort_desc]; [reflexivity|].
  rewrite insert_desc_perm. constructor. exact IH.
Qed.

Section Sorted.
Context {A : Type} (less : A -> A -> bool).
Hypothesis trans : forall a b c, less a b = false -> less b c = false -> less a c = false.
Hypothesis total : forall a b, less a b = true -> less b a = false.
Let ge a b := less a b = false.

Lemma insert_desc_sorted a l : StronglySorted ge l -> StronglySorted ge (insert_desc less a l).
Proof.
  induction l as [|b l IH]; intros H; cbn [insert_desc].
  - constructor; constructor.
  - inversion H as [|? ? Hl Hb]; subst. destruct (less a b) eqn:E.
    + constructor; [apply IH; exact Hl|]. rewrite Forall_forall in *. intros x Hx.
      apply (Permutation_in _ (insert_desc_perm less a l)) in Hx. destruct Hx as [<-|Hx].
      * apply total. exact E.
      * apply Hb. exact Hx.
    + constructor; [exact H|]. constructor; [exact E|]. rewrite Forall_forall in *. intros x Hx.
      apply (trans a b x E). apply Hb. exact Hx.
Qed.

Lemma sort_desc_sorted l : StronglySorted ge (sort_desc less l).
Proof.
  induction l as [|a l IH]; cbn [sort_desc]; [constructor|]. apply insert_desc_sorted. exact IH.
Qed.
End Sorted.

Lemma sort_desc_key {A} (key : A -> nat) l :
  StronglySorted (fun a b => key b <= key a) (sort_desc (fun a b => key a <? key b) l).
Proof.
  assert (H : StronglySorted (fun a b => (key a <? key b) = false) (sort_desc (fun a b => key a <? key b) l)).
  { apply sort_desc_sorted; cbv beta; intros; lia. }
  induction H as [|a l' Hs IH Hf]; constructor; [exact IH|].
  eapply Forall_impl; [|exact Hf]. cbv beta. intros; lia.
Qed.

(** ** Ordered pairs *)

Lemma FOP_impl {A} (R S : A -> A -> Prop) l :
  (forall a b, In a l -> In b l -> R a b -> S a b) -> ForallOrdPairs R l -> ForallOrdPairs S l.
Proof.
  intros H HF. induction HF as [|a l Ha Hl IH]; constructor.
  - rewrite Forall_forall in *. intros x Hx. apply H; [left; reflexivity|right; exact Hx|apply Ha; exact Hx].
  - apply IH. intros x y Hx Hy. apply H; right; assumption.
Qed.

Lemma FOP_filter {A} (R : A -> A -> Prop) f l : ForallOrdPairs R l -> ForallOrdPairs R (filter f l).
Proof.
  induction 1 as [|a l Ha Hl IH]; cbn [filter]; [constructor|]. destruct (f a); [|exact IH].
  constructor; [|exact IH]. rewrite Forall_forall in *. intros x Hx. apply filter_In in Hx. apply Ha. tauto.
Qed.

Lemma FOP_app {A} (R : A -> A -> Prop) l m :
  ForallOrdPairs R l -> ForallOrdPairs R m -> (forall a b, In a l -> In b m -> R a b) -> ForallOrdPairs R (l ++ m).
Proof.
  intros Hl Hm H. induction Hl as [|a l Ha Hl IH]; cbn [app]; [exact Hm|]. constructor.
  - rewrite Forall_forall in *. intros x Hx. apply in_app_or in Hx. destruct Hx as [Hx|Hx].
    + apply Ha. exact Hx.
    + apply H; [left; reflexivity|exact Hx].
  - apply IH. intros x y Hx Hy. apply H; [right; exact Hx|exact Hy].
Qed.

Lemma FOP_nth {A} (R : A -> A -> Prop) l :
  ForallOrdPairs R l <-> (forall i j a b, i < j -> nth_error l i = Some a -> nth_error l j = Some b -> R a b).
Proof.
  split.
  - intros H. induction H as [|x l Hx Hl IH]; intros i j a b Hij Ha Hb.
    + destruct i; discriminate.
    + destruct j as [|j]; [lia|]. cbn [nth_error] in Hb. destruct i as [|i]; cbn [nth_error] in Ha.
      * injection Ha as <-. rewrite Forall_forall in Hx. apply Hx. eapply nth_error_In. exact Hb.
      * eapply IH; [|exact Ha|exact Hb]. lia.
  - induction l as [|x l IH]; intros H; constructor.
    + rewrite Forall_forall. intros y Hy. apply In_nth_error in Hy as [n Hn].
      apply (H 0 (S n)); [lia|reflexivity|exact Hn].
    + apply IH. intros i j a b Hij Ha Hb. apply (H (S i) (S j)); [lia|exact Ha|exact Hb].
Qed.

Lemma FOP_In {A} (R : A -> A -> Prop) l a b :
  (forall x y, R x y -> R y x) -> ForallOrdPairs R l -> In a l -> In b l -> a <> b -> R a b.
Proof.
  intros Hsym H Ha Hb Hne. destruct (ForallOrdPairs_In H a b Ha Hb) as [E|[Hr|Hr]]; auto. congruence.
Qed.

Lemma StronglySorted_FOP {A} (R : A -> A -> Prop) l : StronglySorted R l -> ForallOrdPairs R l.
Proof. induction 1; constructor; assumption. Qed.

Lemma FOP_StronglySorted {A} (R : A -> A -> Prop) l : ForallOrdPairs R l -> StronglySorted R l.
Proof. induction 1; constructor; assumption. Qed.

(** ** NoDup and permutation *)

Lemma NoDup_filter {A} (f : A -> bool) l : NoDup l -> NoDup (filter f l).
Proof.
  induction 1 as [|a l Ha Hl IH]; cbn [filter]; [constructor|]. destruct (f a); [|exact IH].
  constructor; [|exact IH]. intros H. apply filter_In in H. tauto.
Qed.

Lemma NoDup_map_filter {A B} (g : A -> B) (f : A -> bool) l : NoDup (map g l) -> NoDup (map g (filter f l)).
Proof.
  induction l as [|a l IH]; cbn [map filter]; intros H; [constructor|].
  inversion H as [|? ? Ha Hl]; subst. destruct (f a); [|apply IH; exact Hl].
  cbn [map]. constructor; [|apply IH; exact Hl].
  intros Hin. apply Ha. apply in_map_iff in Hin as (x & Hx & Hin). apply filter_In in Hin.
  apply in_map_iff. exists x. tauto.
Qed.

Lemma NoDup_app_intro {A} (l m : list A) : NoDup l -> NoDup m -> (forall a, In a l -> ~ In a m) -> NoDup (l ++ m).
Proof.
  intros Hl Hm H. induction Hl as [|a l Ha Hl IH]; cbn [app]; [exact Hm|]. constructor.
  - intros Hin. apply in_app_or in Hin as [Hin|Hin]; [tauto|]. apply (H a); [left; reflexivity|exact Hin].
  - apply IH. intros x Hx. apply H. right. exact Hx.
Qed.

Lemma Forall2_impl' {A B} (R S : A -> B -> Prop) l m :
  (forall a b, R a b -> S a b) -> Forall2 R l m -> Forall2 S l m.
Proof. intros H. induction 1; constructor; auto. Qed.

Lemma Forall2_perm_l {A B} (R : A -> B -> Prop) l m m' :
  Forall2 R l m -> Permutation m m' -> exists l', Permutation l l' /\ Forall2 R l' m'.
Proof.
  intros H HP. revert l H. induction HP as [|x m m' HP IH|x y m|m m1 m2 HP1 IH1 HP2 IH2]; intros l H.
  - inversion H; subst. exists []. split; [reflexivity|constructor].
  - inversion H as [|a ? l0 ? Ha Hl]; subst. destruct (IH _ Hl) as (l' & Hp & Hf).
    exists (a :: l'). split; [constructor; exact Hp|constructor; assumption].
  - inversion H as [|a ? l0 ? Ha Hl]; subst. inversion Hl as [|b ? l1 ? Hb Hl1]; subst.
    exists (b :: a :: l1). split; [apply perm_swap|]. constructor; [assumption|constructor; assumption].
  - destruct (IH1 _ H) as (l1 & Hp1 & Hf1). destruct (IH2 _ Hf1) as (l2 & Hp2 & Hf2).
    exists l2. split; [etransitivity; eassumption|exact Hf2].
Qed.

Lemma Forall2_nth_l {A B} (R : A -> B -> Prop) l m i a :
  Forall2 R l m -> nth_error l i = Some a -> exists b, nth_error m i = Some b /\ R a b.
Proof.
  intros H. revert i. induction H as [|x y l m Hr H IH]; intros [|i] Hi; try discriminate.
  - injection Hi as <-. exists y. split; [reflexivity|exact Hr].
  - apply IH. exact Hi.
Qed.

Lemma Forall2_nth_r {A B} (R : A -> B -> Prop) l m i b :
  Forall2 R l m -> nth_error m i = Some b -> exists a, nth_error l i = Some a /\ R a b.
Proof.
  intros H. revert i. induction H as [|x y l m Hr H IH]; intros [|i] Hi; try discriminate.
  - injection Hi as <-. exists x. split; [reflexivity|exact Hr].
  - apply IH. exact Hi.
Qed.

Lemma Forall2_in_r {A B} (R : A -> B -> Prop) l m b : Forall2 R l m -> In b m -> exists a, In a l /\ R a b.
Proof.
  intros H Hin. apply In_nth_error in Hin as [i Hi]. destruct (Forall2_nth_r _ _ _ _ _ H Hi) as (a & Ha & Hr).
  exists a. split; [eapply nth_error_In; exact Ha|exact Hr].
Qed.

Lemma Forall2_in_l {A B} (R : A -> B -> Prop) l m a : Forall2 R l m -> In a l -> exists b, In b m /\ R a b.
Proof.
  intros H Hin. apply In_nth_error in Hin as [i Hi]. destruct (Forall2_nth_l _ _ _ _ _ H Hi) as (b & Hb & Hr).
  exists b. split; [eapply nth_error_In; exact Hb|exact Hr].
Qed.

Lemma NoDup_map_inj {A B} (g : A -> B) l a b : NoDup (map g l) -> In a l -> In b l -> g a = g b -> a = b.
Proof.
  induction l as [|x l IH]; cbn [map]; intros Hn Ha Hb E; [destruct Ha|].
  inversion Hn as [|? ? Hx Hl]; subst. destruct Ha as [<-|Ha], Hb as [<-|Hb]; auto.
  - exfalso. apply Hx. rewrite E. apply in_map. exact Hb.
  - exfalso. apply Hx. rewrite <- E. apply in_map. exact Ha.
Qed.

(** ** Indices *)

Lemma nth_error_snoc_l {A} (l : list A) x i : i < length l -> nth_error (l ++ [x]) i = nth_error l i.
Proof. intros H. apply nth_error_app1. exact H. Qed.

Lemma nth_error_snoc_r {A} (l : list A) x : nth_error (l ++ [x]) (length l) = Some x.
Proof. rewrite nth_error_app2 by lia. rewrite Nat.sub_diag. reflexivity. Qed.

Lemma update_length {A} (l : list A) i f : length (update l i f) = length l.
Proof. revert i. induction l as [|a l IH]; intros [|i]; cbn [update length]; auto. Qed.

Lemma nth_error_update {A} (l : list A) i f j :
  nth_error (update l i f) j = if j =? i then option_map f (nth_error l j) else nth_error l j.
Proof.
  revert i j. induction l as [|a l IH]; intros i j.
  - cbn [update]. destruct (j =? i); destruct j; reflexivity.
  - destruct i as [|i]; destruct j as [|j]; cbn [update nth_error Nat.eqb option_map]; try reflexivity. apply IH.
Qed.

Lemma map_update {A B} (g : A -> B) l i f : (forall a, g (f a) = g a) -> map g (update l i f) = map g l.
Proof.
  intros H. revert i. induction l as [|a l IH]; intros [|i]; cbn [update map]; [reflexivity|reflexivity| |].
  - rewrite H. reflexivity.
  - rewrite IH. reflexivity.
Qed.

Lemma pick_nth {A B} (f : A -> outcome B) l i :
  pick f l i = match nth_error l i with Some a => f a | None => Panic end.
Proof. revert i. induction l as [|a l IH]; intros [|i]; cbn [pick nth_error]; auto. Qed.

Lemma members_length {A B} (f : A -> path -> outcome B) l q k r : members f l q k = Ret r -> length r = length l.
Proof.
  revert k r. induction l as [|a l IH]; intros k r H; cbn [members] in H.
  - injection H as <-. reflexivity.
  - inv_bind H. inv_bind H. injection H as <-. cbn [length]. f_equal. eapply IH. eassumption.
Qed.

Lemma members_nth {A B} (f : A -> path -> outcome B) l q k r i b :
  members f l q k = Ret r -> nth_error r i = Some b -> exists a, nth_error l i = Some a /\ f a (q ++ [k + i]) = Ret b.
Proof.
  revert k r i. induction l as [|a l IH]; intros k r i H Hi; cbn [members] in H.
  - injection H as <-. destruct i; discriminate.
  - inv_bind H. inv_bind H. injection H as <-. destruct i as [|i]; cbn [nth_error] in Hi |- *.
    + injection Hi as <-. exists a. rewrite Nat.add_0_r. split; [reflexivity|assumption].
    + destruct (IH _ _ _ Ha0 Hi) as (a' & H1 & H2). exists a'. split; [exact H1|].
      replace (k + S i) with (S k + i) by lia. exact H2.
Qed.

Lemma members_nth_l {A B} (f : A -> path -> outcome B) l q k r i a :
  members f l q k = Ret r -> nth_error l i = Some a -> exists b, nth_error r i = Some b /\ f a (q ++ [k + i]) = Ret b.
Proof.
  intros H Hi. assert (Hlt : i < length r).
  { rewrite (members_length _ _ _ _ _ H). apply nth_error_Some. congruence. }
  destruct (nth_error r i) as [b|] eqn:E; [|apply nth_error_None in E; lia].
  destruct (members_nth _ _ _ _ _ _ _ H E) as (a' & H1 & H2). exists b. split; [reflexivity|]. congruence.
Qed.

Lemma members_ext {A B} (f g : A -> path -> outcome B) l q k :
  (forall a q', In a l -> f a q' = g a q') -> members f l q k = members g l q k.
Proof.
  revert k. induction l as [|a l IH]; intros k H; cbn [members]; [reflexivity|].
  rewrite H by (left; reflexivity). destruct (g a (q ++ [k])); cbn [bind]; [|reflexivity|reflexivity].
  rewrite IH; [reflexivity|]. intros b q' Hb. apply H. right. exact Hb.
Qed.
