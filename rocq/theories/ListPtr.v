(** * Proofs about the buffer lists *)

From Verif Require Import Base BaseFacts ListFacts StorageModel StorageSpec.
From Coq Require Import ZifyBool ZifyNat ZifyN.
Local Open Scope nat_scope.

Definition first (l : list nat) : Z := match l with [] => nil_index | x :: _ => Z.of_nat x end.

(** The links of the members of [l], member by member. *)
Definition linked (ls : list link) (l : list nat) : Prop :=
  forall l1 x l2, l = l1 ++ x :: l2 -> nth_error ls x = Some {| prev := first (rev l1); next := first l2 |}.

Lemma follows_start f ls s l : follows f ls s l -> s = first l.
Proof. destruct l; cbn; [auto|intros [? _]; auto]. Qed.

Lemma follows_split f ls l1 : forall s x l2, follows f ls s (l1 ++ x :: l2) ->
  exists k, nth_error ls x = Some k /\ f k = first l2.
Proof.
  induction l1 as [|y l1 IH]; cbn; intros s x l2.
  - intros [_ [k [Hk F]]]. exists k. split; [exact Hk|]. eapply follows_start; eauto.
  - intros [_ [k [Hk F]]]. eapply IH; eauto.
Qed.

Lemma threads_linked ls h l :
  threads ls h l <-> h_head h = first l /\ h_tail h = first (rev l) /\ linked ls l.
Proof.
  split.
  - intros [F B]. split; [eapply follows_start; eauto|]. split; [eapply follows_start; eauto|].
    intros l1 x l2 ->.
    destruct (follows_split _ _ _ _ _ _ F) as [k [Hk Hn]].
    rewrite rev_app_distr in B. cbn in B. rewrite <- app_assoc in B. cbn in B.
    destruct (follows_split _ _ _ _ _ _ B) as [k' [Hk' Hp]].
    rewrite Hk in Hk'. injection Hk' as <-. rewrite Hk. destruct k as [pk nk]. cbn in *. now subst.
  - intros [Hh [Ht L]].
    assert (Fw : forall m2 m1, l = m1 ++ m2 -> follows next ls (first m2) m2).
    { induction m2 as [|x m2 IH]; cbn; intros m1 E; [reflexivity|].
      split; [reflexivity|]. eexists. split; [apply (L _ _ _ E)|]. cbn.
      apply (IH (m1 ++ [x])). now rewrite <- app_assoc. }
    assert (Bw : forall m1 m2, l = m1 ++ m2 -> follows prev ls (first (rev m1)) (rev m1)).
    { intros m1. induction m1 as [|x m1 IH] using rev_ind; intros m2 E; [reflexivity|].
      rewrite rev_app_distr. cbn. split; [reflexivity|].
      rewrite <- app_assoc in E. cbn in E.
      eexists. split; [apply (L _ _ _ E)|]. cbn. eapply IH; eauto. }
    split; [rewrite Hh; now apply (Fw l [])|rewrite Ht; apply (Bw l []); now rewrite app_nil_r].
Qed.

Lemma first_app a b : first (a ++ b) = match a with [] => first b | x :: _ => Z.of_nat x end.
Proof. now destruct a. Qed.

(** ** Reads and writes *)

Lemma get_nat {A} (l : list A) i : get l (Z.of_nat i) = match nth_error l i with Some a => Ret a | None => Panic end.
Proof. unfold get. now rewrite Nat2Z.id. Qed.

Lemma set_nth {A} (l l' : list A) i a : set l (Z.of_nat i) a = Ret l' ->
  length l' = length l /\ (forall j, nth_error l' j = if j =? i then Some a else nth_error l j) /\ i < length l.
Proof.
  unfold set. rewrite Nat2Z.id. destruct (Nat.ltb_spec i (length l)) as [H|]; [|discriminate]. intros E.
  apply (f_equal (fun x => match x with Ret q => q | _ => l end)) in E. cbv beta iota in E. subst l'.
  split; [|split; [|exact H]].
  - rewrite app_length. cbn [length]. rewrite firstn_length, skipn_length. lia.
  - intros j. destruct (Nat.eqb_spec j i) as [->|N].
    + rewrite nth_error_app2 by (rewrite firstn_length; lia).
      rewrite firstn_length. replace (i - Nat.min i (length l)) with 0 by lia. reflexivity.
    + destruct (Nat.lt_ge_cases j i) as [L|L].
      * rewrite nth_error_app1 by (rewrite firstn_length; lia).
        rewrite nth_error_firstn. destruct (Nat.ltb_spec j i); [reflexivity|lia].
      * rewrite nth_error_app2 by (rewrite firstn_length; lia).
        rewrite firstn_length. replace (j - Nat.min i (length l)) with (S (j - i - 1)) by lia.
        cbn [nth_error]. rewrite nth_error_skipn. f_equal. lia.
Qed.

Lemma set_ok {A} (l : list A) i a : i < length l -> exists l', set l (Z.of_nat i) a = Ret l'.
Proof. intros H. unfold set. rewrite Nat2Z.id. destruct (Nat.ltb_spec i (length l)); [eauto|lia]. Qed.

Lemma set_next_ok ls i k n : nth_error ls i = Some k ->
  exists ls', set_next ls (Z.of_nat i) n = Ret ls' /\ length ls' = length ls /\
    forall j, nth_error ls' j = if j =? i then Some {| prev := prev k; next := n |} else nth_error ls j.
Proof.
  intros H. unfold set_next. rewrite get_nat, H. cbn [bind].
  assert (L : i < length ls) by (apply nth_error_Some; congruence).
  destruct (set_ok ls i {| prev := prev k; next := n |} L) as [ls' E]. rewrite E.
  destruct (set_nth _ _ _ _ E) as [A [B _]]. eauto.
Qed.

Lemma set_prev_ok ls i k n : nth_error ls i = Some k ->
  exists ls', set_prev ls (Z.of_nat i) n = Ret ls' /\ length ls' = length ls /\
    forall j, nth_error ls' j = if j =? i then Some {| prev := n; next := next k |} else nth_error ls j.
Proof.
  intros H. unfold set_prev. rewrite get_nat, H. cbn [bind].
  assert (L : i < length ls) by (apply nth_error_Some; congruence).
  destruct (set_ok ls i {| prev := n; next := next k |} L) as [ls' E]. rewrite E.
  destruct (set_nth _ _ _ _ E) as [A [B _]]. eauto.
Qed.

Lemma small_index (ls : list link) x : (Z.of_nat (length ls) <= nil_index)%Z -> x < length ls ->
  (Z.of_nat x =? nil_index)%Z = false.
Proof. intros. lia. Qed.

Lemma linked_lt ls l x : linked ls l -> In x l -> x < length ls.
Proof.
  intros L H. apply in_split in H as [l1 [l2 E]]. apply nth_error_Some. rewrite (L _ _ _ E). discriminate.
Qed.

(** ** Adding at the front *)

Lemma push_front_ok ls h l x :
  (Z.of_nat (length ls) <= nil_index)%Z ->
  threads ls h l -> NoDup l -> ~ In x l -> nth_error ls x = Some link_default ->
  exists h' ls', list_push_front h ls (Z.of_nat x) = Ret (h', ls') /\ threads ls' h' (x :: l) /\
    length ls' = length ls /\ (forall j, j <> x -> ~ In j l -> nth_error ls' j = nth_error ls j).
Proof.
  intros Hn T ND Hx D. apply threads_linked in T as [Hh [Ht L]].
  assert (Lx : x < length ls) by (apply nth_error_Some; congruence).
  unfold list_push_front. rewrite get_nat, D. cbn [bind link_default prev next].
  rewrite Z.eqb_refl. destruct l as [|y l].
  - cbn in Hh, Ht. rewrite Hh, Ht. rewrite Z.eqb_refl. cbn [negb].
    eexists _, _. split; [reflexivity|]. split; [|split; [reflexivity|auto]].
    apply threads_linked. split; [reflexivity|]. split; [reflexivity|].
    intros [|z l1] w l2 E; [|destruct l1; discriminate]. injection E as <- <-. exact D.
  - assert (Ly : y < length ls) by (eapply linked_lt; [exact L|now left]).
    cbn [first] in Hh. rewrite Hh. rewrite (small_index ls y Hn Ly). cbn [negb].
    assert (Ht' : (h_tail h =? nil_index)%Z = false).
    { rewrite Ht. destruct (rev (y :: l)) as [|z r] eqn:R.
      { apply (f_equal (@length nat)) in R. rewrite rev_length in R. discriminate. }
      cbn [first]. apply (small_index ls z Hn). eapply linked_lt; [exact L|].
      apply in_rev. rewrite R. now left. }
    rewrite Ht'. cbn [negb].
    destruct (set_next_ok ls x link_default (Z.of_nat y) D) as [ls1 [E1 [Len1 N1]]]. rewrite E1. cbn [bind].
    assert (Hyx : y <> x) by (intros ->; apply Hx; now left).
    assert (Gy : nth_error ls1 y = Some {| prev := nil_index; next := first l |}).
    { rewrite N1. destruct (Nat.eqb_spec y x); [contradiction|]. now apply (L [] y l). }
    destruct (set_prev_ok ls1 y _ (Z.of_nat x) Gy) as [ls2 [E2 [Len2 N2]]]. rewrite E2. cbn [bind].
    eexists _, _. split; [reflexivity|]. split; [|split; [congruence|]].
    + apply threads_linked. split; [reflexivity|]. split.
      * cbn [h_tail]. rewrite Ht. cbn [rev]. rewrite (first_app (rev l ++ [y])).
        destruct (rev l); reflexivity.
      * intros [|z l1] w l2 E; cbn in E; injection E as <-.
        -- subst l2. rewrite N2, N1. destruct (Nat.eqb_spec x y); [congruence|].
           rewrite Nat.eqb_refl. reflexivity.
        -- subst. rewrite N2, N1.
           assert (w <> x). { intros ->. apply Hx. rewrite H. apply in_elt. }
           destruct l1 as [|z l1]; cbn in H.
           ++ injection H as -> ->. rewrite Nat.eqb_refl. reflexivity.
           ++ injection H as -> ->.
              destruct (Nat.eqb_spec w z) as [->|].
              { exfalso. apply NoDup_cons_iff in ND as [ND _]. apply ND, in_elt. }
              destruct (Nat.eqb_spec w x); [contradiction|].
              rewrite (L (z :: l1) w l2 eq_refl). do 2 f_equal.
              cbn [rev]. rewrite !first_app. destruct (rev l1); reflexivity.
    + intros j Hj Hj2. rewrite N2, N1. destruct (Nat.eqb_spec j y) as [->|]; [exfalso; apply Hj2; now left|].
      destruct (Nat.eqb_spec j x); [contradiction|reflexivity].
Qed.

Lemma NoDup_app_remove_l {A} (l m : list A) : NoDup (l ++ m) -> NoDup m.
Proof. induction l as [|a l IH]; cbn; [auto|]. intros H. apply IH. now apply NoDup_cons_iff in H. Qed.

(** ** Adding at the back *)

Lemma snoc_eq {A} (l : list A) x l1 w l2 : l ++ [x] = l1 ++ w :: l2 ->
  (l1 = l /\ w = x /\ l2 = []) \/ (exists l3, l2 = l3 ++ [x] /\ l = l1 ++ w :: l3).
Proof.
  destruct l2 as [|q r] using rev_ind.
  - intros E. apply app_inj_tail in E as [-> ->]. left. auto.
  - clear IHr. intros E. right. exists r.
    rewrite app_comm_cons, app_assoc in E. apply app_inj_tail in E as [-> ->]. auto.
Qed.

Lemma push_back_ok ls h l x :
  (Z.of_nat (length ls) <= nil_index)%Z ->
  threads ls h l -> NoDup l -> ~ In x l -> nth_error ls x = Some link_default ->
  exists h' ls', list_push_back h ls (Z.of_nat x) = Ret (h', ls') /\ threads ls' h' (l ++ [x]) /\
    length ls' = length ls /\ (forall j, j <> x -> ~ In j l -> nth_error ls' j = nth_error ls j).
Proof.
  intros Hn T ND Hx D. apply threads_linked in T as [Hh [Ht L]].
  assert (Lx : x < length ls) by (apply nth_error_Some; congruence).
  unfold list_push_back. rewrite get_nat, D. cbn [bind link_default prev next].
  rewrite Z.eqb_refl. destruct l as [|y l _] using rev_ind.
  - cbn in Hh, Ht. rewrite Ht. rewrite Z.eqb_refl. cbn [negb].
    eexists _, _. split; [reflexivity|]. split; [|split; [reflexivity|auto]].
    apply threads_linked. split; [reflexivity|]. split; [reflexivity|].
    intros [|z l1] w l2 E; [|destruct l1; discriminate]. injection E as <- <-. exact D.
  - assert (Ly : y < length ls) by (eapply linked_lt; [exact L|]; apply in_or_app; right; now left).
    rewrite rev_app_distr in Ht. cbn [rev app first] in Ht. rewrite Ht. rewrite (small_index ls y Hn Ly). cbn [negb].
    assert (Hh' : (h_head h =? nil_index)%Z = false).
    { rewrite Hh, first_app. destruct l as [|z l]; cbn [first]; [now apply (small_index ls y Hn)|].
      apply (small_index ls z Hn). eapply linked_lt; [exact L|]. now left. }
    rewrite Hh'. cbn [negb].
    destruct (set_prev_ok ls x link_default (Z.of_nat y) D) as [ls1 [E1 [Len1 N1]]]. rewrite E1. cbn [bind].
    assert (Hyx : y <> x) by (intros ->; apply Hx, in_or_app; right; now left).
    assert (Gy : nth_error ls1 y = Some {| prev := first (rev l); next := nil_index |}).
    { rewrite N1. destruct (Nat.eqb_spec y x); [contradiction|]. now apply (L l y []). }
    destruct (set_next_ok ls1 y _ (Z.of_nat x) Gy) as [ls2 [E2 [Len2 N2]]]. rewrite E2. cbn [bind].
    eexists _, _. split; [reflexivity|]. split; [|split; [congruence|]].
    + apply threads_linked. split; [|split].
      * cbn [h_head]. rewrite Hh. rewrite !first_app. destruct l; reflexivity.
      * rewrite rev_app_distr. reflexivity.
      * intros l1 w l2 E. apply snoc_eq in E as [[-> [-> ->]]|[l3 [-> E]]].
        -- rewrite N2, N1. destruct (Nat.eqb_spec x y); [congruence|].
           rewrite Nat.eqb_refl. rewrite rev_app_distr. reflexivity.
        -- rewrite N2, N1.
           assert (Hwx : w <> x). { intros ->. apply Hx. rewrite E. apply in_elt. }
           pose proof E as E'.
           apply snoc_eq in E as [[-> [-> ->]]|[l4 [-> E]]].
           ++ rewrite Nat.eqb_refl. reflexivity.
           ++ destruct (Nat.eqb_spec w y) as [->|].
              { exfalso. rewrite E in ND. rewrite <- app_assoc in ND. apply NoDup_app_remove_l in ND.
                cbn in ND. apply NoDup_cons_iff in ND as [ND _]. apply ND, in_or_app. right. now left. }
              destruct (Nat.eqb_spec w x); [contradiction|].
              rewrite (L _ _ _ E'). do 2 f_equal. rewrite !first_app. destruct l4; reflexivity.
    + intros j Hj Hj2. rewrite N2, N1. destruct (Nat.eqb_spec j y) as [->|]; [exfalso; apply Hj2, in_or_app; right; now left|].
      destruct (Nat.eqb_spec j x); [contradiction|reflexivity].
Qed.

(** ** Removal *)

Lemma app_split {A} (l1 l2 m1 m2 : list A) z : l1 ++ l2 = m1 ++ z :: m2 ->
  (exists q, l1 = m1 ++ z :: q /\ m2 = q ++ l2) \/ (exists q, m1 = l1 ++ q /\ l2 = q ++ z :: m2).
Proof.
  revert m1. induction l1 as [|a l1 IH]; intros m1 E.
  - right. exists m1. auto.
  - destruct m1 as [|b m1]; injection E as <- E.
    + left. exists l1. auto.
    + destruct (IH _ E) as [[q [-> ->]]|[q [-> ->]]]; [left|right]; exists q; auto.
Qed.

Lemma first_nil_index (ls : list link) l1 : (Z.of_nat (length ls) <= nil_index)%Z -> (forall x, In x l1 -> x < length ls) ->
  (first l1 =? nil_index)%Z = match l1 with [] => true | _ => false end.
Proof.
  intros Hn H. destruct l1 as [|x l1]; [apply Z.eqb_refl|]. apply (small_index ls x Hn). apply H. now left.
Qed.

Lemma remove_ok ls h l1 x l2 :
  (Z.of_nat (length ls) <= nil_index)%Z ->
  threads ls h (l1 ++ x :: l2) -> NoDup (l1 ++ x :: l2) ->
  exists h' ls', list_remove h ls (Z.of_nat x) = Ret (h', ls') /\ threads ls' h' (l1 ++ l2) /\
    length ls' = length ls /\ nth_error ls' x = Some link_default /\
    (forall j, ~ In j (l1 ++ x :: l2) -> nth_error ls' j = nth_error ls j).
Proof.
  intros Hn T ND. apply threads_linked in T as [Hh [Ht L]].
  assert (LT : forall y, In y (l1 ++ x :: l2) -> y < length ls) by (intros; eapply linked_lt; eauto).
  pose proof (L l1 x l2 eq_refl) as Hx.
  unfold list_remove. rewrite get_nat, Hx. cbn [bind prev next].
  rewrite (first_nil_index ls l2 Hn), (first_nil_index ls (rev l1) Hn).
  2: { intros y Iy. apply LT, in_or_app. left. now apply in_rev. }
  2: { intros y Iy. apply LT, in_or_app. right. now right. }
  assert (NDx : ~ In x (l1 ++ l2)) by (now apply NoDup_remove_2).
  assert (ND' : NoDup (l1 ++ l2)) by (eapply NoDup_remove_1; eauto).
  (* after the first two writes *)
  assert (S : exists h2 ls2,
    ('(h1, ls1) <- (if negb match l2 with [] => true | _ => false end
                    then ls1 <- set_prev ls (first l2) (first (rev l1)) ;; Ret (h, ls1)
                    else Ret ({| h_head := h_head h; h_tail := first (rev l1) |}, ls)) ;;
     (if negb match rev l1 with [] => true | _ => false end
      then ls2 <- set_next ls1 (first (rev l1)) (first l2) ;; Ret (h1, ls2)
      else Ret ({| h_head := first l2; h_tail := h_tail h1 |}, ls1))) = Ret (h2, ls2) /\
    h_head h2 = first (l1 ++ l2) /\ h_tail h2 = first (rev (l1 ++ l2)) /\ length ls2 = length ls /\
    (forall m1 z m2, l1 ++ l2 = m1 ++ z :: m2 ->
       nth_error ls2 z = Some {| prev := first (rev m1); next := first m2 |}) /\
    (forall j, ~ In j (l1 ++ l2) -> nth_error ls2 j = nth_error ls j)).
  { (* links of the neighbours *)
    assert (P1 : exists h1 ls1,
      (if negb match l2 with [] => true | _ => false end
       then ls1 <- set_prev ls (first l2) (first (rev l1)) ;; Ret (h, ls1)
       else Ret ({| h_head := h_head h; h_tail := first (rev l1) |}, ls)) = Ret (h1, ls1) /\
      h_head h1 = h_head h /\ h_tail h1 = first (rev (l1 ++ l2)) /\ length ls1 = length ls /\
      (forall j, nth_error ls1 j =
         if match l2 with [] => false | y :: _ => j =? y end
         then Some {| prev := first (rev l1); next := first (tl l2) |} else nth_error ls j)).
    { destruct l2 as [|y l2]; cbn [negb].
      - eexists _, _. split; [reflexivity|]. rewrite app_nil_r. auto.
      - pose proof (L (l1 ++ [x]) y l2) as Hy. rewrite <- app_assoc in Hy. specialize (Hy eq_refl).
        destruct (set_prev_ok ls y _ (first (rev l1)) Hy) as [ls1 [E1 [Len1 N1]]].
        cbn [first]. rewrite E1. cbn [bind]. eexists _, _. split; [reflexivity|]. split; [reflexivity|].
        split; [|split; [exact Len1|exact N1]].
        rewrite Ht. rewrite !rev_app_distr. cbn [rev]. rewrite <- !app_assoc.
        destruct (rev l2); reflexivity. }
    destruct P1 as [h1 [ls1 [-> [Hh1 [Ht1 [Len1 N1]]]]]]. cbn [bind].
    destruct l1 as [|w l1 _] using rev_ind.
    - cbn [rev negb]. eexists _, _. split; [reflexivity|]. cbn [h_head h_tail app].
      split; [reflexivity|]. split; [exact Ht1|]. split; [exact Len1|]. split.
      + intros m1 z m2 E. rewrite N1. destruct l2 as [|y l2]; [destruct m1; discriminate|].
        destruct m1 as [|q m1]; cbn in E; injection E as -> E.
        * rewrite Nat.eqb_refl. subst. reflexivity.
        * destruct (Nat.eqb_spec z q) as [->|].
          { exfalso. cbn in ND'. rewrite E in ND'. apply NoDup_cons_iff in ND' as [A _]. apply A, in_elt. }
          rewrite (L (x :: q :: m1) z m2); [|cbn; now rewrite E]. do 2 f_equal.
          cbn [rev]. rewrite !first_app. destruct (rev m1); reflexivity.
      + intros j Hj. rewrite N1. destruct l2 as [|y l2]; [reflexivity|].
        destruct (Nat.eqb_spec j y) as [->|]; [exfalso; apply Hj; now left|reflexivity].
    - rewrite rev_app_distr. cbn [rev app negb first].
      assert (Hw : nth_error ls1 w = Some {| prev := first (rev l1); next := Z.of_nat x |}).
      { rewrite N1. pose proof (L l1 w (x :: l2)) as Hw. rewrite <- app_assoc in Hw. specialize (Hw eq_refl).
        destruct l2 as [|y l2]; [exact Hw|]. destruct (Nat.eqb_spec w y) as [->|]; [|exact Hw].
        exfalso. rewrite <- app_assoc in ND'. apply NoDup_app_remove_l in ND'. cbn in ND'.
        apply NoDup_cons_iff in ND' as [A _]. apply A. now left. }
      destruct (set_next_ok ls1 w _ (first l2) Hw) as [ls2 [E2 [Len2 N2]]]. rewrite E2. cbn [bind].
      eexists _, _. split; [reflexivity|]. split; [|split; [|split; [congruence|split]]].
      + rewrite Hh1, Hh, !first_app. destruct l1; reflexivity.
      + exact Ht1.
      + intros m1 z m2 E. rewrite N2, N1. apply app_split in E as [[q [E ->]]|[q [-> E]]].
        * (* z in l1 ++ [w] *)
          pose proof E as E'. apply snoc_eq in E as [[-> [-> ->]]|[q' [-> E]]].
          -- rewrite Nat.eqb_refl. cbn [app prev]. reflexivity.
          -- destruct (Nat.eqb_spec z w) as [->|].
             { exfalso. rewrite E in ND'. rewrite <- !app_assoc in ND'. apply NoDup_app_remove_l in ND'. cbn in ND'.
               apply NoDup_cons_iff in ND' as [A _]. apply A, in_or_app. right. now left. }
             replace (match l2 with [] => false | y :: _ => z =? y end) with false.
             2: { destruct l2 as [|y l2]; [reflexivity|]. symmetry. apply Nat.eqb_neq. intros ->.
                  rewrite E in ND'. rewrite <- !app_assoc in ND'. apply NoDup_app_remove_l in ND'. cbn in ND'.
                  apply NoDup_cons_iff in ND' as [A _]. apply A, in_or_app. right. right. now left. }
             rewrite (L m1 z ((q' ++ [w]) ++ x :: l2)).
             ++ do 2 f_equal. rewrite !first_app. destruct q'; reflexivity.
             ++ rewrite E'. rewrite <- !app_assoc. cbn [app]. rewrite <- !app_assoc. reflexivity.
        * (* z in l2 *)
          destruct (Nat.eqb_spec z w) as [->|].
          { exfalso. rewrite E in ND'. rewrite <- !app_assoc in ND'. apply NoDup_app_remove_l in ND'. cbn in ND'.
            apply NoDup_cons_iff in ND' as [A _]. apply A, in_elt. }
          destruct l2 as [|y l2]; [destruct q; discriminate|].
          destruct q as [|a q]; cbn in E; injection E as -> E.
          -- rewrite Nat.eqb_refl. subst. rewrite app_nil_r, rev_app_distr. reflexivity.
          -- destruct (Nat.eqb_spec z a) as [->|].
             { exfalso. rewrite E in ND'. apply NoDup_app_remove_l in ND'.
               apply NoDup_cons_iff in ND' as [A _]. apply A, in_elt. }
             rewrite (L ((l1 ++ [w]) ++ x :: a :: q) z m2).
             ++ do 2 f_equal. rewrite !rev_app_distr. cbn [rev]. rewrite <- !app_assoc.
                rewrite !first_app. destruct (rev q); reflexivity.
             ++ rewrite E. rewrite <- !app_assoc. reflexivity.
      + intros j Hj. rewrite N2, N1. destruct (Nat.eqb_spec j w) as [->|].
        { exfalso. apply Hj. rewrite <- app_assoc. apply in_elt. }
        destruct l2 as [|y l2]; [reflexivity|].
        destruct (Nat.eqb_spec j y) as [->|]; [|reflexivity]. exfalso. apply Hj, in_elt. }
  destruct S as [h2 [ls2 [E [Hh2 [Ht2 [Len2 [L2 F2]]]]]]].
  match type of E with bind ?a ?f = _ => destruct a as [[h1 ls1]| |]; try discriminate E end.
  cbn [bind] in E |- *. rewrite E. cbn [bind].
  assert (Hx2 : nth_error ls2 x = Some {| prev := first (rev l1); next := first l2 |}) by (rewrite F2; auto).
  destruct (set_next_ok ls2 x _ nil_index Hx2) as [ls3 [E3 [Len3 N3]]]. rewrite E3. cbn [bind].
  assert (Hx3 : nth_error ls3 x = Some {| prev := first (rev l1); next := nil_index |})
    by (rewrite N3, Nat.eqb_refl; reflexivity).
  destruct (set_prev_ok ls3 x _ nil_index Hx3) as [ls4 [E4 [Len4 N4]]]. rewrite E4. cbn [bind].
  eexists _, _. split; [reflexivity|]. split; [|split; [congruence|split]].
  - apply threads_linked. split; [exact Hh2|]. split; [exact Ht2|].
    intros m1 z m2 Em. rewrite N4, N3.
    destruct (Nat.eqb_spec z x) as [->|].
    + exfalso. apply NDx. rewrite Em. apply in_elt.
    + now apply L2.
  - rewrite N4, Nat.eqb_refl. reflexivity.
  - intros j Hj. rewrite N4, N3. destruct (Nat.eqb_spec j x) as [->|]; [exfalso; apply Hj, in_elt|].
    apply F2. intros I. apply Hj. apply in_app_or in I. apply in_or_app. cbn. intuition.
Qed.

(** ** Several lists *)

Lemma linked_frame ls ls' l : (forall j, In j l -> nth_error ls' j = nth_error ls j) -> linked ls l -> linked ls' l.
Proof. intros F L l1 x l2 E. rewrite F; [now apply L|]. rewrite E. apply in_elt. Qed.

Lemma threads_frame ls ls' h l :
  (forall j, In j l -> nth_error ls' j = nth_error ls j) -> threads ls h l -> threads ls' h l.
Proof.
  intros F T. apply threads_linked in T as [A [B L]]. apply threads_linked. split; [exact A|]. split; [exact B|].
  eapply linked_frame; eauto.
Qed.

Lemma replace_split {A} (a b : list A) x y : replace (length a) y (a ++ x :: b) = a ++ y :: b.
Proof. induction a; cbn; [reflexivity|]. now rewrite IHa. Qed.

Lemma Forall2_len {A B} (R : A -> B -> Prop) l m : Forall2 R l m -> length l = length m.
Proof. induction 1; cbn; congruence. Qed.

Lemma represents_split hs ls ll k l :
  represents hs ls ll -> nth_error ll k = Some l ->
  exists ha h hb la lb, hs = ha ++ h :: hb /\ ll = la ++ l :: lb /\ length ha = k /\ length la = k /\
    threads ls h l /\ Forall2 (threads ls) ha la /\ Forall2 (threads ls) hb lb.
Proof.
  intros [F _] H. apply nth_error_split in H as [la [lb [-> Hk]]].
  apply Forall2_app_inv_r in F as [ha [hr [Fa [Fr ->]]]].
  inversion Fr as [|h l0 hb lb0 T Fb]; subst.
  exists ha, h, hb, la, lb. repeat (split; [reflexivity || assumption|]).
  split; [|split; [|split; [|split]]]; auto. apply Forall2_len in Fa. congruence.
Qed.

(** One operation on list [k]: [l] becomes [l'], and only links of [x] and of members of [l] change. *)
Lemma represents_update hs ls ll k l h h' ls' l' x :
  represents hs ls ll -> nth_error ll k = Some l -> nth_error hs k = Some h ->
  threads ls' h' l' -> length ls' = length ls -> NoDup l' ->
  (In x l \/ ~ In x (concat ll)) ->
  (forall j, In j l' -> j = x \/ In j l) ->
  (forall j, In j l -> In j l' \/ j = x) ->
  (forall j, j <> x -> ~ In j l -> nth_error ls' j = nth_error ls j) ->
  (~ In x l' -> nth_error ls' x = Some link_default) ->
  represents (replace k h' hs) ls' (replace k l' ll).
Proof.
  intros R Hl Hh T' Len ND' Hx Sub Sup F D.
  pose proof R as [_ [ND [Det Hn]]].
  destruct (represents_split _ _ _ _ _ R Hl) as [ha [h0 [hb [la [lb [-> [-> [Ha [Hb [T [Fa Fb]]]]]]]]]]].
  assert (h0 = h) as ->.
  { rewrite nth_error_app2 in Hh by lia. rewrite Ha, Nat.sub_diag in Hh. now injection Hh. }
  rewrite <- Ha at 1. rewrite replace_split. rewrite <- Hb. rewrite replace_split.
  rewrite concat_app in ND, Hx, Det. cbn [concat] in ND, Hx, Det.
  set (A := concat la) in *. set (B := concat lb) in *.
  assert (Out : forall j, In j A \/ In j B -> j <> x /\ ~ In j l).
  { intros j Hj. assert (~ In j l).
    { intros Il. destruct Hj as [Hj|Hj].
      - apply in_split in Hj as [a1 [a2 Ea]]. rewrite Ea in ND. rewrite <- app_assoc in ND.
        apply NoDup_app_remove_l in ND. cbn in ND. apply NoDup_cons_iff in ND as [N _]. apply N.
        apply in_or_app. right. apply in_or_app. now left.
      - apply NoDup_app_remove_l in ND. apply in_split in Il as [a1 [a2 Ea]]. rewrite Ea in ND. rewrite <- app_assoc in ND.
        apply NoDup_app_remove_l in ND. cbn in ND. apply NoDup_cons_iff in ND as [N _]. apply N.
        apply in_or_app. now right. }
    split; [|assumption]. intros ->. destruct Hx as [Hx|Hx]; [contradiction|].
    apply Hx. apply in_or_app. destruct Hj; [now left|right]. apply in_or_app. now right. }
  assert (Fr : forall hq lq, Forall2 (threads ls) hq lq -> (forall j, In j (concat lq) -> j <> x /\ ~ In j l) ->
               Forall2 (threads ls') hq lq).
  { intros hq lq Q. induction Q as [|q r hq lq Tq Q IH]; intros O; constructor.
    - eapply threads_frame; [|exact Tq]. intros j Ij. destruct (O j); [apply in_or_app; now left|]. now apply F.
    - apply IH. intros j Ij. apply O, in_or_app. now right. }
  split; [|split; [|split]].
  - apply Forall2_app; [apply Fr; auto|]. constructor; [exact T'|apply Fr; auto].
  - rewrite concat_app. cbn [concat]. fold A B.
    assert (NA : NoDup A). { clear - ND. induction A as [|a A IH]; [constructor|]. cbn in ND. apply NoDup_cons_iff in ND as [N ND].
      constructor; [|auto]. intros I. apply N, in_or_app. now left. }
    assert (NB : NoDup B) by (do 2 apply NoDup_app_remove_l in ND; exact ND).
    assert (AB : forall j, In j A -> ~ In j B).
    { intros j Ia Ib. apply in_split in Ia as [a1 [a2 Ea]]. rewrite Ea in ND. rewrite <- app_assoc in ND.
      apply NoDup_app_remove_l in ND. cbn in ND. apply NoDup_cons_iff in ND as [N _]. apply N.
      apply in_or_app. right. apply in_or_app. now right. }
    apply NoDup_app_intro; [exact NA| |].
    + apply NoDup_app_intro; [exact ND'|exact NB|]. intros j I Ib. destruct (Out j (or_intror Ib)) as [? N].
      destruct (Sub j I); auto.
    + intros j Ia I. apply in_app_or in I as [I|I]; [|exact (AB j Ia I)].
      destruct (Out j (or_introl Ia)) as [? N]. destruct (Sub j I); auto.
  - intros j Hj Hn'. rewrite concat_app in Hn'. cbn [concat] in Hn'. fold A B in Hn'.
    rewrite !in_app_iff in Hn'.
    destruct (Nat.eq_dec j x) as [->|Ne]; [apply D; tauto|].
    assert (~ In j l). { intros I. destruct (Sup j I); tauto. }
    rewrite F by assumption. apply Det; [congruence|]. rewrite !in_app_iff. tauto.
  - congruence.
Qed.

Lemma in_concat_nth {A} (ll : list (list A)) k l x : nth_error ll k = Some l -> In x l -> In x (concat ll).
Proof. intros H I. apply in_concat. exists l. split; [eapply nth_error_In; eauto|exact I]. Qed.

Lemma nodup_member {A} (ll : list (list A)) k l : nth_error ll k = Some l -> NoDup (concat ll) -> NoDup l.
Proof.
  revert k. induction ll as [|m ll IH]; intros [|k] H ND; try discriminate; cbn in H, ND.
  - injection H as ->. clear - ND. induction l as [|a l IH]; [constructor|]. cbn in ND. apply NoDup_cons_iff in ND as [N ND].
    constructor; [|auto]. intros I. apply N, in_or_app. now left.
  - eapply IH; eauto. eapply NoDup_app_remove_l; eauto.
Qed.

Lemma run_op_ok hs ls ll op ll' :
  represents hs ls ll -> list_step (length ls) ll op ll' ->
  exists hs' ls', run_op (hs, ls) op = Ret (hs', ls') /\ represents hs' ls' ll' /\ length ls' = length ls.
Proof.
  intros R S. pose proof R as [_ [ND [Det Hn]]].
  inversion S as [? k x l Lx Nx Hl|? k x l Lx Nx Hl|? k x l1 l2 Hl]; subst; cbn [run_op];
    destruct (represents_split _ _ _ _ _ R Hl) as [ha [h [hb [la [lb [Ehs [Ell [Ha [Hb [T _]]]]]]]]]];
    assert (Hh : nth_error hs k = Some h)
      by (rewrite Ehs, nth_error_app2 by lia; rewrite Ha, Nat.sub_diag; reflexivity);
    rewrite Hh; pose proof (nodup_member _ _ _ Hl ND) as NDl.
  - assert (Nl : ~ In x l) by (intros I; apply Nx; eapply in_concat_nth; eauto).
    destruct (push_front_ok ls h l x Hn T NDl Nl (Det x Lx Nx)) as [h' [ls' [E [T' [Len F]]]]].
    rewrite E. cbn [bind]. eexists _, _. split; [reflexivity|]. split; [|exact Len].
    eapply (represents_update hs ls ll k l h h' ls' (x :: l) x); eauto.
    + now constructor.
    + cbn. intuition.
    + cbn. intuition.
    + intros N. exfalso. apply N. now left.
  - assert (Nl : ~ In x l) by (intros I; apply Nx; eapply in_concat_nth; eauto).
    destruct (push_back_ok ls h l x Hn T NDl Nl (Det x Lx Nx)) as [h' [ls' [E [T' [Len F]]]]].
    rewrite E. cbn [bind]. eexists _, _. split; [reflexivity|]. split; [|exact Len].
    eapply (represents_update hs ls ll k l h h' ls' (l ++ [x]) x); eauto.
    + apply NoDup_app_intro; [exact NDl|constructor; [easy|constructor]|]. intros a Ia [->|[]]. contradiction.
    + intros j I. apply in_app_or in I as [I|[->|[]]]; auto.
    + intros j I. left. apply in_or_app. now left.
    + intros N. exfalso. apply N, in_or_app. right. now left.
  - destruct (remove_ok ls h l1 x l2 Hn T NDl) as [h' [ls' [E [T' [Len [D F]]]]]].
    rewrite E. cbn [bind]. eexists _, _. split; [reflexivity|]. split; [|exact Len].
    eapply (represents_update hs ls ll k (l1 ++ x :: l2) h h' ls' (l1 ++ l2) x); eauto.
    + eapply NoDup_remove_1; eauto.
    + left. apply in_elt.
    + intros j I. right. apply in_app_or in I. apply in_or_app. cbn. intuition.
    + intros j I. apply in_app_or in I as [I|[I|I]]; [left; apply in_or_app; now left|right; auto|left; apply in_or_app; now right].
Qed.

Theorem run_ops_ok n ops : forall hs ls ll ll',
  length ls = n -> represents hs ls ll -> list_steps n ll ops ll' ->
  exists hs' ls', foldM run_op ops (hs, ls) = Ret (hs', ls') /\ represents hs' ls' ll'.
Proof.
  induction ops as [|op ops IH]; intros hs ls ll ll' <- R S; inversion S; subst; cbn [foldM].
  - eauto.
  - destruct (run_op_ok _ _ _ _ _ R H2) as [hs1 [ls1 [E [R1 Len1]]]]. rewrite E. cbn [bind].
    eapply IH; eauto.
Qed.

Lemma represents_empty m n : (Z.of_nat n <= nil_index)%Z ->
  represents (repeat head_default m) (repeat link_default n) (repeat [] m).
Proof.
  intros Hn.
  assert (C : concat (repeat (@nil nat) m) = []) by (induction m; cbn; auto).
  split; [|split; [|split]].
  - induction m; constructor; [|apply IHm; induction m; cbn in *; auto].
    split; reflexivity.
  - rewrite C. constructor.
  - intros x Hx _. rewrite repeat_length in Hx. apply nth_error_repeat. exact Hx.
  - now rewrite repeat_length.
Qed.

(** Pushing a buffer that is already on a list of at least two members panics. *)
Lemma push_linked_panics ls h h0 l x :
  threads ls h0 l -> In x l -> 2 <= length l -> (Z.of_nat (length ls) <= nil_index)%Z ->
  list_push_front h ls (Z.of_nat x) = Panic /\ list_push_back h ls (Z.of_nat x) = Panic.
Proof.
  intros T I L2 Hn. apply threads_linked in T as [_ [_ L]].
  pose proof I as Ix. apply in_split in I as [l1 [l2 E]]. pose proof (L _ _ _ E) as Hx.
  assert (LT : forall y, In y l -> y < length ls) by (intros; eapply linked_lt; eauto).
  unfold list_push_front, list_push_back. rewrite get_nat, Hx. cbn [bind prev next].
  rewrite (first_nil_index ls l2 Hn), (first_nil_index ls (rev l1) Hn).
  2: { intros y Iy. apply LT. rewrite E. apply in_or_app. left. now apply in_rev. }
  2: { intros y Iy. apply LT. rewrite E. apply in_or_app. right. now right. }
  destruct l2; [|auto]. destruct (rev l1) eqn:R; [|auto].
  exfalso. apply (f_equal (@length nat)) in E. rewrite app_length in E. cbn in E.
  apply (f_equal (@length nat)) in R. rewrite rev_length in R. cbn in R. lia.
Qed.
