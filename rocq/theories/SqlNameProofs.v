(** * Facts about SQL names and ordered maps *)

From Coq Require Import Sorted.
From Verif Require Import Base StrModel SqlNameModel.
Local Open Scope Z_scope.

Lemma lex_compare_refl a : lex_compare a a = Eq.
Proof. induction a as [|x a IH]; cbn; [reflexivity|]. rewrite Z.compare_refl. exact IH. Qed.

Lemma lex_compare_eq a b : lex_compare a b = Eq <-> a = b.
Proof.
  split; [|intros ->; apply lex_compare_refl].
  revert b; induction a as [|x a IH]; intros [|y b]; cbn; try discriminate; [reflexivity|].
  destruct (Z.compare_spec x y) as [->|H|H]; try discriminate. intros E. f_equal. auto.
Qed.

Lemma lex_compare_antisym a b : lex_compare b a = CompOpp (lex_compare a b).
Proof.
  revert b; induction a as [|x a IH]; intros [|y b]; cbn; try reflexivity.
  rewrite (Z.compare_antisym x y). destruct (x ?= y); cbn; auto.
Qed.

Lemma lex_compare_trans a b c : lex_compare a b = Lt -> lex_compare b c = Lt -> lex_compare a c = Lt.
Proof.
  revert b c; induction a as [|x a IH]; intros [|y b] [|z c]; cbn; try discriminate; try reflexivity.
  intros H1 H2.
  assert (Hxy : x < y \/ x = y /\ lex_compare a b = Lt)
    by (destruct (Z.compare_spec x y); [right; auto|left; assumption|discriminate]).
  assert (Hyz : y < z \/ y = z /\ lex_compare b c = Lt)
    by (destruct (Z.compare_spec y z); [right; auto|left; assumption|discriminate]).
  destruct Hxy as [Hxy|[-> Hab]], Hyz as [Hyz|[-> Hbc]];
    try (rewrite (proj2 (Z.compare_lt_iff _ _)) by lia; reflexivity).
  rewrite Z.compare_refl. eauto.
Qed.

Lemma str_eqb_spec (a b : list Z) : str_eqb a b = true <-> a = b.
Proof.
  revert b; induction a as [|x a IH]; intros [|y b]; cbn; split; intros H; try discriminate; try reflexivity.
  - apply andb_true_iff in H as [H1 H2]. apply Z.eqb_eq in H1. apply IH in H2. congruence.
  - injection H as -> ->. rewrite Z.eqb_refl. apply IH. reflexivity.
Qed.

Section Names.
Context (up : Z -> list Z).
Notation cmp := (name_cmp up).
Notation eqn := (name_eqb up).

Lemma name_eqb_upper a b : eqn a b = true <-> upper up a = upper up b.
Proof. apply str_eqb_spec. Qed.

Lemma name_cmp_eq a b : cmp a b = Eq <-> upper up a = upper up b.
Proof. apply lex_compare_eq. Qed.

Lemma name_cmp_refl a : cmp a a = Eq.
Proof. apply lex_compare_refl. Qed.

Lemma name_cmp_antisym a b : cmp b a = CompOpp (cmp a b).
Proof. apply lex_compare_antisym. Qed.

Lemma name_cmp_gt a b : cmp a b = Gt -> cmp b a = Lt.
Proof. intros H. rewrite name_cmp_antisym, H. reflexivity. Qed.

Lemma name_cmp_trans a b c : cmp a b = Lt -> cmp b c = Lt -> cmp a c = Lt.
Proof. apply lex_compare_trans. Qed.

Lemma name_cmp_upper_l a b c : upper up a = upper up b -> cmp a c = cmp b c.
Proof. unfold name_cmp. intros ->. reflexivity. Qed.

Lemma name_cmp_upper_r a b c : upper up a = upper up b -> cmp c a = cmp c b.
Proof. unfold name_cmp. intros ->. reflexivity. Qed.

Lemma name_cmp_eqb a b : cmp a b = Eq <-> eqn a b = true.
Proof. rewrite name_cmp_eq, name_eqb_upper. reflexivity. Qed.

Lemma name_eqb_refl a : eqn a a = true.
Proof. apply name_eqb_upper. reflexivity. Qed.

Lemma name_eqb_sym a b : eqn a b = eqn b a.
Proof.
  destruct (eqn a b) eqn:E, (eqn b a) eqn:E'; try reflexivity.
  - apply name_eqb_upper in E. symmetry in E. apply name_eqb_upper in E. congruence.
  - apply name_eqb_upper in E'. symmetry in E'. apply name_eqb_upper in E'. congruence.
Qed.

Lemma name_eqb_congr a b c : eqn a b = true -> eqn c a = eqn c b.
Proof.
  intros H. apply name_eqb_upper in H. unfold name_eqb. rewrite H. reflexivity.
Qed.

Lemma name_eqb_congr_l a b c : eqn a b = true -> eqn a c = eqn b c.
Proof.
  intros H. apply name_eqb_upper in H. unfold name_eqb. rewrite H. reflexivity.
Qed.

(** ** Maps *)

Definition below {V : Type} (k : name) (m : nmap V) : Prop := Forall (fun e => cmp k (fst e) = Lt) m.

Inductive sorted {V : Type} : nmap V -> Prop :=
| sorted_nil : sorted []
| sorted_cons k v m : below k m -> sorted m -> sorted ((k, v) :: m).

Lemma below_trans {V} k k' (m : nmap V) : cmp k k' = Lt -> below k' m -> below k m.
Proof.
  intros H. unfold below. apply Forall_impl. intros e He. eapply name_cmp_trans; eauto.
Qed.

Lemma below_get {V} k (m : nmap V) : below k m -> nget up m k = None.
Proof. destruct m as [|[k' v] m]; [reflexivity|]. intros H. inversion H as [|? ? E]; subst. cbn in *. rewrite E. reflexivity. Qed.

(** A lookup finds the entry with an equal key. *)
Lemma nget_in {V} (m : nmap V) k v :
  sorted m -> (nget up m k = Some v <-> exists k', In (k', v) m /\ eqn k k' = true).
Proof.
  intros Hs. induction Hs as [|k1 v1 m Hb Hs IH]; cbn.
  - split; [discriminate|intros (k' & [] & _)].
  - destruct (cmp k k1) eqn:E.
    + split.
      * intros [= ->]. exists k1. split; [auto|]. apply name_cmp_eqb. exact E.
      * intros (k' & [[= -> ->]|Hin] & He); [reflexivity|].
        exfalso. unfold below in Hb; rewrite Forall_forall in Hb. specialize (Hb _ Hin). cbn in Hb.
        apply name_cmp_eqb in He. apply name_cmp_eq in He, E.
        rewrite (name_cmp_upper_l k1 k) in Hb by congruence.
        apply name_cmp_eq in He. congruence.
    + split; [discriminate|]. intros (k' & [[= -> ->]|Hin] & He).
      * apply name_cmp_eqb in He. congruence.
      * exfalso. unfold below in Hb; rewrite Forall_forall in Hb. specialize (Hb _ Hin). cbn in Hb.
        apply name_cmp_eqb in He. rewrite (name_cmp_trans _ _ _ E Hb) in He. discriminate.
    + rewrite IH. split.
      * intros (k' & Hin & He). eauto.
      * intros (k' & [[= -> ->]|Hin] & He); [|eauto]. apply name_cmp_eqb in He. congruence.
Qed.

Lemma nget_none {V} (m : nmap V) k :
  sorted m -> (nget up m k = None <-> forall k' v, In (k', v) m -> eqn k k' = false).
Proof.
  intros Hs. split.
  - intros H k' v Hin. destruct (eqn k k') eqn:E; [|reflexivity].
    assert (nget up m k = Some v) by (apply nget_in; eauto). congruence.
  - intros H. destruct (nget up m k) as [v|] eqn:E; [|reflexivity].
    apply nget_in in E as (k' & Hin & He); [|exact Hs]. rewrite (H _ _ Hin) in He. discriminate.
Qed.

Lemma nget_congr {V} (m : nmap V) k k' : eqn k k' = true -> nget up m k = nget up m k'.
Proof.
  intros H. apply name_eqb_upper in H. induction m as [|[k1 v1] m IH]; cbn; [reflexivity|].
  rewrite (name_cmp_upper_l _ _ k1 H), IH. reflexivity.
Qed.

Lemma nput_below {V} (m : nmap V) k0 k v : below k0 m -> cmp k0 k = Lt -> below k0 (nput up m k v).
Proof.
  unfold below. intros Hb Hk. induction m as [|[k1 v1] m IH]; cbn; [auto|].
  inversion Hb; subst. destruct (cmp k k1) eqn:E; repeat constructor; auto.
Qed.

Lemma nput_sorted {V} (m : nmap V) k v : sorted m -> sorted (nput up m k v).
Proof.
  intros Hs. induction Hs as [|k1 v1 m Hb Hs IH]; cbn; [constructor; [constructor|constructor]|].
  destruct (cmp k k1) eqn:E.
  - constructor; assumption.
  - constructor; [|constructor; assumption]. constructor; [exact E|]. eapply below_trans; eauto.
  - constructor; [|exact IH]. apply nput_below; [exact Hb|]. apply name_cmp_gt. exact E.
Qed.

Lemma nget_nput {V} (m : nmap V) k v k' :
  sorted m -> nget up (nput up m k v) k' = if eqn k' k then Some v else nget up m k'.
Proof.
  intros Hs. induction Hs as [|k1 v1 m Hb Hs IH]; cbn.
  - destruct (eqn k' k) eqn:E.
    + apply name_cmp_eqb in E. rewrite E. reflexivity.
    + destruct (cmp k' k) eqn:E'; try reflexivity. apply name_cmp_eqb in E'. congruence.
  - destruct (cmp k k1) eqn:E; cbn.
    + apply name_cmp_eqb in E.
      assert (Eu : upper up k1 = upper up k) by (symmetry; apply name_eqb_upper; exact E).
      rewrite (name_cmp_upper_r _ _ k' Eu).
      destruct (cmp k' k) eqn:E1.
      * apply name_cmp_eqb in E1. rewrite E1. reflexivity.
      * destruct (eqn k' k) eqn:E2; [apply name_cmp_eqb in E2; congruence|reflexivity].
      * destruct (eqn k' k) eqn:E2; [apply name_cmp_eqb in E2; congruence|reflexivity].
    + destruct (cmp k' k) eqn:E1.
      * apply name_cmp_eqb in E1. rewrite E1. reflexivity.
      * destruct (eqn k' k) eqn:E2; [apply name_cmp_eqb in E2; congruence|].
        rewrite (name_cmp_trans _ _ _ E1 E). reflexivity.
      * destruct (eqn k' k) eqn:E2; [apply name_cmp_eqb in E2; congruence|]. reflexivity.
    + destruct (cmp k' k1) eqn:E1.
      * destruct (eqn k' k) eqn:E2; [|reflexivity].
        apply name_eqb_upper in E2. rewrite (name_cmp_upper_l _ _ k1 E2) in E1. congruence.
      * destruct (eqn k' k) eqn:E2; [|reflexivity].
        apply name_eqb_upper in E2. rewrite (name_cmp_upper_l _ _ k1 E2) in E1. congruence.
      * exact IH.
Qed.

Lemma nremove_in {V} (m : nmap V) k e : sorted m -> (In e (nremove up m k) <-> In e m /\ eqn k (fst e) = false).
Proof.
  intros Hs. induction Hs as [|k1 v1 m Hb Hs IH]; cbn; [tauto|].
  unfold below in Hb. rewrite Forall_forall in Hb.
  destruct (cmp k k1) eqn:E.
  - split.
    + intros Hin. split; [auto|]. specialize (Hb _ Hin). apply name_cmp_eq in E. rewrite (name_cmp_upper_l _ _ _ (eq_sym E)) in Hb.
      destruct (eqn k (fst e)) eqn:E'; [|reflexivity]. apply name_cmp_eqb in E'. congruence.
    + intros [[<-|Hin] He]; [|exact Hin]. cbn in He. apply name_cmp_eqb in E. congruence.
  - cbn. split; [|tauto]. intros Hin. split; [exact Hin|].
    assert (H : cmp k (fst e) = Lt).
    { destruct Hin as [<-|Hin]; [exact E|]. eapply name_cmp_trans; eauto. }
    destruct (eqn k (fst e)) eqn:E'; [|reflexivity]. apply name_cmp_eqb in E'. congruence.
  - cbn. rewrite IH. split.
    + intros [<-|[H1 H2]]; [|auto]. split; [auto|]. cbn.
      destruct (eqn k k1) eqn:E'; [|reflexivity]. apply name_cmp_eqb in E'. congruence.
    + tauto.
Qed.

Lemma nremove_sorted {V} (m : nmap V) k : sorted m -> sorted (nremove up m k).
Proof.
  intros Hs. induction Hs as [|k1 v1 m Hb Hs IH]; cbn; [constructor|].
  destruct (cmp k k1) eqn:E; [exact Hs|constructor; assumption|].
  constructor; [|exact IH]. unfold below in *. rewrite Forall_forall in *. intros e Hin.
  apply nremove_in in Hin as [Hin _]; [|exact Hs]. auto.
Qed.

Lemma nget_nremove {V} (m : nmap V) k k' :
  sorted m -> nget up (nremove up m k) k' = if eqn k' k then None else nget up m k'.
Proof.
  intros Hs.
  destruct (nget up (nremove up m k) k') as [v|] eqn:E.
  - apply nget_in in E as (k1 & Hin & He); [|apply nremove_sorted; exact Hs].
    apply nremove_in in Hin as [Hin Hk]; [|exact Hs]. cbn in Hk.
    assert (nget up m k' = Some v) as -> by (apply nget_in; eauto).
    destruct (eqn k' k) eqn:E'; [|reflexivity].
    rewrite (name_eqb_congr_l _ _ k1 E') in He. congruence.
  - destruct (eqn k' k) eqn:E'; [reflexivity|]. symmetry. apply nget_none; [exact Hs|]. intros k1 v Hin.
    destruct (eqn k' k1) eqn:E1; [|reflexivity].
    pose proof (proj1 (nget_none _ k' (nremove_sorted m k Hs)) E k1 v) as H.
    rewrite E1 in H. apply H. apply nremove_in; [exact Hs|]. split; [exact Hin|]. cbn.
    destruct (eqn k k1) eqn:E2; [|reflexivity].
    rewrite <- (name_eqb_congr _ _ k' E2) in E1. congruence.
Qed.

(** The last entry of a list with an equal key. *)
Fixpoint last_entry {V : Type} (l : list (name * V)) (k : name) : option V :=
  match l with
  | [] => None
  | (k', v) :: l' => match last_entry l' k with
                     | Some w => Some w
                     | None => if eqn k k' then Some v else None
                     end
  end.

Lemma ncollect_spec {V} (l : list (name * V)) m :
  sorted m ->
  let m' := fold_left (fun m e => nput up m (fst e) (snd e)) l m in
  sorted m' /\ forall k, nget up m' k = match last_entry l k with Some v => Some v | None => nget up m k end.
Proof.
  revert m; induction l as [|[k1 v1] l IH]; intros m Hs; cbn; [auto|].
  destruct (IH (nput up m k1 v1) (nput_sorted m k1 v1 Hs)) as [H1 H2]. split; [exact H1|].
  intros k. rewrite H2. destruct (last_entry l k); [reflexivity|]. rewrite nget_nput by exact Hs. destruct (eqn k k1); reflexivity.
Qed.

Lemma ncollect_sorted {V} (l : list (name * V)) : sorted (ncollect up l).
Proof. apply (ncollect_spec l []). constructor. Qed.

Lemma nget_ncollect {V} (l : list (name * V)) k : nget up (ncollect up l) k = last_entry l k.
Proof.
  unfold ncollect. rewrite (proj2 (ncollect_spec l [] sorted_nil)). destruct (last_entry l k); reflexivity.
Qed.

End Names.
