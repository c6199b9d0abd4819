(** * Data sources filled by the JSON decoder *)

From Coq Require Import ZifyBool ZifyNat ZifyN.
From Verif Require Import Base BaseFacts StrModel StrFacts Utf8Model Utf8Facts TypesModel MarshalModel MarshalSpec LayoutProofs PresentsFacts JsonModel JsonSpec.

Lemma path_eqb_eq p q : path_eqb p q = true <-> p = q.
Proof.
  revert q; induction p as [|i p IH]; intros [|j q]; cbn [path_eqb]; split; intros H; try discriminate; try reflexivity.
  - apply andb_true_iff in H. destruct H as [H1 H2]. apply Nat.eqb_eq in H1. apply IH in H2. congruence.
  - injection H as -> ->. rewrite Nat.eqb_refl. apply IH. reflexivity.
Qed.

Lemma prim_eqb_eq p q : prim_eqb p q = true <-> p = q.
Proof. split; [destruct p, q; intros H; reflexivity || discriminate H|intros ->; destruct q; reflexivity]. Qed.

Lemma prim_eqb_refl p : prim_eqb p p = true.
Proof. apply prim_eqb_eq. reflexivity. Qed.

(** ** Overlays *)

Definition orelse {A} (a b : option A) : option A := match a with Some _ => a | None => b end.

Fixpoint strip (q p : path) : option path :=
  match q, p with
  | [], _ => Some p
  | i :: q', j :: p' => if i =? j then strip q' p' else None
  | _ :: _, [] => None
  end.

Lemma strip_app q r : strip q (q ++ r) = Some r.
Proof. induction q as [|i q IH]; [reflexivity|]. cbn [strip app]. rewrite Nat.eqb_refl. exact IH. Qed.

Lemma strip_some q p r : strip q p = Some r -> p = q ++ r.
Proof.
  revert p; induction q as [|i q IH]; intros p H; cbn [strip] in H; [injection H as ->; reflexivity|].
  destruct p as [|j p]; [discriminate|]. destruct (Nat.eqb_spec i j) as [->|]; [|discriminate]. cbn [app]. f_equal. apply IH. exact H.
Qed.

Lemma strip_snoc q i p : strip (q ++ [i]) p = match strip q p with Some (j :: r) => if i =? j then Some r else None | _ => None end.
Proof.
  revert p; induction q as [|j q IH]; intros p; cbn [app strip].
  - destruct p; reflexivity.
  - destruct p as [|j' p]; [reflexivity|]. destruct (j =? j'); [apply IH|reflexivity].
Qed.

(** The entries of [e] put below [q] on top of [g]. *)
Definition over (q : path) (e : path -> option jvalue) (g : path -> option jvalue) (p : path) : option jvalue :=
  match strip q p with Some r => orelse (e r) (g p) | None => g p end.

(** The same for several children of [q]. *)
Definition over_some (q : path) (E : nat -> path -> option jvalue) (order : list nat) (g : path -> option jvalue) (p : path) : option jvalue :=
  match strip q p with
  | Some (i :: r) => if existsb (Nat.eqb i) order then orelse (E i r) (g p) else g p
  | _ => g p
  end.

Lemma over_some_nil q E g p : over_some q E [] g p = g p.
Proof. unfold over_some. destruct (strip q p) as [[|i r]|]; reflexivity. Qed.

Lemma existsb_in i l : existsb (Nat.eqb i) l = true <-> In i l.
Proof.
  rewrite existsb_exists. split; [intros (x & Hx & E); apply Nat.eqb_eq in E; congruence|]. intros H. exists i. split; [exact H|apply Nat.eqb_refl].
Qed.

Lemma existsb_not_in i l : existsb (Nat.eqb i) l = false <-> ~ In i l.
Proof. rewrite <- existsb_in. destruct (existsb (Nat.eqb i) l); split; intros; congruence. Qed.

Lemma over_step q E i order g g1 g2 : ~ In i order ->
  (forall p, g1 p = over (q ++ [i]) (E i) g p) -> (forall p, g2 p = over_some q E order g1 p) ->
  forall p, g2 p = over_some q E (i :: order) g p.
Proof.
  intros Hi H1 H2 p. rewrite H2. unfold over_some. rewrite !H1. unfold over. rewrite !strip_snoc.
  destruct (strip q p) as [[|j r]|]; try reflexivity. cbn [existsb].
  destruct (Nat.eqb_spec j i) as [->|N].
  - apply existsb_not_in in Hi. rewrite Hi, Nat.eqb_refl. reflexivity.
  - destruct (Nat.eqb_spec i j); [congruence|]. reflexivity.
Qed.

(** ** The entries of a value *)

Fixpoint entry (q : path) (t : ty) (v : val) : option jvalue :=
  match q with
  | [] =>
      match t, v with
      | TPrim p, VPrim z => Some (JPrim p z)
      | TString, VStr bs => option_map JString (utf8_decode bs)
      | TEnum _, VCase k _ => Some (JTag k)
      | _, _ => None
      end
  | i :: q' =>
      match t, v with
      | TTuple ts, VTuple vs =>
          match nth_error ts i, nth_error vs i with Some t', Some v' => entry q' t' v' | _, _ => None end
      | TStruct fs, VStruct vs =>
          match nth_error fs i, nth_error vs i with Some (_, t'), Some v' => entry q' t' v' | _, _ => None end
      | TEnum cs, VCase k v' =>
          if i =? k then match nth_error cs k with Some (_, t') => entry q' t' v' | None => None end else None
      | _, _ => None
      end
  end.

Definition member_entry (ts : list ty) (vs : list val) (i : nat) (q : path) : option jvalue :=
  match nth_error ts i, nth_error vs i with Some t, Some v => entry q t v | _, _ => None end.

(** The data source [d] has, below [q], at least the entries of [v]. *)
Definition holds (d : ds) (q : path) (e : path -> option jvalue) : Prop :=
  forall r j, e r = Some j -> ds_get d (q ++ r) = Some j.

Lemma over_holds d q e g : (forall p, ds_get d p = over q e g p) -> holds d q e.
Proof. intros H r j E. rewrite H. unfold over. rewrite strip_app, E. reflexivity. Qed.

Lemma jsonable_presents fl t : forall v q d, jsonable fl t v -> holds d q (fun r => entry r t v) -> presents (ds_source d) t q v.
Proof.
  assert (G : forall A (g : A -> ty) l, Forall (fun a => forall v q d, jsonable fl (g a) v -> holds d q (fun r => entry r (g a) v) -> presents (ds_source d) (g a) q v) l ->
     forall vs q k d, jsonables fl (map g l) vs -> (forall i a v, nth_error l i = Some a -> nth_error vs i = Some v -> holds d (q ++ [k + i]) (fun r => entry r (g a) v)) ->
     presents_list (ds_source d) (map g l) q k vs).
  { intros A g l HF. induction HF as [|a l Ha Hl IH]; intros vs q k d Hj Hh; cbn [map] in *; inversion Hj; subst; constructor.
    - apply Ha; [assumption|]. specialize (Hh 0 a v eq_refl eq_refl). rewrite Nat.add_0_r in Hh. exact Hh.
    - apply IH; [assumption|]. intros i a' v' Ha' Hv'. specialize (Hh (S i) a' v' Ha' Hv'). rewrite Nat.add_succ_r in Hh. exact Hh. }
  induction t using ty_ind'; intros v q d Hj Hh.
  - inversion Hj; subst. constructor.
  - inversion Hj; subst. constructor. specialize (Hh [] _ eq_refl). rewrite app_nil_r in Hh. cbn [ds_source src_prim]. rewrite Hh, prim_eqb_refl. reflexivity.
  - inversion Hj as [| |s Hs| | |]; subst.
    assert (E : ds_get d q = Some (JString s)).
    { specialize (Hh []). cbn [entry] in Hh. rewrite app_nil_r in Hh. rewrite utf8_decode_encode in Hh; [apply Hh; reflexivity|].
      revert Hs. apply Forall_impl. intros c (Hc & _). exact Hc. }
    constructor; cbn [ds_source src_len src_bytes]; rewrite E; reflexivity.
  - inversion Hj as [| | |? vs Hjs| |]; subst. constructor. rewrite <- (map_id ts). apply (G _ (fun t => t) ts H); [rewrite map_id; exact Hjs|].
    intros i a v Ha Hv r j E. rewrite <- app_assoc. cbn [app Nat.add]. apply Hh. cbn [entry]. rewrite Ha, Hv. exact E.
  - inversion Hj as [| | | |? vs ? ? ? Hjs|]; subst. constructor. apply (G _ snd fs H); [exact Hjs|].
    intros i [l a] v Ha Hv r j E. rewrite <- app_assoc. cbn [app Nat.add]. apply Hh. cbn [entry]. rewrite Ha, Hv. exact E.
  - inversion Hj as [| | | | |? k l t v' ? Hn ? Hjv]; subst. econstructor; [|exact Hn|].
    + cbn [ds_source src_tag]. specialize (Hh [] _ eq_refl). rewrite app_nil_r in Hh. rewrite Hh. reflexivity.
    + rewrite Forall_forall in H. apply (H (l, t)); [eapply nth_error_In; exact Hn|exact Hjv|].
      intros r j E. rewrite <- app_assoc. apply Hh. cbn [entry app]. rewrite Nat.eqb_refl, Hn. exact E.
Qed.
