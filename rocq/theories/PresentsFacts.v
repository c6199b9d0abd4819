(** * What a source presents, element by element *)

From Coq Require Import ZifyBool ZifyNat ZifyN.
From Verif Require Import Base BaseFacts StrModel TypesModel TypesSpec TypesProofs.
From Verif Require Import MarshalModel MarshalSpec ListFacts LayoutProofs.

Definition answers (src : source) (e : path * fk) : Prop :=
  match snd e with
  | KPrim p => exists z, src_prim src p (fst e) = Ret z /\ in_range p z
  | KStr => exists bs, src_len src (fst e) = Ret (length bs) /\ src_bytes src (fst e) = Ret bs /\
                       (Z.of_nat (length bs) < 2 ^ 32)%Z
  | KTag cs => exists k l t v, src_tag src (fst e) = Ret k /\ nth_error cs k = Some (l, t) /\
                               presents src t (fst e ++ [k]) v /\ typed t v
  end.

Lemma presents_flat src t : forall q v, presents src t q v -> typed t v -> Forall (answers src) (flat t q).
Proof.
  assert (G : forall A (g : A -> ty) l,
    Forall (fun a => forall q v, presents src (g a) q v -> typed (g a) v -> Forall (answers src) (flat (g a) q)) l ->
    forall q k vs, presents_list src (map g l) q k vs -> typed_list (map g l) vs ->
    Forall (answers src) (flat_members (fun a => flat (g a)) l q k)).
  { intros A g l HF. induction HF as [|a l Ha Hl IH]; intros q k vs Hp Ht; cbn [flat_members map] in *; [constructor|].
    inversion Hp; subst. inversion Ht; subst. apply Forall_app. split; [eapply Ha; eassumption|eapply IH; eassumption]. }
  induction t using ty_ind'; intros q v Hp Ht; cbn [flat].
  - constructor.
  - inversion Hp; subst. inversion Ht; subst. constructor; [|constructor]. exists z. auto.
  - inversion Hp; subst. inversion Ht; subst. constructor; [|constructor]. exists bs. auto.
  - inversion Hp; subst. inversion Ht; subst. apply (G _ (fun t => t) _ H q 0 vs); rewrite map_id; assumption.
  - inversion Hp; subst. inversion Ht; subst. apply (G _ (fun f => snd f) _ H q 0 vs); assumption.
  - inversion Hp as [| | | | |? ? k l t v' Hk Hn Hv]; subst. inversion Ht as [| | | | |? ? l' t' ? Hn' Hv']; subst.
    constructor; [|constructor]. exists k, l, t, v'. rewrite Hn in Hn'. injection Hn' as <- <-. auto.
Qed.

Definition agrees (src src' : source) (e : path * fk) : Prop :=
  match snd e with
  | KPrim p => src_prim src' p (fst e) = src_prim src p (fst e)
  | KStr => src_len src' (fst e) = src_len src (fst e) /\ src_bytes src' (fst e) = src_bytes src (fst e)
  | KTag cs =>
      src_tag src' (fst e) = src_tag src (fst e) /\
      forall k l t v, src_tag src (fst e) = Ret k -> nth_error cs k = Some (l, t) ->
        presents src t (fst e ++ [k]) v -> typed t v -> presents src' t (fst e ++ [k]) v
  end.

Lemma presents_build src src' t : forall q v,
  presents src t q v -> typed t v -> Forall (agrees src src') (flat t q) -> presents src' t q v.
Proof.
  assert (G : forall A (g : A -> ty) l,
    Forall (fun a => forall q v, presents src (g a) q v -> typed (g a) v -> Forall (agrees src src') (flat (g a) q) ->
                                 presents src' (g a) q v) l ->
    forall q k vs, presents_list src (map g l) q k vs -> typed_list (map g l) vs ->
    Forall (agrees src src') (flat_members (fun a => flat (g a)) l q k) -> presents_list src' (map g l) q k vs).
  { intros A g l HF. induction HF as [|a l Ha Hl IH]; intros q k vs Hp Ht Hag; cbn [flat_members map] in *.
    - inversion Hp; subst. constructor.
    - inversion Hp; subst. inversion Ht; subst. apply Forall_app in Hag as [Hag1 Hag2].
      constructor; [apply Ha; assumption|apply IH; assumption]. }
  induction t using ty_ind'; intros q v Hp Ht Hag; cbn [flat] in Hag.
  - inversion Hp; subst. constructor.
  - inversion Hp; subst. inversion Hag as [|? ? Ha _]; subst. unfold agrees in Ha. cbn [fst snd] in Ha. constructor. congruence.
  - inversion Hp; subst. pose proof (Forall_inv Hag) as Hab. unfold agrees in Hab. cbn [fst snd] in Hab. destruct Hab as [Ha Hb]. constructor; congruence.
  - inversion Hp; subst. inversion Ht; subst. constructor.
    pose proof (G _ (fun t => t) _ H q 0 vs) as G'. rewrite map_id in G'. apply G'; assumption.
  - inversion Hp; subst. inversion Ht; subst. constructor. apply (G _ (fun f => snd f) _ H q 0 vs); assumption.
  - inversion Hp as [| | | | |? ? k l t v' Hk Hn Hv]; subst. inversion Ht as [| | | | |? ? l' t' ? Hn' Hv']; subst.
    rewrite Hn in Hn'. injection Hn' as <- <-. pose proof (Forall_inv Hag) as Hab. unfold agrees in Hab. cbn [fst snd] in Hab. destruct Hab as [Ha Hb].
    econstructor; [congruence|exact Hn|]. eapply Hb; eassumption.
Qed.

(** Two sources with the same answers below a path present the same there. *)
Definition same_below (s s' : source) (q : path) : Prop := forall q', extends q q' ->
  (forall p, src_prim s' p q' = src_prim s p q') /\ src_tag s' q' = src_tag s q' /\
  src_len s' q' = src_len s q' /\ src_bytes s' q' = src_bytes s q'.

Lemma extends_refl q : extends q q.
Proof. exists []. rewrite app_nil_r. reflexivity. Qed.

Lemma extends_trans p q r : extends p q -> extends q r -> extends p r.
Proof. intros [s ->] [s' ->]. exists (s ++ s'). rewrite app_assoc. reflexivity. Qed.

Lemma extends_snoc q k : extends q (q ++ [k]).
Proof. exists [k]. reflexivity. Qed.

Lemma same_below_snoc s s' q k : same_below s s' q -> same_below s s' (q ++ [k]).
Proof. intros H q' Hq. apply H. eapply extends_trans; [apply extends_snoc|exact Hq]. Qed.

Lemma presents_ext s s' t : forall q v, presents s t q v -> same_below s s' q -> presents s' t q v.
Proof.
  assert (G : forall A (g : A -> ty) l,
    Forall (fun a => forall q v, presents s (g a) q v -> same_below s s' q -> presents s' (g a) q v) l ->
    forall q k vs, presents_list s (map g l) q k vs -> same_below s s' q -> presents_list s' (map g l) q k vs).
  { intros A g l HF. induction HF as [|a l Ha Hl IH]; intros q k vs Hp Hs; cbn [map] in *.
    - inversion Hp; subst. constructor.
    - inversion Hp; subst. constructor; [apply Ha; [assumption|apply same_below_snoc; assumption]|apply IH; assumption]. }
  induction t using ty_ind'; intros q v Hp Hs; pose proof (Hs q (extends_refl q)) as (S1 & S2 & S3 & S4).
  - inversion Hp; subst. constructor.
  - inversion Hp; subst. constructor. congruence.
  - inversion Hp; subst. constructor; congruence.
  - inversion Hp; subst. constructor.
    pose proof (G _ (fun t => t) _ H q 0 vs) as G'. rewrite map_id in G'. apply G'; assumption.
  - inversion Hp; subst. constructor. apply (G _ (fun f => snd f) _ H q 0 vs); assumption.
  - inversion Hp as [| | | | |? ? k l t v' Hk Hn Hv]; subst. econstructor; [congruence|exact Hn|].
    rewrite Forall_forall in H. apply (H _ (nth_error_In _ _ Hn)); [exact Hv|apply same_below_snoc; exact Hs].
Qed.
