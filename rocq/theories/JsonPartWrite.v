(** * Parts of JSON texts that are written *)

From Coq Require Import Strings.String.
From Verif Require Import Base StrModel Utf8Model TypesModel MarshalModel MarshalSpec LayoutProofs JsonModel JsonSpec JsonPartSpec.
Local Open Scope list_scope.

Lemma ret_eq {A : Type} (a b : A) : Ret a = Ret b -> a = b.
Proof. congruence. Qed.

Section Write.
Context (fl : floats).

(** ** The encoder sees neither the source nor the path, only the value *)

Lemma case_at (h : str * ty -> outcome (list byte)) cs : forall j c, nth_error cs j = Some c -> emit_case h cs j = h c.
Proof. induction cs as [|a cs IH]; intros [|j] c Hc; try discriminate; cbn in *; [injection Hc as ->; reflexivity|apply IH; exact Hc]. Qed.

Lemma emit_moved t : forall src src' q q' v, presents src t q v -> presents src' t q' v -> emit fl src t q = emit fl src' t q'.
Proof.
  assert (G : forall A (g : A -> ty) (h h' : A -> path -> outcome (list byte)) l src src',
     Forall (fun a => forall q q' v, presents src (g a) q v -> presents src' (g a) q' v -> h a q = h' a q') l ->
     forall q q' k vs, presents_list src (map g l) q k vs -> presents_list src' (map g l) q' k vs -> emit_members h l q k = emit_members h' l q' k).
  { intros A g h h' l src src' HF. induction HF as [|a l Ha Hl IH]; intros q q' k vs H1 H2; cbn [map emit_members] in *; [reflexivity|].
    inversion H1; subst. inversion H2; subst. unfold with_component. rewrite (Ha (q ++ [k]) (q' ++ [k]) v) by assumption. rewrite (IH q q' (S k) vs0) by assumption. reflexivity. }
  induction t using ty_ind'; intros src src' q q' v H1 H2; cbn [emit].
  - reflexivity.
  - inversion H1; subst. inversion H2; subst. unfold emit_prim. congruence.
  - inversion H1; subst. inversion H2; subst. congruence.
  - inversion H1; subst. inversion H2; subst.
    rewrite (G _ (fun t => t) (emit fl src) (emit fl src') ts src src') with (vs := vs) (q' := q'); rewrite ?map_id; auto.
    revert H. apply Forall_impl. intros t Ht a a' v' A B. apply (Ht _ _ _ _ v'); assumption.
  - inversion H1; subst. inversion H2; subst.
    erewrite (G _ snd _ _ fs src src') with (vs := vs) (q' := q'); auto. revert H. apply Forall_impl. intros [l t] Ht a a' v' A B. cbn [fst snd] in *.
    rewrite (Ht _ _ _ _ v' A B). reflexivity.
  - inversion H1 as [| | | | |? ? k l t v' Hk Hn Hv]; subst. inversion H2 as [| | | | |? ? ? l' t' ? Hk' Hn' Hv']; subst.
    rewrite Hk, Hk'. cbn [bind]. rewrite Hn in Hn'. injection Hn' as <- <-. rewrite Forall_forall in H.
    pose proof (H _ (nth_error_In _ _ Hn) src src' (q ++ [k]) (q' ++ [k]) v' Hv Hv') as X. cbn [snd] in X.
    rewrite !(case_at _ _ _ _ Hn). cbn [fst snd]. unfold with_component. rewrite X. reflexivity.
Qed.

(** ** One element, one member *)

Section Members.
Context {A : Type} (g : A -> ty) (h h' : A -> path -> outcome (list byte)) (src src' : source).
Hypothesis same : forall a q q' v, presents src (g a) q v -> presents src' (g a) q' v -> h a q = h' a q'.

Lemma members_same l : forall q q' k vs, presents_list src (map g l) q k vs -> presents_list src' (map g l) q' k vs -> emit_members h l q k = emit_members h' l q' k.
Proof.
  induction l as [|a l IH]; intros q q' k vs H1 H2; cbn [map emit_members] in *; [reflexivity|].
  inversion H1; subst. inversion H2; subst. unfold with_component. rewrite (same a (q ++ [k]) (q' ++ [k]) v) by assumption. rewrite (IH q q' (S k) vs0) by assumption. reflexivity.
Qed.

Lemma members_one v v' vs2 vs1 : forall l a q q' k bs bs', nth_error l (List.length vs1) = Some a ->
  presents_list src (map g l) q k (vs1 ++ v :: vs2) -> presents_list src' (map g l) q' k (vs1 ++ v' :: vs2) ->
  emit_members h l q k = Ret bs -> emit_members h' l q' k = Ret bs' ->
  exists p x x' r b b', bs = p ++ x ++ r /\ bs' = p ++ x' ++ r /\ h a b = Ret x /\ h' a b' = Ret x' /\ presents src (g a) b v /\ presents src' (g a) b' v'.
Proof.
  induction vs1 as [|y vs1 IH]; intros [|a0 l] a q q' k bs bs' N H1 H2 E1 E2; try discriminate N; cbn [List.length nth_error app map emit_members] in *.
  - injection N as ->. inversion H1; subst. inversion H2; subst. unfold with_component in *.
    destruct (h a (q ++ [k])) as [x| |] eqn:Ex; cbn [bind] in E1; try discriminate E1.
    destruct (h' a (q' ++ [k])) as [x'| |] eqn:Ex'; cbn [bind] in E2; try discriminate E2.
    match goal with P : presents_list src _ _ _ _, P' : presents_list src' _ _ _ _, Q : presents_list src (map g l) q (S k) vs2, Q' : presents_list src' (map g l) q' (S k) vs2 |- _ => rewrite (members_same _ _ _ _ _ Q Q') in E1 end.
    destruct (emit_members h' l q' (S k)) as [r| |]; cbn [bind] in E1, E2; try discriminate E1.
    apply ret_eq in E1; subst bs. apply ret_eq in E2; subst bs'. exists (if (k =? 0)%nat then [] else utf8_encode (lit ",")), x, x', r, (q ++ [k]), (q' ++ [k]). repeat (split; [first [reflexivity|eassumption]|]). assumption.
  - inversion H1; subst. inversion H2; subst. unfold with_component in *.
    assert (Es : h a0 (q ++ [k]) = h' a0 (q' ++ [k])) by (eapply same; eassumption). rewrite Es in E1.
    destruct (h' a0 (q' ++ [k])) as [z| |]; cbn [bind] in E1, E2; try discriminate E1.
    destruct (emit_members h l q (S k)) as [r1| |] eqn:R1; cbn [bind] in E1; try discriminate E1.
    destruct (emit_members h' l q' (S k)) as [r2| |] eqn:R2; cbn [bind] in E2; try discriminate E2.
    apply ret_eq in E1; subst bs. apply ret_eq in E2; subst bs'.
    match goal with Q : presents_list src (map g l) q (S k) _, Q' : presents_list src' (map g l) q' (S k) _ |- _ =>
      destruct (IH _ _ _ _ _ _ _ N Q Q' R1 R2) as (p & x & x' & r & b & b' & -> & -> & R) end.
    exists ((if (k =? 0)%nat then [] else utf8_encode (lit ",")) ++ z ++ p), x, x', r, b, b'. split; [rewrite <- !app_assoc; reflexivity|]. split; [rewrite <- !app_assoc; reflexivity|exact R].
Qed.
End Members.

(** ** Any depth *)

Lemma part_emitted t v q u w : component t v q u w -> forall w' v' src src' a a' bs bs', replaced q w' v v' ->
  presents src t a v -> presents src' t a' v' -> emit fl src t a = Ret bs -> emit fl src' t a' = Ret bs' ->
  exists p x x' r b b', bs = p ++ x ++ r /\ bs' = p ++ x' ++ r /\ presents src u b w /\ presents src' u b' w' /\ emit fl src u b = Ret x /\ emit fl src' u b' = Ret x'.
Proof.
  intros C. induction C as [t v|ts vs i t v q u w Nt Nv C IH|fs vs i l t v q u w Nt Nv C IH|cs k l t v q u w Nt C IH]; intros w' v2 src src' a a' bs bs' R P P' E E'.
  - inversion R; subst. exists [], bs, bs', [], a, a'. rewrite !app_nil_r. repeat (split; [first [reflexivity|assumption]|]). assumption.
  - inversion R as [|vs1 x x' vs2 q0 w0 R0 L E0 E1 E2| |]; subst. rewrite nth_error_app2, Nat.sub_diag in Nv by lia. cbn in Nv. injection Nv as ->.
    cbn [emit] in E, E'. destruct (emit_members (emit fl src) ts a 0) as [m| |] eqn:M; cbn [bind] in E; try discriminate E.
    destruct (emit_members (emit fl src') ts a' 0) as [m'| |] eqn:M'; cbn [bind] in E'; try discriminate E'. apply ret_eq in E; subst bs. apply ret_eq in E'; subst bs'.
    inversion P; subst. inversion P'; subst.
    destruct (members_one (fun t => t) (emit fl src) (emit fl src') src src' (fun b c c' y Y Y' => emit_moved b _ _ _ _ y Y Y') v x' vs2 vs1 ts t a a' 0 m m') as (p & y & y' & r & b & b' & -> & -> & Y & Y' & Z & Z');
      rewrite ?map_id; try assumption.
    destruct (IH _ _ _ _ _ _ _ _ R0 Z Z' Y Y') as (p2 & d & d' & r2 & c & c' & -> & -> & F).
    exists (utf8_encode (lit "[") ++ p ++ p2), d, d', (r2 ++ r ++ utf8_encode (lit "]")), c, c'. split; [rewrite <- !app_assoc; reflexivity|]. split; [rewrite <- !app_assoc; reflexivity|exact F].
  - inversion R as [| |vs1 x x' vs2 q0 w0 R0 L E0 E1 E2|]; subst. rewrite nth_error_app2, Nat.sub_diag in Nv by lia. cbn in Nv. injection Nv as ->.
    cbn [emit] in E, E'.
    match type of E with bind (emit_members ?h ?l a 0) _ = _ => destruct (emit_members h l a 0) as [m| |] eqn:M end; cbn [bind] in E; try discriminate E.
    match type of E' with bind (emit_members ?h ?l a' 0) _ = _ => destruct (emit_members h l a' 0) as [m'| |] eqn:M' end; cbn [bind] in E'; try discriminate E'.
    apply ret_eq in E; subst bs. apply ret_eq in E'; subst bs'. inversion P; subst. inversion P'; subst.
    match type of M with emit_members ?h _ _ _ = _ => match type of M' with emit_members ?h' _ _ _ = _ =>
      destruct (members_one snd h h' src src') with (v := v) (v' := x') (vs2 := vs2) (vs1 := vs1) (l := fs) (a := (l, t)) (q := a) (q' := a') (k := 0%nat) (bs := m) (bs' := m')
        as (p & y & y' & r & b & b' & -> & -> & Y & Y' & Z & Z') end end; try assumption.
    { intros f c c' y Y Y'. rewrite (emit_moved (snd f) _ _ _ _ y Y Y'). reflexivity. }
    cbn [fst snd] in *.
    destruct (emit fl src t b) as [d1| |] eqn:D1; cbn [bind] in Y; try discriminate Y. destruct (emit fl src' t b') as [d2| |] eqn:D2; cbn [bind] in Y'; try discriminate Y'.
    apply ret_eq in Y; subst y. apply ret_eq in Y'; subst y'.
    destruct (IH _ _ _ _ _ _ _ _ R0 Z Z' D1 D2) as (p2 & d & d' & r2 & c & c' & -> & -> & F).
    exists (utf8_encode (lit "{") ++ p ++ emit_utf8_string l ++ utf8_encode (lit ":") ++ p2), d, d', (r2 ++ r ++ utf8_encode (lit "}")), c, c'.
    split; [rewrite <- !app_assoc; reflexivity|]. split; [rewrite <- !app_assoc; reflexivity|exact F].
  - inversion R as [| | |k0 x x' q0 w0 R0]; subst.
    inversion P as [| | | | |? ? ? l1 t1 v1 Hk Hn Hv]; subst. inversion P' as [| | | | |? ? ? l2 t2 v3 Hk' Hn' Hv']; subst.
    rewrite Nt in Hn. injection Hn as <- <-. rewrite Nt in Hn'. injection Hn' as <- <-.
    cbn [emit] in E, E'. rewrite Hk in E. rewrite Hk' in E'. cbn [bind] in E, E'. rewrite (case_at _ _ _ _ Nt) in E. rewrite (case_at _ _ _ _ Nt) in E'. cbn [fst snd] in E, E'.
    unfold with_component in *.
    destruct (emit fl src t (a ++ [k])) as [d1| |] eqn:D1; cbn [bind] in E; try discriminate E. destruct (emit fl src' t (a' ++ [k])) as [d2| |] eqn:D2; cbn [bind] in E'; try discriminate E'.
    apply ret_eq in E; subst bs. apply ret_eq in E'; subst bs'.
    destruct (IH _ _ _ _ _ _ _ _ R0 Hv Hv' D1 D2) as (p2 & d & d' & r2 & c & c' & -> & -> & F).
    exists (utf8_encode (lit "{""kind"":") ++ emit_utf8_string l ++ utf8_encode (lit ",""value"":") ++ p2), d, d', (r2 ++ utf8_encode (lit "}")), c, c'.
    split; [rewrite <- !app_assoc; reflexivity|]. split; [rewrite <- !app_assoc; reflexivity|exact F].
Qed.

Lemma part_written_lemma t v q u w w' v' src src' su su' bs bs' : component t v q u w -> replaced q w' v v' ->
  presents src t [] v -> presents src' t [] v' -> presents su u [] w -> presents su' u [] w' ->
  json_encode fl t src = Ret bs -> json_encode fl t src' = Ret bs' ->
  exists p d d' k, bs = p ++ d ++ k /\ bs' = p ++ d' ++ k /\ json_encode fl u su = Ret d /\ json_encode fl u su' = Ret d'.
Proof.
  intros C R P P' Q Q' E E'. destruct (part_emitted _ _ _ _ _ C _ _ _ _ _ _ _ _ R P P' E E') as (p & x & x' & r & b & b' & -> & -> & B & B' & X & X').
  exists p, x, x', r. split; [reflexivity|]. split; [reflexivity|]. unfold json_encode. split.
  - rewrite <- X. exact (emit_moved _ _ _ _ _ _ Q B).
  - rewrite <- X'. exact (emit_moved _ _ _ _ _ _ Q' B').
Qed.

End Write.
