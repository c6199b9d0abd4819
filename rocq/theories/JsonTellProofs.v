(** * JSON texts determine the values they were written for (C107) *)

From Coq Require Import Strings.String ZifyBool ZifyNat ZifyN.
From Verif Require Import Base BaseFacts StrModel StrFacts Utf8Model Utf8Facts TypesModel MarshalModel MarshalSpec LayoutProofs JsonModel JsonSpec JsonEmit JsonPartWrite JsonTellSpec.
Local Open Scope list_scope.
Local Open Scope Z_scope.
Ltac Zify.zify_post_hook ::= Z.div_mod_to_equations.

(** ** Characters *)

(** A reader for what [write_ch] writes, on numbers instead of bytes. *)
Definition unescape (e : Z) : Z :=
  if e =? 48 then 0 else if e =? 98 then 8 else if e =? 102 then 12 else if e =? 110 then 10 else if e =? 114 then 13 else if e =? 116 then 9 else e.

Definition rd (l : list Z) : option (Z * list Z) :=
  match l with
  | [] => None
  | b :: l =>
      if b =? 92 then
        match l with
        | 117 :: _ :: _ :: h :: k :: l => Some (16 * (h - 48) + (k - 48), l)
        | e :: l => Some (unescape e, l)
        | [] => None
        end
      else if b <? 192 then Some (b, l)
      else if b <? 224 then match l with c :: l => Some (64 * (b - 192) + (c - 128), l) | _ => None end
      else if b <? 240 then match l with c :: d :: l => Some (4096 * (b - 224) + 64 * (c - 128) + (d - 128), l) | _ => None end
      else match l with c :: d :: e :: l => Some (262144 * (b - 240) + 4096 * (c - 128) + 64 * (d - 128) + (e - 128), l) | _ => None end
  end.

Lemma rd_write c r : is_char c = true -> rd (map b2z (write_ch c) ++ r) = Some (c, r).
Proof.
  intros H. unfold is_char in H. destruct (Z.lt_ge_cases c 0x8000) as [L|L].
  - rewrite write_ch_text by (unfold is_char; lia). unfold char_text.
    repeat match goal with |- context [if c =? ?n then _ else _] => destruct (Z.eqb_spec c n); [subst c; reflexivity|] end.
    destruct (Z.ltb_spec c 32).
    { rewrite utf8_app. unfold utf8_encode at 2. cbn [flat_map]. unfold utf8_char. replace (48 + c / 16 <? 128) with true by lia. replace (48 + c mod 16 <? 128) with true by lia.
      change (utf8_encode (lit "\u00")) with [x5c; x75; x30; x30]. cbn [app map]. rewrite !b2z_z2b_small by lia. 
      change (b2z x5c) with 92. change (b2z x75) with 117. cbn [rd]. change (92 =? 92) with true. cbn iota. do 2 f_equal. lia. }
    unfold utf8_encode. cbn [flat_map]. rewrite app_nil_r. unfold utf8_char.
    destruct (Z.ltb_spec c 128).
    { cbn [map app]. rewrite b2z_z2b_small by lia. unfold rd. replace (c =? 92) with false by lia. replace (c <? 192) with true by lia. reflexivity. }
    destruct (Z.ltb_spec c 2048).
    { cbn [map app]. rewrite !b2z_z2b_small by lia. unfold rd. replace (192 + c / 64 =? 92) with false by lia. replace (192 + c / 64 <? 192) with false by lia.
      replace (192 + c / 64 <? 224) with true by lia. do 2 f_equal. lia. }
    replace (c <? 65536) with true by lia. cbn [map app]. rewrite !b2z_z2b_small by lia. unfold rd. replace (224 + c / 4096 =? 92) with false by lia. replace (224 + c / 4096 <? 192) with false by lia.
    replace (224 + c / 4096 <? 224) with false by lia. replace (224 + c / 4096 <? 240) with true by lia. do 2 f_equal. lia.
  - rewrite write_ch_long by lia. cbn [map app]. rewrite !b2z_z2b_small by lia. unfold rd.
    set (b := 240 + c / 262144 mod 8). assert (240 <= b) by lia. replace (b =? 92) with false by lia. replace (b <? 192) with false by lia. replace (b <? 224) with false by lia. replace (b <? 240) with false by lia.
    subst b. do 2 f_equal. lia.
Qed.

Lemma bytes_inj a b : map b2z a = map b2z b -> a = b.
Proof.
  revert b. induction a as [|x a IH]; intros [|y b] H; try discriminate H; [reflexivity|]. cbn in H. injection H as H1 H2.
  f_equal; [|auto]. rewrite <- (z2b_b2z x), <- (z2b_b2z y). congruence.
Qed.

Lemma write_ch_code c c' r r' : is_char c = true -> is_char c' = true -> write_ch c ++ r = write_ch c' ++ r' -> c = c' /\ r = r'.
Proof.
  intros H H' E. apply (f_equal (map b2z)) in E. rewrite !map_app in E. apply (f_equal rd) in E. rewrite !rd_write in E by assumption.
  injection E as -> E. split; [reflexivity|]. apply bytes_inj. exact E.
Qed.

Lemma write_ch_no_quote c r r' : is_char c = true -> write_ch c ++ r <> x22 :: r'.
Proof.
  intros H E. apply (f_equal (map b2z)) in E. rewrite map_app in E. pose proof (rd_write c (map b2z r) H) as R. rewrite E in R.
  cbn [map] in R. change (b2z x22) with 34 in R. cbn in R. injection R as <- R. cbn in E. discriminate E.
Qed.

Lemma chars_code s : forall s' r r', Forall (fun c => is_char c = true) s -> Forall (fun c => is_char c = true) s' ->
  flat_map write_ch s ++ x22 :: r = flat_map write_ch s' ++ x22 :: r' -> s = s' /\ r = r'.
Proof.
  induction s as [|c s IH]; intros [|c' s'] r r' F F' E; cbn [flat_map app] in E.
  - injection E as ->. auto.
  - inversion F'; subst. rewrite <- app_assoc in E. symmetry in E. exfalso. eapply write_ch_no_quote; eassumption.
  - inversion F; subst. rewrite <- app_assoc in E. exfalso. eapply write_ch_no_quote; eassumption.
  - inversion F; subst. inversion F'; subst. rewrite <- !app_assoc in E. apply write_ch_code in E; [|assumption..]. destruct E as (-> & E).
    apply IH in E; [|assumption..]. destruct E as (-> & ->). auto.
Qed.

Lemma string_code s s' r r' : Forall (fun c => is_char c = true) s -> Forall (fun c => is_char c = true) s' ->
  emit_utf8_string s ++ r = emit_utf8_string s' ++ r' -> s = s' /\ r = r'.
Proof.
  intros F F' E. unfold emit_utf8_string in E. change (utf8_encode (lit """")) with [x22] in E. rewrite <- !app_assoc in E. cbn [app] in E. injection E as E.
  apply chars_code; assumption.
Qed.

(** ** Numbers *)

Definition stop (r : list byte) : Prop := match r with [] => True | b :: _ => b = x2c \/ b = x5d \/ b = x7d end.

Lemma plain_byte c : plain c -> utf8_char c = [z2b c] /\ z2b c <> x2c /\ z2b c <> x5d /\ z2b c <> x7d.
Proof.
  intros (H & A & B & C). unfold utf8_char. replace (c <? 128) with true by lia. split; [reflexivity|].
  repeat split; intros E; apply (f_equal b2z) in E; rewrite b2z_z2b_small in E by lia; [change (b2z x2c) with 44 in E|change (b2z x5d) with 93 in E|change (b2z x7d) with 125 in E]; lia.
Qed.

Lemma plain_code x : forall x' r r', Forall plain x -> Forall plain x' -> stop r -> stop r' -> utf8_encode x ++ r = utf8_encode x' ++ r' -> x = x' /\ r = r'.
Proof.
  induction x as [|c x IH]; intros [|c' x'] r r' F F' S S' E; unfold utf8_encode in E; cbn [flat_map app] in E.
  - auto.
  - inversion F' as [|? ? P F1]; subst. destruct (plain_byte _ P) as (U & A & B & C). rewrite U in S. cbn in S. intuition congruence.
  - inversion F as [|? ? P F1]; subst. destruct (plain_byte _ P) as (U & A & B & C). rewrite U in S'. cbn in S'. intuition congruence.
  - inversion F as [|? ? P F1]; subst. inversion F' as [|? ? P' F1']; subst. destruct (plain_byte _ P) as (U & _). destruct (plain_byte _ P') as (U' & _). rewrite U, U' in E. cbn [app] in E.
    assert (E1 : z2b c = z2b c') by congruence. assert (E2 : flat_map utf8_char x ++ r = flat_map utf8_char x' ++ r') by congruence.
    destruct (IH x' r r' F1 F1' S S' E2) as (-> & ->). split; [|reflexivity]. apply (f_equal b2z) in E1. destruct P as (P & _), P' as (P' & _). rewrite !b2z_z2b_small in E1 by lia. congruence.
Qed.

Lemma digits_plain x : forallb is_digit x = true -> Forall plain x.
Proof. intros H. rewrite forallb_forall in H. apply Forall_forall. intros c I. apply H in I. unfold is_digit in I. unfold plain. lia. Qed.

Lemma show_int_plain z : Forall plain (show_int z).
Proof.
  destruct (Z.lt_ge_cases z 0) as [L|L]; [rewrite show_int_neg by lia; constructor; [unfold plain; lia|]|]; apply digits_plain; apply show_int_digits; lia.
Qed.

Lemma show_int_once z z' : show_int z = show_int z' -> z = z'.
Proof.
  assert (N : forall a b, 0 <= a -> b < 0 -> show_int a <> show_int b).
  { intros a b A B E. rewrite (show_int_neg b) in E by lia. destruct (show_int_digits a A) as (D & _). rewrite E in D. cbn in D. discriminate D. }
  assert (P : forall a b, 0 <= a -> 0 <= b -> show_int a = show_int b -> a = b).
  { intros a b A B E. destruct (show_int_digits a A) as (_ & D & _). destruct (show_int_digits b B) as (_ & D' & _). congruence. }
  intros E. destruct (Z.lt_ge_cases z 0) as [L|L]; destruct (Z.lt_ge_cases z' 0) as [L'|L'].
  - rewrite (show_int_neg z), (show_int_neg z') in E by lia. injection E as E. apply P in E; lia.
  - symmetry in E. apply N in E; [destruct E|lia..].
  - apply N in E; [destruct E|lia..].
  - apply P in E; lia.
Qed.

Lemma prim_code fl src src' p q q' z z' bs bs' r r' : plain_floats fl -> src_prim src p q = Ret z -> src_prim src' p q' = Ret z' -> in_range p z -> in_range p z' ->
  emit_prim fl src p q = Ret bs -> emit_prim fl src' p q' = Ret bs' -> stop r -> stop r' -> bs ++ r = bs' ++ r' -> alike fl (TPrim p) (VPrim z) (VPrim z') /\ r = r'.
Proof.
  intros PF P P' I I' E E' S S' X. unfold emit_prim in E, E'. rewrite P in E. rewrite P' in E'. cbn [bind] in E, E'. apply ret_eq in E, E'. subst bs bs'.
  assert (G : utf8_encode (show_int z) ++ r = utf8_encode (show_int z') ++ r' -> alike fl (TPrim p) (VPrim z) (VPrim z') /\ r = r').
  { intros Y. apply plain_code in Y; auto using show_int_plain. destruct Y as (Y & ->). apply show_int_once in Y. subst. split; [constructor|reflexivity]. }
  assert (F : p = PF32 \/ p = PF64 -> utf8_encode (show_float fl p z) ++ r = utf8_encode (show_float fl p z') ++ r' -> alike fl (TPrim p) (VPrim z) (VPrim z') /\ r = r').
  { intros Hp Y. apply plain_code in Y; auto. destruct Y as (Y & ->). split; [apply al_float; assumption|reflexivity]. }
  destruct p; try (apply G; exact X); try (apply F; [tauto|exact X]).
  - cbn in I, I'. destruct I as [->| ->], I' as [->| ->]; cbn in X; try discriminate X; injection X as ->; split; constructor.
  - change (utf8_encode (lit """")) with [x22] in X. rewrite <- !app_assoc in X. cbn [app] in X. injection X as X. apply write_ch_code in X; [|assumption..]. destruct X as (-> & X). injection X as ->. split; constructor.
Qed.

(** ** Values *)

Section Tell.
Context (fl : floats) (plainf : plain_floats fl).

Definition tells (t : ty) (h h' : path -> outcome (list byte)) (src src' : source) : Prop :=
  forall q q' v v' bs bs' r r', presents src t q v -> presents src' t q' v' -> typed t v -> typed t v' -> h q = Ret bs -> h' q' = Ret bs' ->
  stop r -> stop r' -> bs ++ r = bs' ++ r' -> alike fl t v v' /\ r = r'.

Lemma members_stop {A : Type} (h : A -> path -> outcome (list byte)) l q k bs r : emit_members h l q (S k) = Ret bs -> stop r -> stop (bs ++ r).
Proof.
  destruct l as [|a l]; cbn [emit_members]; intros E S; [apply ret_eq in E; subst; exact S|].
  destruct (h a _) as [b| |]; cbn [bind] in E; try discriminate E. destruct (emit_members _ _ _ _) as [x| |]; cbn [bind] in E; try discriminate E.
  apply ret_eq in E. subst bs. change (Datatypes.S k =? 0)%nat with false. cbn iota. change (utf8_encode (lit ",")) with [x2c]. left. reflexivity.
Qed.

Lemma members_tell {A : Type} (g : A -> ty) (h h' : A -> path -> outcome (list byte)) src src' l :
  Forall (fun a => tells (g a) (h a) (h' a) src src') l ->
  forall q q' k vs vs' bs bs' r r', presents_list src (map g l) q k vs -> presents_list src' (map g l) q' k vs' -> typed_list (map g l) vs -> typed_list (map g l) vs' ->
  emit_members h l q k = Ret bs -> emit_members h' l q' k = Ret bs' -> stop r -> stop r' -> bs ++ r = bs' ++ r' -> alike_list fl (map g l) vs vs' /\ r = r'.
Proof.
  induction 1 as [|a l Ha Hl IH]; intros q q' k vs vs' bs bs' r r' P P' T T' E E' S S' X; cbn [map emit_members] in *.
  - inversion T; subst. inversion T'; subst. apply ret_eq in E, E'. subst. split; [constructor|exact X].
  - inversion T as [|? ? v vs0 Tv Tl]; subst. inversion T' as [|? ? v' vs0' Tv' Tl']; subst. inversion P; subst. inversion P'; subst.
    destruct (h a _) as [b| |] eqn:B; cbn [bind] in E; try discriminate E. destruct (emit_members h l _ _) as [x| |] eqn:M; cbn [bind] in E; try discriminate E.
    destruct (h' a _) as [b'| |] eqn:B'; cbn [bind] in E'; try discriminate E'. destruct (emit_members h' l _ _) as [x'| |] eqn:M'; cbn [bind] in E'; try discriminate E'.
    apply ret_eq in E, E'. subst bs bs'. rewrite <- !app_assoc in X. apply app_inv_head in X. unfold with_component in *.
    destruct (Ha _ _ v v' b b' (x ++ r) (x' ++ r') ltac:(eassumption) ltac:(eassumption) Tv Tv' B B' (members_stop _ _ _ _ _ _ M S) (members_stop _ _ _ _ _ _ M' S') X) as (Av & Y).
    destruct (IH q q' (Datatypes.S k) vs0 vs0' x x' r r') as (Al & ->); try assumption. split; [constructor; assumption|reflexivity].
Qed.

Lemma cons_stop_bracket r : stop (utf8_encode (lit "]") ++ r).
Proof. right. left. reflexivity. Qed.
Lemma cons_stop_brace r : stop (utf8_encode (lit "}") ++ r).
Proof. right. right. reflexivity. Qed.

Lemma emit_tells t : cases_told t -> forall src src', tells t (emit fl src t) (emit fl src' t) src src'.
Proof.
  induction t using ty_ind'; intros C src src' q q' v v' bs bs' r r' P P' T T' E E' S S' X; cbn [emit] in E, E'.
  - inversion T; subst. inversion T'; subst. apply ret_eq in E, E'. subst. apply app_inv_head in X. split; [constructor|exact X].
  - inversion P; subst. inversion P'; subst. inversion T; subst. inversion T'; subst. eapply prim_code; eassumption.
  - inversion P as [| |? b L B| | |]; subst. inversion P' as [| |? b' L' B'| | |]; subst. rewrite B in E. rewrite B' in E'. cbn [bind] in E, E'.
    destruct (utf8_decode b) as [s|] eqn:D; [|discriminate E]. destruct (utf8_decode b') as [s'|] eqn:D'; [|discriminate E'].
    apply ret_eq in E, E'. subst. apply utf8_decode_sound in D, D'. destruct D as (F & <-), D' as (F' & <-). apply string_code in X; [|assumption..].
    destruct X as (-> & ->). split; constructor.
  - inversion C as [| | |ts0 Fc| |]; subst. inversion P as [| | |? ? vs Pl| |]; subst. inversion P' as [| | |? ? vs' Pl'| |]; subst. inversion T; subst. inversion T'; subst.
    destruct (emit_members (emit fl src) ts q 0) as [b| |] eqn:M; cbn [bind] in E; try discriminate E. destruct (emit_members (emit fl src') ts q' 0) as [b'| |] eqn:M'; cbn [bind] in E'; try discriminate E'.
    apply ret_eq in E, E'. subst bs bs'. rewrite <- !app_assoc in X. apply app_inv_head in X.
    destruct (members_tell (fun t => t) (emit fl src) (emit fl src') src src' ts) with (q := q) (q' := q') (k := 0%nat) (vs := vs) (vs' := vs') (bs := b) (bs' := b')
      (r := utf8_encode (lit "]") ++ r) (r' := utf8_encode (lit "]") ++ r') as (A & Y); rewrite ?map_id in *; auto using cons_stop_bracket.
    { rewrite Forall_forall in *. auto. }
    apply app_inv_head in Y. split; [constructor; assumption|exact Y].
  - inversion C as [| | | |fs0 Fc|]; subst. inversion P as [| | | |? ? vs Pl|]; subst. inversion P' as [| | | |? ? vs' Pl'|]; subst. inversion T; subst. inversion T'; subst.
    destruct (emit_members _ fs q 0) as [b| |] eqn:M in E; cbn [bind] in E; try discriminate E. destruct (emit_members _ fs q' 0) as [b'| |] eqn:M' in E'; cbn [bind] in E'; try discriminate E'.
    apply ret_eq in E, E'. subst bs bs'. rewrite <- !app_assoc in X. apply app_inv_head in X.
    match type of M with emit_members ?h _ _ _ = _ => match type of M' with emit_members ?h' _ _ _ = _ =>
      assert (G : Forall (fun f => tells (snd f) (h f) (h' f) src src') fs) end end.
    2:{ destruct (members_tell snd _ _ src src' fs G q q' 0%nat vs vs' b b' _ _ Pl Pl' ltac:(assumption) ltac:(assumption) M M' (cons_stop_brace r) (cons_stop_brace r') X) as (A & Y).
      apply app_inv_head in Y. split; [constructor; exact A|exact Y]. }
    rewrite Forall_forall in *. intros (l, t) I q1 q1' v v' bs bs' r1 r1' P1 P1' T1 T1' E E' S1 S1' X1. cbn [fst snd] in *.
    destruct (emit fl src t q1) as [y| |] eqn:Y; cbn [bind] in E; try discriminate E. destruct (emit fl src' t q1') as [y'| |] eqn:Y'; cbn [bind] in E'; try discriminate E'.
    apply ret_eq in E, E'. subst bs bs'. rewrite <- !app_assoc in X1. apply app_inv_head in X1. apply app_inv_head in X1.
    exact (H _ I (Fc _ I) src src' _ _ _ _ _ _ _ _ P1 P1' T1 T1' Y Y' S1 S1' X1).
  - inversion C as [| | | | |cs0 Nd Fl Fc]; subst. inversion P as [| | | | |? ? k l t v0 Hk Hn Hv]; subst. inversion P' as [| | | | |? ? k' l' t' v0' Hk' Hn' Hv']; subst.
    inversion T as [| | | | |? ? l1 t1 ? N1 T1]; subst. inversion T' as [| | | | |? ? l1' t1' ? N1' T1']; subst.
    rewrite Hn in N1. injection N1 as <- <-. rewrite Hn' in N1'. injection N1' as <- <-.
    rewrite Hk in E. rewrite Hk' in E'. cbn [bind] in E, E'. rewrite (case_at _ _ _ _ Hn) in E. rewrite (case_at _ _ _ _ Hn') in E'. cbn [fst snd] in E, E'. unfold with_component in *.
    destruct (emit fl src t _) as [y| |] eqn:Y; cbn [bind] in E; try discriminate E. destruct (emit fl src' t' _) as [y'| |] eqn:Y'; cbn [bind] in E'; try discriminate E'.
    apply ret_eq in E, E'. subst bs bs'. rewrite <- !app_assoc in X. apply app_inv_head in X. rewrite Forall_forall in *.
    pose proof (nth_error_In _ _ Hn) as I. pose proof (nth_error_In _ _ Hn') as I'.
    apply string_code in X; [|exact (Fl _ I)|exact (Fl _ I')]. destruct X as (El & X).
    assert (k = k').
    { apply (proj1 (NoDup_nth_error _) Nd); [rewrite map_length; apply nth_error_Some; congruence|]. rewrite !nth_error_map, Hn, Hn'. cbn. congruence. }
    subst k'. rewrite Hn in Hn'. injection Hn' as <- <-. apply app_inv_head in X.
    destruct (H _ I (Fc _ I) src src' _ _ _ _ _ _ _ _ Hv Hv' T1 T1' Y Y' (cons_stop_brace r) (cons_stop_brace r') X) as (A & Z). apply app_inv_head in Z.
    split; [eapply al_case; eassumption|exact Z].
Qed.

Lemma text_tells t src src' v v' bs : cases_told t -> presents src t [] v -> presents src' t [] v' -> typed t v -> typed t v' ->
  json_encode fl t src = Ret bs -> json_encode fl t src' = Ret bs -> alike fl t v v'.
Proof. intros C P P' T T' E E'. exact (proj1 (emit_tells t C src src' [] [] v v' bs bs [] [] P P' T T' E E' I I eq_refl)). Qed.
End Tell.

Lemma alike_same fl t : float_free t -> forall v v', alike fl t v v' -> v = v'.
Proof.
  assert (G : forall A (g : A -> ty) l, Forall (fun a => forall v v', alike fl (g a) v v' -> v = v') l -> forall vs vs', alike_list fl (map g l) vs vs' -> vs = vs').
  { intros A g l F. induction F as [|a l Ha F IH]; intros vs vs' H; inversion H; subst; [reflexivity|]. f_equal; auto. }
  induction t using ty_ind'; intros F v v' A; inversion F; subst; inversion A; subst; try reflexivity.
  - tauto.
  - f_equal. apply (G _ (fun t => t) ts); [|rewrite map_id; assumption]. rewrite Forall_forall in *. intros t0 I0 w w' Aw. eapply (H t0 I0); [eauto|exact Aw].
  - f_equal. apply (G _ snd fs); [|assumption]. rewrite Forall_forall in *. intros t0 I0 w w' Aw. eapply (H t0 I0); [eauto|exact Aw].
  - rewrite Forall_forall in *. match goal with N : nth_error _ _ = Some _ |- _ => pose proof (nth_error_In _ _ N) as I end. f_equal. eapply (H _ I); [exact (H1 _ I)|assumption].
Qed.

(** Values that are alike have the same text. *)
Lemma alike_emitted fl t : forall v v' src src' q q', alike fl t v v' -> presents src t q v -> presents src' t q' v' -> emit fl src t q = emit fl src' t q'.
Proof.
  assert (G : forall A (g : A -> ty) (h h' : A -> path -> outcome (list byte)) l src src',
     Forall (fun a => forall q q' v v', alike fl (g a) v v' -> presents src (g a) q v -> presents src' (g a) q' v' -> h a q = h' a q') l ->
     forall q q' k vs vs', alike_list fl (map g l) vs vs' -> presents_list src (map g l) q k vs -> presents_list src' (map g l) q' k vs' -> emit_members h l q k = emit_members h' l q' k).
  { intros A g h h' l src src' HF. induction HF as [|a l Ha Hl IH]; intros q q' k vs vs' L H1 H2; cbn [map emit_members] in *; [reflexivity|].
    inversion L as [|? ? v v' vs1 vs1' Lv Ll]; subst. inversion H1; subst. inversion H2; subst. unfold with_component.
    rewrite (Ha (q ++ [k]) (q' ++ [k]) v v') by assumption. rewrite (IH q q' (S k) vs1 vs1') by assumption. reflexivity. }
  induction t using ty_ind'; intros v v' src src' q q' L H1 H2; cbn [emit].
  - reflexivity.
  - inversion L as [|p0 z|p0 z z' Fp Sh| | | |]; subst; inversion H1 as [|? ? z1 P1| | | |]; subst; inversion H2 as [|? ? z2 P2| | | |]; subst; unfold emit_prim; rewrite P1, P2; cbn [bind]; [reflexivity|].
    destruct Fp as [->| ->]; unfold show_number; rewrite Sh; reflexivity.
  - inversion L; subst. inversion H1; subst. inversion H2; subst. congruence.
  - inversion L as [| | | |ts0 vs vs' Ll| |]; subst. inversion H1; subst. inversion H2; subst.
    rewrite (G _ (fun t => t) (emit fl src) (emit fl src') ts src src') with (vs := vs) (vs' := vs') (q' := q'); rewrite ?map_id; auto.
    revert H. apply Forall_impl. intros t Ht a a' w w' A B C. apply (Ht w w'); assumption.
  - inversion L as [| | | | |fs0 vs vs' Ll|]; subst. inversion H1; subst. inversion H2; subst.
    erewrite (G _ snd _ _ fs src src') with (vs := vs) (vs' := vs') (q' := q'); auto. revert H. apply Forall_impl. intros [l t] Ht a a' w w' A B C. cbn [fst snd] in *.
    rewrite (Ht _ _ _ _ _ _ A B C). reflexivity.
  - inversion L as [| | | | | |cs0 k0 l0 t0 w w' N0 Lw]; subst. inversion H1 as [| | | | |? ? k l t v1 Hk Hn Hv]; subst. inversion H2 as [| | | | |? ? k' l' t' v1' Hk' Hn' Hv']; subst.
    rewrite Hk, Hk'. cbn [bind]. rewrite N0 in Hn, Hn'. injection Hn as <- <-. injection Hn' as <- <-. rewrite Forall_forall in H.
    pose proof (H _ (nth_error_In _ _ N0) _ _ src src' (q ++ [k0]) (q' ++ [k0]) Lw Hv Hv') as X. cbn [snd] in X.
    rewrite !(case_at _ _ _ _ N0). cbn [fst snd]. unfold with_component. rewrite X. reflexivity.
Qed.
