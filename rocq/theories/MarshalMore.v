(** * Further facts about encoding: equal sources, undersized buffers, tag widths, alignment *)

From Coq Require Import Permutation ZifyBool ZifyNat ZifyN.
From Verif Require Import Base BaseFacts UtilModel UtilSpec UtilProofs StrModel TypesModel TypesSpec TypesProofs.
From Verif Require Import MarshalModel MarshalSpec ListFacts LayoutProofs FieldProofs LayoutTotal PresentsFacts MarshalProofs.

Ltac inv_check H :=
  match type of H with
  | (if ?b then _ else Panic) = _ => let E := fresh "Hc" in destruct b eqn:E; [|discriminate H]
  end.

(** ** Encoding depends only on the value presented *)

Definition same_answers (s s' : source) (e : path * fk) : Prop :=
  match snd e with
  | KPrim p => src_prim s' p (fst e) = src_prim s p (fst e)
  | KStr => src_len s' (fst e) = src_len s (fst e) /\ src_bytes s' (fst e) = src_bytes s (fst e)
  | KTag cs =>
      exists k l t v, src_tag s (fst e) = Ret k /\ src_tag s' (fst e) = Ret k /\ nth_error cs k = Some (l, t) /\
                      presents s t (fst e ++ [k]) v /\ presents s' t (fst e ++ [k]) v
  end.

Lemma presents_both s s' t : forall q v, presents s t q v -> presents s' t q v -> Forall (same_answers s s') (flat t q).
Proof.
  assert (G : forall A (g : A -> ty) l,
    Forall (fun a => forall q v, presents s (g a) q v -> presents s' (g a) q v -> Forall (same_answers s s') (flat (g a) q)) l ->
    forall q k vs, presents_list s (map g l) q k vs -> presents_list s' (map g l) q k vs ->
    Forall (same_answers s s') (flat_members (fun a => flat (g a)) l q k)).
  { intros A g l HF. induction HF as [|a l Ha Hl IH]; intros q k vs Hp Ht; cbn [flat_members map] in *; [constructor|].
    inversion Hp; subst. inversion Ht; subst. apply Forall_app. split; [eapply Ha; eassumption|eapply IH; eassumption]. }
  induction t using ty_ind'; intros q v Hp Ht; cbn [flat].
  - constructor.
  - inversion Hp; subst. inversion Ht; subst. constructor; [|constructor]. unfold same_answers. cbn [fst snd]. congruence.
  - inversion Hp; subst. inversion Ht; subst. constructor; [|constructor]. unfold same_answers. cbn [fst snd].
    split; congruence.
  - inversion Hp; subst. inversion Ht; subst. apply (G _ (fun t => t) _ H q 0 vs); rewrite map_id; assumption.
  - inversion Hp; subst. inversion Ht; subst. apply (G _ (fun f => snd f) _ H q 0 vs); assumption.
  - inversion Hp as [| | | | |? ? k l t v' Hk Hn Hv]; subst. inversion Ht as [| | | | |? ? k' l' t' ? Hk' Hn' Hv']; subst.
    constructor; [|constructor]. exists k, l, t, v'. rewrite Hn in Hn'. injection Hn' as <- <-. auto 6.
Qed.

Lemma encode_fixed_congr pf s s' buf f : ans s f = ans s' f -> encode_fixed pf s' buf f = encode_fixed pf s buf f.
Proof.
  intros H. unfold ans in H. unfold encode_fixed. destruct (f_kind f) as [p| |i p|p o n].
  - rewrite H. reflexivity.
  - destruct (src_len s (f_path f)), (src_len s' (f_path f)); cbn [bind] in *; try discriminate; try reflexivity.
    injection H as H. assert (a = a0) as -> by lia. reflexivity.
  - reflexivity.
  - destruct (src_tag s (f_path f)), (src_tag s' (f_path f)); cbn [bind] in *; try discriminate; try reflexivity.
    injection H as H. assert (a = a0) as -> by lia. reflexivity.
Qed.

Lemma foldM_congr {S A} (f g : S -> A -> outcome S) l : (forall s a, In a l -> f s a = g s a) -> forall s, foldM f l s = foldM g l s.
Proof.
  intros H. induction l as [|a l IH]; intros s; cbn [foldM]; [reflexivity|].
  rewrite H by (left; reflexivity). destruct (g s a); cbn [bind]; try reflexivity. apply IH. intros. apply H. right. assumption.
Qed.

Lemma encode_same pf s s' t : forall q l v,
  calculate_layout t q = Ret l -> presents s t q v -> presents s' t q v ->
  encoding_size_with_source s' l = encoding_size_with_source s l /\
  forall buf, encode_with_source pf s' l buf = encode_with_source pf s l buf.
Proof.
  induction t as [t IH] using ty_payload_ind. intros q l v Hcalc Hp Hp'.
  pose proof (calculate_layout_ok _ _ _ Hcalc) as Hl.
  pose proof (presents_both _ _ _ _ _ Hp Hp') as Hsame. rewrite Forall_forall in Hsame.
  assert (Hvs : Forall (fun w => match v_kind w with
      | VString => src_len s' (v_path w) = src_len s (v_path w) /\ src_bytes s' (v_path w) = src_bytes s (v_path w)
      | VEnum cases => exists k c, src_tag s (v_path w) = Ret k /\ src_tag s' (v_path w) = Ret k /\ nth_error cases k = Some c /\
          encoding_size_with_source s' c = encoding_size_with_source s c /\
          forall buf, encode_with_source pf s' c buf = encode_with_source pf s c buf
      end) (l_vars l)).
  { rewrite Forall_forall. intros w Hw. destruct (var_flat t q l Hcalc w Hw) as (k & Hin & Hiv & Hr).
    pose proof (Hsame _ Hin) as Ha. unfold same_answers in Ha. cbn [fst snd] in Ha. destruct Hr as [_ Hr]. cbn [fst snd] in Hr.
    destruct k as [p| |cs]; [destruct Hr| |].
    - rewrite Hr. exact Ha.
    - destruct Hr as (ls & Hk & _ & Hls). rewrite Hk. destruct Ha as (k & l' & t' & v' & H1 & H2 & H3 & H4 & H5).
      destruct (members_nth_l _ _ _ _ _ _ _ Hls H3) as (c & Hc & Hcc). cbn [snd Nat.add] in Hcc.
      exists k, c. split; [exact H1|]. split; [exact H2|]. split; [exact Hc|].
      apply (IH q (v_path w) cs (l', t') Hin (nth_error_In _ _ H3) (v_path w ++ [k]) c v'); assumption. }
  assert (Hfx : Forall (fun f => ans s f = ans s' f) (l_fixed l)).
  { pose proof (lo_kinds _ _ Hl) as Hk. rewrite Forall_forall in *. intros f Hf. destruct (Hk _ Hf) as (k & Hin & Hr).
    pose proof (Hsame _ Hin) as Ha. unfold same_answers in Ha. cbn [fst snd] in Ha. unfold ans.
    destruct k as [p| |cs], (f_kind f) as [p'| |i p'|p' o n]; cbn [kind_rel] in Hr; try (destruct Hr; fail).
    - subst p'. congruence.
    - destruct Ha as [Ha _]. rewrite Ha. reflexivity.
    - destruct Ha as (k & l' & t' & v' & H1 & H2 & _). rewrite H1, H2. reflexivity. }
  destruct l as [al vo ix fx vs]. cbn [l_vars l_fixed] in *. split.
  - cbn [encoding_size_with_source]. f_equal. generalize vo. clear - Hvs.
    induction Hvs as [|w vs Hw Hvs IH]; intros off; cbn [size_loop]; [reflexivity|].
    destruct (v_kind w) as [|cases].
    + destruct Hw as [-> _]. destruct (src_len s (v_path w)); cbn [bind]; try reflexivity. apply IH.
    + destruct Hw as (k & c & -> & -> & Hc & Hsz & _). cbn [bind]. rewrite !pick_nth, Hc, Hsz.
      destruct (encoding_size_with_source s c); cbn [bind]; try reflexivity. apply IH.
  - intros buf. cbn [encode_with_source]. destruct (vo <=? length buf); cbn [bind]; [|reflexivity].
    rewrite (foldM_congr (encode_fixed pf s') (encode_fixed pf s)).
    2:{ intros b f Hf. rewrite Forall_forall in Hfx. apply encode_fixed_congr. apply Hfx. exact Hf. }
    destruct (foldM (encode_fixed pf s) fx buf) as [b1| |]; cbn [bind]; try reflexivity.
    assert (Ev : encode_vars s' (encode_with_source pf s') vs b1 vo = encode_vars s (encode_with_source pf s) vs b1 vo).
    { generalize vo b1. clear - Hvs. induction Hvs as [|w vs Hw Hvs IH]; intros off b; cbn [encode_vars]; [reflexivity|].
      destruct (v_kind w) as [|cases].
      - destruct Hw as [-> ->]. destruct (src_len s (v_path w)); cbn [bind]; try reflexivity.
        destruct (off <=? length b); cbn [bind]; try reflexivity.
        destruct (src_bytes s (v_path w)); cbn [bind]; try reflexivity.
        destruct (a =? length a0); cbn [bind]; try reflexivity.
        destruct (raw_write b off a0); cbn [bind]; try reflexivity. apply IH.
      - destruct Hw as (k & c & -> & -> & Hc & Hsz & Henc). cbn [bind]. destruct (index_from b off); cbn [bind]; try reflexivity.
        rewrite !pick_nth, Hc, Hsz, Henc. destruct (encode_with_source pf s c a) as [[sub n]| |]; cbn [bind]; try reflexivity.
        destruct (encoding_size_with_source s c); cbn [bind]; try reflexivity. apply IH. }
    rewrite Ev. reflexivity.
Qed.

(** ** Lengths are kept *)

Lemma raw_write_length {A} (l new l' : list A) o : raw_write l o new = Ret l' ->
  length l' = length l /\ l' = write l o new /\ o + length new <= length l.
Proof.
  unfold raw_write. destruct (Nat.leb_spec o (length l)); [|discriminate].
  destruct (Nat.leb_spec (o + length new) (length l)); [|discriminate]. intros H'. injection H' as <-.
  split; [apply write_length; lia|]. auto.
Qed.

Lemma encode_fixed_length pf src buf f buf' : encode_fixed pf src buf f = Ret buf' -> length buf' = length buf.
Proof.
  unfold encode_fixed. destruct (f_kind f) as [p| |i p|p o n]; intros H; try discriminate.
  - inv_bind H. apply raw_write_length in H. tauto.
  - inv_bind H. inv_check H. apply raw_write_length in H. tauto.
  - inv_bind H. destruct (is_unsigned p); [|discriminate]. do 5 inv_bind H. apply raw_write_length in H. tauto.
Qed.

Lemma foldM_length pf src fx : forall buf buf', foldM (encode_fixed pf src) fx buf = Ret buf' -> length buf' = length buf.
Proof.
  induction fx as [|f fx IH]; intros buf buf' H; cbn [foldM] in H; [injection H as <-; reflexivity|].
  inv_bind H. apply encode_fixed_length in Ha. apply IH in H. lia.
Qed.

Lemma encode_vars_frame src enc vs :
  (forall v cases c sub sub' n, In v vs -> v_kind v = VEnum cases -> In c cases -> enc c sub = Ret (sub', n) -> length sub' = length sub) ->
  forall buf off buf' off', encode_vars src enc vs buf off = Ret (buf', off') ->
  length buf' = length buf /\ forall i, i < off -> nth_error buf' i = nth_error buf i.
Proof.
  intros He. induction vs as [|v vs IH]; intros buf off buf' off' H; cbn [encode_vars] in H.
  - injection H as <- <-. auto.
  - assert (IH' := IH (fun w cases c sub sub' n Hw => He w cases c sub sub' n (or_intror Hw))). clear IH.
    destruct (v_kind v) as [|cases] eqn:Ek.
    + inv_bind H. inv_check H. inv_bind H. inv_check H. inv_bind H. apply IH' in H as [L K].
      apply Nat.eqb_eq in Hc0. destruct (raw_write_length _ _ _ _ Ha1) as (L1 & -> & Hfit). split; [lia|]. intros i Hi. rewrite K by lia.
      rewrite nth_error_write by exact Hfit. replace ((off <=? i) && (i <? off + length a0)) with false by lia. reflexivity.
    + inv_bind H. inv_bind H. inv_bind H. destruct a1 as [sub' m]. inv_bind H. apply IH' in H as [L K].
      unfold index_from in Ha0. destruct (Nat.leb_spec off (length buf)) as [Hle|]; [|discriminate]. injection Ha0 as <-.
      rewrite pick_nth in Ha1. destruct (nth_error cases a) as [c|] eqn:Ec; [|discriminate].
      pose proof (He v cases c _ _ _ (or_introl eq_refl) Ek (nth_error_In _ _ Ec) Ha1) as L1. rewrite skipn_length in L1.
      assert (Lb : length (firstn off buf ++ sub') = length buf) by (rewrite app_length, firstn_length; lia).
      split; [lia|]. intros i Hi. rewrite K by lia. rewrite nth_error_app1 by (rewrite firstn_length; lia).
      rewrite nth_error_firstn. destruct (Nat.ltb_spec i off); [reflexivity|lia].
Qed.

Lemma encode_length pf src l : forall buf buf' n, encode_with_source pf src l buf = Ret (buf', n) -> length buf' = length buf.
Proof.
  induction l as [al vo ix fx vs IH] using layout_ind'. intros buf buf' n H. cbn [encode_with_source] in H.
  inv_check H. inv_bind H. inv_bind H. destruct a0 as [b2 off]. inv_bind H. injection H as <- <-.
  apply foldM_length in Ha. apply encode_vars_frame in Ha0; [lia|]. intros v cases c sub sub' m Hv Hk Hcc He.
  eapply IH; eassumption.
Qed.

(** The fixed part is not touched by the variable parts. *)
Lemma encode_split pf src al vo ix fx vs buf buf' n :
  encode_with_source pf src (Layout al vo ix fx vs) buf = Ret (buf', n) ->
  vo <= length buf /\ exists b1, foldM (encode_fixed pf src) fx buf = Ret b1 /\ length b1 = length buf /\
    length buf' = length buf /\ forall i, i < vo -> nth_error buf' i = nth_error b1 i.
Proof.
  intros H. cbn [encode_with_source] in H. inv_check H. inv_bind H. inv_bind H. destruct a0 as [b2 off].
  inv_bind H. injection H as <- <-. split; [lia|].
  exists a. split; [exact Ha|]. apply foldM_length in Ha. split; [exact Ha|].
  apply encode_vars_frame in Ha0 as [L K]; [split; [lia|exact K]|]. intros v cases c sub sub' m _ _ _ He. eapply encode_length. exact He.
Qed.
