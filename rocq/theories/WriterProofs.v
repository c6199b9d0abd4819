(** * Encoding to a writer *)

From Coq Require Import ZifyBool ZifyNat.
From Coq Require Import Strings.String.
From Verif Require Import Base BaseFacts StrModel Utf8Model TypesModel TypesProofs LayoutProofs MarshalModel JsonModel WriterModel WriterSpec.
Local Open Scope string_scope.
Local Open Scope list_scope.

Definition refines (R : list byte -> list byte -> Prop) (P : answer -> Prop) (Q : werr -> Prop) (m : io) (r : outcome (list byte)) : Prop := forall w, Forall P (w_answers w) ->
  match m w with
  | Ret (w', res) =>
      (exists pre, w_answers w = pre ++ w_answers w') /\
      exists b', w_out w' = w_out w ++ b' /\
        match res with
        | Ok _ => exists b, r = Ret b /\ R b' b
        | Err e => (forall b, r = Ret b -> exists rest, R (b' ++ rest) b) /\ In (culprit e) (w_answers w) /\ Q e
        end
  | Panic => r = Panic
  | Undef => r = Undef
  end.

Section Then.
Variables (R : list byte -> list byte -> Prop) (P : answer -> Prop) (Q : werr -> Prop).
Hypothesis R_nil : R [] [].
Hypothesis R_app : forall a' a b' b, R a' a -> R b' b -> R (a' ++ b') (a ++ b).

Lemma refines_done : refines R P Q done (Ret []).
Proof.
  intros w _. cbn. split; [exists []; reflexivity|]. exists []. split; [symmetry; apply app_nil_r|]. eauto.
Qed.

Lemma refines_andthen m1 m2 r1 r2 : refines R P Q m1 r1 -> refines R P Q m2 r2 -> (forall b, r2 = Ret b -> R b b) ->
  refines R P Q (m1 >> m2) (b1 <- r1 ;; b2 <- r2 ;; Ret (b1 ++ b2)).
Proof.
  intros H1 H2 Rf w F. unfold andthen. specialize (H1 w F). destruct (m1 w) as [[w1 [u|e]]| |]; cbn [bind].
  - destruct H1 as ((pre & E1) & b1' & O1 & b1 & -> & R1).
    assert (F1 : Forall P (w_answers w1)) by (rewrite E1 in F; apply Forall_app in F; tauto).
    specialize (H2 w1 F1). destruct (m2 w1) as [[w2 [u2|e2]]| |]; cbn [bind].
    + destruct H2 as ((pre2 & E2) & b2' & O2 & b2 & -> & R2).
      split; [exists (pre ++ pre2); rewrite E1, E2; apply app_assoc|]. exists (b1' ++ b2').
      split; [rewrite O2, O1; symmetry; apply app_assoc|]. exists (b1 ++ b2). split; [reflexivity|]. apply R_app; assumption.
    + destruct H2 as ((pre2 & E2) & b2' & O2 & K & W).
      split; [exists (pre ++ pre2); rewrite E1, E2; apply app_assoc|]. exists (b1' ++ b2').
      split; [rewrite O2, O1; symmetry; apply app_assoc|]. split.
      * intros b Hb. destruct r2 as [b2| |]; cbn [bind] in Hb; try discriminate. injection Hb as <-.
        destruct (K _ eq_refl) as (rest & Rx). exists rest. rewrite <- app_assoc. apply R_app; assumption.
      * destruct W as [W W']. split; [rewrite E1; apply in_app_iff; right; exact W|exact W'].
    + rewrite H2. reflexivity.
    + rewrite H2. reflexivity.
  - destruct H1 as ((pre & E1) & b1' & O1 & K & W). split; [exists pre; exact E1|]. exists b1'. split; [exact O1|]. split; [|exact W].
    intros b Hb. destruct r1 as [b1| |]; cbn [bind] in Hb; try discriminate.
    destruct r2 as [b2| |]; cbn [bind] in Hb; try discriminate. injection Hb as <-.
    destruct (K _ eq_refl) as (rest & Rx). exists (rest ++ b2). rewrite app_assoc. apply R_app; [exact Rx|apply Rf; reflexivity].
  - rewrite H1. reflexivity.
  - rewrite H1. reflexivity.
Qed.

Lemma refines_ext m r r' : r = r' -> refines R P Q m r -> refines R P Q m r'.
Proof. intros ->. auto. Qed.

Lemma refines_bind {A} (o : outcome A) (m : A -> io) (r : A -> outcome (list byte)) :
  (forall a, refines R P Q (m a) (r a)) -> refines R P Q (fun w => a <- o ;; m a w) (a <- o ;; r a).
Proof. intros H w F. destruct o as [a| |]; cbn [bind]; [exact (H a w F)|reflexivity|reflexivity]. Qed.

Lemma refines_each {A} (f : A -> io) (g : A -> list byte) l : (forall l', R (flat_map g l') (flat_map g l')) ->
  (forall a, In a l -> refines R P Q (f a) (Ret (g a))) -> refines R P Q (each f l) (Ret (flat_map g l)).
Proof.
  intros Rf. induction l as [|a l IH]; intros H; cbn [each flat_map]; [exact refines_done|].
  eapply refines_ext; [|apply refines_andthen; [apply H; left; reflexivity|apply IH; intros x Hx; apply H; right; exact Hx|]].
  - reflexivity.
  - intros b Hb. injection Hb as <-. apply Rf.
Qed.

End Then.

Lemma write_loop_spec a : forall out buf,
  let '(w', res) := write_loop a out buf in
  (exists pre, a = pre ++ w_answers w') /\
  exists b' rest, w_out w' = out ++ b' /\ buf = b' ++ rest /\
    match res with Ok _ => rest = [] | Err e => In (culprit e) a /\ e <> EInterrupted end.
Proof.
  induction a as [|x a IH]; intros out buf.
  - destruct buf; cbn [write_loop w_answers w_out]; (split; [exists []; reflexivity|]); eexists _, [];
      (split; [|split; [symmetry; apply app_nil_r|reflexivity]]); [symmetry; apply app_nil_r|reflexivity].
  - destruct buf as [|y buf]; [cbn [write_loop w_answers w_out]; (split; [exists []; reflexivity|]); exists [], [];
      (split; [symmetry; apply app_nil_r|split; reflexivity])|].
    destruct x as [|[|n]| |]; cbn [write_loop].
    + cbn [w_answers w_out]. split; [exists [Full]; reflexivity|]. eexists _, []. split; [reflexivity|]. split; [symmetry; apply app_nil_r|reflexivity].
    + cbn [w_answers w_out]. split; [exists [Short 0]; reflexivity|]. exists [], (y :: buf). split; [symmetry; apply app_nil_r|].
      split; [reflexivity|]. split; [left; reflexivity|discriminate].
    + specialize (IH (out ++ firstn (S n) (y :: buf)) (skipn (S n) (y :: buf))).
      destruct (write_loop a _ _) as [w' res]. destruct IH as ((pre & E) & b' & rest & O & B & K).
      split; [exists (Short (S n) :: pre); cbn [app]; rewrite E; reflexivity|].
      exists (firstn (S n) (y :: buf) ++ b'), rest. split; [rewrite O; symmetry; apply app_assoc|].
      split; [rewrite <- app_assoc, <- B; symmetry; apply firstn_skipn|].
      destruct res; [exact K|]. destruct K as [K K']. split; [right; exact K|exact K'].
    + specialize (IH out (y :: buf)).
      destruct (write_loop a _ _) as [w' res]. destruct IH as ((pre & E) & b' & rest & O & B & K).
      split; [exists (Interrupted :: pre); cbn [app]; rewrite E; reflexivity|]. exists b', rest. split; [exact O|]. split; [exact B|].
      destruct res; [exact K|]. destruct K as [K K']. split; [right; exact K|exact K'].
    + cbn [w_answers w_out]. split; [exists [Fails]; reflexivity|]. exists [], (y :: buf). split; [symmetry; apply app_nil_r|].
      split; [reflexivity|]. split; [left; reflexivity|discriminate].
Qed.

Section Refines.
Variables (R Rt : list byte -> list byte -> Prop) (P : answer -> Prop) (Q : werr -> Prop).
Hypothesis Q_all : forall e, e <> EInterrupted -> Q e.
Hypothesis R_refl : forall b, R b b.
Hypothesis R_app : forall a' a b' b, R a' a -> R b' b -> R (a' ++ b') (a ++ b).
Hypothesis Rt_refl : forall s, Rt (flat_map write_ch s) (flat_map write_ch s).
Hypothesis Rt_app : forall a' a b' b, Rt a' a -> Rt b' b -> Rt (a' ++ b') (a ++ b).
Hypothesis R_quoted : forall b' b, Rt b' b -> R (quote :: b' ++ [quote]) (quote :: b ++ [quote]).


Lemma refines_then m1 m2 r1 r2 : refines R P Q m1 r1 -> refines R P Q m2 r2 ->
  refines R P Q (m1 >> m2) (b1 <- r1 ;; b2 <- r2 ;; Ret (b1 ++ b2)).
Proof. intros H1 H2. apply (refines_andthen R P Q R_app); [exact H1|exact H2|]. intros b _. apply R_refl. Qed.

Lemma refines_all buf : refines R P Q (write_all buf) (Ret buf).
Proof.
  intros w _. unfold write_all. pose proof (write_loop_spec (w_answers w) (w_out w) buf) as H.
  destruct (write_loop _ _ _) as [w' res]. destruct H as (E & b' & rest & O & B & K). split; [exact E|]. exists b'. split; [exact O|].
  destruct res as [u|e].
  - exists buf. split; [reflexivity|]. subst rest. rewrite app_nil_r in B. subst buf. apply R_refl.
  - split; [|destruct K as [K K']; split; [exact K|exact (Q_all _ K')]]. intros b Hb. injection Hb as <-. exists rest. rewrite B. apply R_refl.
Qed.

(** Text between quotes. *)
Lemma refines_quoted m r : refines Rt P Q m r -> (forall b, r = Ret b -> Rt b b) ->
  refines R P Q (write_text """" >> m >> write_text """") (b <- r ;; Ret (utf8_encode (lit """") ++ b ++ utf8_encode (lit """"))).
Proof.
  intros H Rf w F. change (utf8_encode (lit """")) with [quote]. unfold andthen, write_text, write_all.
  change (utf8_encode (lit """")) with [quote].
  pose proof (write_loop_spec (w_answers w) (w_out w) [quote]) as Q1.
  destruct (write_loop (w_answers w) (w_out w) [quote]) as [w1 [u|e]]; cbn [bind]; destruct Q1 as ((pre & E1) & b1 & rest & O1 & B & K).
  2:{ split; [exists pre; exact E1|]. exists b1. split; [exact O1|]. split; [|destruct K as [K K']; split; [exact K|exact (Q_all _ K')]]. intros b Hb.
      destruct r as [b2| |]; cbn [bind] in Hb; try discriminate. injection Hb as <-.
      exists (rest ++ b2 ++ [quote]). rewrite app_assoc, <- B. apply R_quoted. apply Rf. reflexivity. }
  subst rest. rewrite app_nil_r in B. subst b1.
  assert (F1 : Forall P (w_answers w1)) by (rewrite E1 in F; apply Forall_app in F; tauto).
  specialize (H w1 F1). destruct (m w1) as [[w2 [u2|e2]]| |]; cbn [bind]; [| |rewrite H; reflexivity|rewrite H; reflexivity].
  2:{ destruct H as ((pre2 & E2) & b2 & O2 & K & W). split; [exists (pre ++ pre2); rewrite E1, E2; apply app_assoc|].
      exists (quote :: b2). split; [rewrite O2, O1, <- app_assoc; reflexivity|]. split; [|destruct W as [W W']; split; [rewrite E1; apply in_app_iff; right; exact W|exact W']].
      intros b Hb. destruct r as [x| |]; cbn [bind] in Hb; try discriminate. injection Hb as <-. destruct (K _ eq_refl) as (rest & X).
      exists (rest ++ [quote]). cbn [app]. rewrite app_assoc. apply R_quoted. exact X. }
  destruct H as ((pre2 & E2) & b2 & O2 & b & -> & Rb). cbn [bind].
  pose proof (write_loop_spec (w_answers w2) (w_out w2) [quote]) as Q3.
  destruct (write_loop (w_answers w2) (w_out w2) [quote]) as [w3 res]; destruct Q3 as ((pre3 & E3) & b3 & rest & O3 & B & K).
  split; [exists (pre ++ pre2 ++ pre3); rewrite E1, E2, E3, !app_assoc; reflexivity|].
  exists (quote :: b2 ++ b3). split; [rewrite O3, O2, O1, <- !app_assoc; reflexivity|]. destruct res as [u3|e3].
  - subst rest. rewrite app_nil_r in B. subst b3. exists ([quote] ++ b ++ [quote]). split; [reflexivity|]. apply R_quoted. exact Rb.
  - destruct K as [K K']. split; [|split; [rewrite E1, E2; apply in_app_iff; right; apply in_app_iff; right; exact K|exact (Q_all _ K')]].
    intros x Hx. injection Hx as <-. exists rest. cbn [app]. rewrite <- app_assoc, <- B. apply R_quoted. exact Rb.
Qed.

Variables (fl : floats) (pieces : str -> list str) (src : source).
Hypothesis Pieces : forall s, concat (pieces s) = s.

Lemma encode_concat l : flat_map utf8_encode l = utf8_encode (concat l).
Proof.
  induction l as [|s l IH]; [reflexivity|]. cbn [flat_map concat]. unfold utf8_encode in *. rewrite flat_map_app, IH. reflexivity.
Qed.

Lemma refines_number p z : refines R P Q (write_number fl pieces p z) (Ret (utf8_encode (show_number fl p z))).
Proof.
  unfold write_number. rewrite <- (Pieces (show_number fl p z)) at 2. rewrite <- encode_concat. apply refines_each.
  - apply R_refl.
  - exact R_app.
  - intros l. apply R_refl.
  - intros a _. apply refines_all.
Qed.

Definition good_ch : Prop := forall c, refines Rt P Q (write_ch_to c) (Ret (write_ch c)).

Lemma refines_string s : good_ch -> refines R P Q (emit_string_to s) (Ret (emit_utf8_string s)).
Proof.
  intros G. unfold emit_string_to, emit_utf8_string.
  apply (refines_quoted (each write_ch_to s) (Ret (flat_map write_ch s))).
  - apply refines_each; [exact (Rt_refl [])|exact Rt_app|exact Rt_refl|]. intros a _. apply G.
  - intros b Hb. injection Hb as <-. apply Rt_refl.
Qed.

Lemma refines_prim p q : p <> PChar \/ good_ch -> refines R P Q (emit_prim_to fl pieces src p q) (emit_prim fl src p q).
Proof.
  intros G. unfold emit_prim.
  assert (N : forall p', refines R P Q (fun w => z <- src_prim src p' q ;; write_number fl pieces p' z w)
      (z <- src_prim src p' q ;; Ret (utf8_encode (show_number fl p' z)))).
  { intros p'. apply refines_bind. intros z. apply refines_number. }
  destruct p; [| |exact (N PU8)|exact (N PU16)|exact (N PU32)|exact (N PU64)|exact (N PU128)|exact (N PI8)|exact (N PI16)|exact (N PI32)
    |exact (N PI64)|exact (N PI128)|exact (N PF32)|exact (N PF64)]; cbn [emit_prim_to].
  - apply (refines_bind R P Q (src_prim src PBool q)). intros z. destruct (negb _); apply refines_all.
  - destruct G as [G|G]; [congruence|].
    eapply refines_ext; [|apply (refines_quoted (fun w => z <- src_prim src PChar q ;; write_ch_to z w)
      (z <- src_prim src PChar q ;; Ret (write_ch z)))].
    + destruct (src_prim src PChar q); reflexivity.
    + apply (refines_bind Rt P Q (src_prim src PChar q)). intros z. apply G.
    + intros b Hb. destruct (src_prim src PChar q) as [z| |]; cbn [bind] in Hb; try discriminate. injection Hb as <-.
      pose proof (Rt_refl [z]) as X. cbn [flat_map] in X. rewrite app_nil_r in X. exact X.
Qed.

Lemma refines_members {A} (f : A -> path -> io) (g : A -> path -> outcome (list byte)) l : forall q k,
  (forall a, In a l -> forall q', refines R P Q (f a q') (g a q')) -> refines R P Q (members_to f l q k) (emit_members g l q k).
Proof.
  induction l as [|a l IH]; intros q k H; cbn [members_to emit_members]; [apply refines_done; apply R_refl|].
  eapply refines_ext; [|apply refines_then; [|apply refines_then; [apply H; left; reflexivity|apply IH; intros x Hx; apply H; right; exact Hx]]].
  2:{ instantiate (1 := Ret (if (k =? 0)%nat then [] else utf8_encode (lit ","))).
      destruct (k =? 0)%nat; [apply refines_done; apply R_refl|apply refines_all]. }
  destruct (g a _); [|reflexivity..]. cbn [bind]. destruct (emit_members _ _ _ _); reflexivity.
Qed.

Lemma refines_case {A} (f : A -> io) (g : A -> outcome (list byte)) l : forall k,
  (forall a, In a l -> refines R P Q (f a) (g a)) -> refines R P Q (case_to f l k) (emit_case g l k).
Proof.
  induction l as [|a l IH]; intros k H; cbn [case_to emit_case]; [intros w F; reflexivity|].
  destruct k; [apply H; left; reflexivity|]. apply IH. intros x Hx. apply H. right. exact Hx.
Qed.

Lemma refines_emit t : textless t \/ good_ch -> forall q, refines R P Q (emit_to fl pieces src t q) (emit fl src t q).
Proof.
  induction t using ty_ind'; intros G q; cbn [emit_to emit].
  - apply refines_all.
  - apply refines_prim. destruct G as [G|G]; [left; inversion G; assumption|right; exact G].
  - destruct G as [G|G]; [inversion G|]. apply (refines_bind R P Q (src_bytes src q)). intros bs. destruct (utf8_decode bs) as [s|].
    + apply refines_string. exact G.
    + intros w F. reflexivity.
  - eapply refines_ext; [|apply refines_then; [apply refines_all|apply refines_then; [|apply refines_all]]].
    2:{ apply (refines_members _ (emit fl src)). intros a Ha q'. rewrite Forall_forall in H. apply H; [exact Ha|].
        destruct G as [G|G]; [left; inversion G as [| |? X]; subst; rewrite Forall_forall in X; auto|right; exact G]. }
    destruct (emit_members _ _ _ _); reflexivity.
  - destruct G as [G|G]; [inversion G|].
    eapply refines_ext; [|apply refines_then; [apply refines_all|apply refines_then; [|apply refines_all]]].
    2:{ apply (refines_members _ (fun f q' => b <- emit fl src (snd f) q' ;; Ret (emit_utf8_string (fst f) ++ utf8_encode (lit ":") ++ b))).
        intros a Ha q'. eapply refines_ext; [|apply refines_then; [apply refines_string; exact G|apply refines_then; [apply refines_all|]]].
        2:{ rewrite Forall_forall in H. apply H; [exact Ha|right; exact G]. }
        destruct (emit fl src (snd a) q'); reflexivity. }
    destruct (emit_members _ _ _ _); reflexivity.
  - destruct G as [G|G]; [inversion G|].
    eapply refines_ext; [|apply refines_then; [apply refines_all|apply (refines_bind R P Q (src_tag src q)); intros tag; apply refines_case]].
    2:{ intros a Ha. apply refines_then; [apply refines_string; exact G|apply refines_then; [apply refines_all|
          apply refines_then; [|apply refines_all]]]. rewrite Forall_forall in H. apply H; [exact Ha|right; exact G]. }
    destruct (src_tag src q) as [tag| |]; [|reflexivity..]. cbn [bind].
    clear. revert tag. assert (X : forall l k tag,
      (b <- emit_case (fun a => b1 <- Ret (emit_utf8_string (fst a)) ;; b2 <- (b1 <- Ret (utf8_encode (lit ",""value"":")) ;;
          b2 <- (b1 <- emit fl src (snd a) (with_component q tag) ;; b2 <- Ret (utf8_encode (lit "}")) ;; Ret (b1 ++ b2)) ;; Ret (b1 ++ b2)) ;; Ret (b1 ++ b2)) l k ;;
       Ret (utf8_encode (lit "{""kind"":") ++ b))
      = emit_case (fun c => b <- emit fl src (snd c) (with_component q tag) ;;
            Ret (utf8_encode (lit "{""kind"":") ++ emit_utf8_string (fst c) ++ utf8_encode (lit ",""value"":") ++ b ++ utf8_encode (lit "}"))) l k).
    { induction l as [|a l IH]; intros k tag; cbn [emit_case]; [reflexivity|]. destruct k; [|apply IH].
      destruct (emit fl src (snd a) _); reflexivity. }
    intros tag. apply X.
Qed.

End Refines.

(** ** The three cases *)

Lemma once_whole c : refines eq whole (fun _ => True) (write_ch_to c) (Ret (write_ch c)).
Proof.
  intros w F. unfold write_ch_to, write_once, take. destruct (w_answers w) as [|[|n| |] a] eqn:E; cbn [tl w_answers w_out].
  - split; [exists []; reflexivity|]. exists (write_ch c). eauto.
  - split; [exists [Full]; reflexivity|]. exists (write_ch c). eauto.
  - inversion F; subst. contradiction.
  - split; [exists [Interrupted]; reflexivity|]. exists []. split; [reflexivity|]. split; [|split; [left; reflexivity|exact Logic.I]]. intros b Hb. injection Hb as <-. exists (write_ch c). reflexivity.
  - split; [exists [Fails]; reflexivity|]. exists []. split; [reflexivity|]. split; [|split; [left; reflexivity|exact Logic.I]]. intros b Hb. injection Hb as <-. exists (write_ch c). reflexivity.
Qed.

Lemma sc_same c : short_chars (write_ch c) (write_ch c).
Proof.
  pose proof (sc_char c (write_ch c) [] [] [] (eq_sym (app_nil_r _)) sc_nil) as X. rewrite !app_nil_r in X. exact X.
Qed.

Lemma sc_app a' a b' b : short_chars a' a -> short_chars b' b -> short_chars (a' ++ b') (a ++ b).
Proof.
  intros H K. induction H as [|c p r a' a E H IH]; [exact K|]. rewrite <- !app_assoc. exact (sc_char c p r _ _ E IH).
Qed.

Lemma once_any c : refines short_chars (fun _ => True) (fun _ => True) (write_ch_to c) (Ret (write_ch c)).
Proof.
  intros w F. unfold write_ch_to, write_once, take. destruct (w_answers w) as [|[|n| |] a] eqn:E; cbn [tl w_answers w_out].
  - split; [exists []; reflexivity|]. eexists. split; [reflexivity|]. eexists. split; [reflexivity|]. apply sc_same.
  - split; [exists [Full]; reflexivity|]. eexists. split; [reflexivity|]. eexists. split; [reflexivity|]. apply sc_same.
  - split; [exists [Short n]; reflexivity|]. eexists. split; [reflexivity|]. eexists. split; [reflexivity|].
    pose proof (sc_char c (firstn n (write_ch c)) (skipn n (write_ch c)) [] [] (eq_sym (firstn_skipn _ _)) sc_nil) as X.
    rewrite !app_nil_r in X. exact X.
  - split; [exists [Interrupted]; reflexivity|]. exists []. split; [reflexivity|]. split; [|split; [left; reflexivity|exact Logic.I]]. intros b Hb. injection Hb as <-.
    exists (write_ch c). apply sc_same.
  - split; [exists [Fails]; reflexivity|]. exists []. split; [reflexivity|]. split; [|split; [left; reflexivity|exact Logic.I]]. intros b Hb. injection Hb as <-.
    exists (write_ch c). apply sc_same.
Qed.

Lemma sc_refl s : short_chars (flat_map write_ch s) (flat_map write_ch s).
Proof. induction s as [|c s IH]; [constructor|]. cbn [flat_map]. apply sc_app; [apply sc_same|exact IH]. Qed.

Lemma sh_refl b : shortened b b.
Proof. induction b as [|x b IH]; constructor. exact IH. Qed.

Lemma sh_app a' a b' b : shortened a' a -> shortened b' b -> shortened (a' ++ b') (a ++ b).
Proof.
  intros H K. induction H as [|x a' a H IH|s' s a' a S H IH]; cbn [app]; [exact K|constructor; exact IH|].
  rewrite <- !app_assoc. cbn [app]. constructor; assumption.
Qed.

Section Cases.
Variables (fl : floats) (pieces : str -> list str) (src : source).
Hypothesis Pieces : forall s, concat (pieces s) = s.

Lemma encode_exact t w : textless t \/ Forall whole (w_answers w) ->
  match encode_to fl pieces src t w with
  | Ret (w', Ok _) => exists b, json_encode fl t src = Ret b /\ w_out w' = w_out w ++ b
  | Ret (w', Err e) => (In (culprit e) (w_answers w) /\ (textless t -> e <> EInterrupted)) /\
      exists b', w_out w' = w_out w ++ b' /\ forall b, json_encode fl t src = Ret b -> exists rest, b = b' ++ rest
  | Panic => json_encode fl t src = Panic
  | Undef => json_encode fl t src = Undef
  end.
Proof.
  intros H.
  assert (X : exists (P : answer -> Prop) (Q : werr -> Prop), (forall e, Q e -> textless t -> e <> EInterrupted) /\
    Forall P (w_answers w) /\ refines eq P Q (encode_to fl pieces src t) (json_encode fl t src)).
  { assert (T : textless t -> exists (P : answer -> Prop) (Q : werr -> Prop), (forall e, Q e -> textless t -> e <> EInterrupted) /\
      Forall P (w_answers w) /\ refines eq P Q (encode_to fl pieces src t) (json_encode fl t src)).
    { intros T. exists (fun _ => True), (fun e => e <> EInterrupted). split; [auto|]. split; [apply Forall_forall; trivial|].
      apply (refines_emit eq eq); try (intros; subst; reflexivity); try exact Pieces; try (intros; assumption). left. exact T. }
    destruct H as [H|H]; [exact (T H)|].
    assert (D : textless t \/ ~ textless t).
    { clear. induction t using ty_ind'.
      - left. constructor.
      - destruct p; try (left; constructor; discriminate). right. intros X. inversion X. congruence.
      - right. intros X. inversion X.
      - assert (D : Forall textless ts \/ ~ Forall textless ts).
        { induction H as [|x l Hx H IH]; [left; constructor|]. destruct Hx as [Hx|Hx]; [|right; intros X; inversion X; contradiction].
          destruct IH as [IH|IH]; [left; constructor; assumption|right; intros X; inversion X; contradiction]. }
        destruct D as [D|D]; [left; constructor; exact D|right; intros X; inversion X; contradiction].
      - right. intros X. inversion X.
      - right. intros X. inversion X. }
    destruct D as [D|D]; [exact (T D)|]. exists whole, (fun _ => True). split; [intros; contradiction|]. split; [exact H|].
    apply (refines_emit eq eq); try (intros; subst; reflexivity); try exact Pieces; try (intros; exact Logic.I). right. exact once_whole. }
  destruct X as (P & Q & HQ & F & X). specialize (X w F).
  destruct (encode_to _ _ _ _ _) as [[w' [u|e]]| |]; [| |exact X|exact X].
  - destruct X as (_ & b' & O & b & E & ->). exists b. auto.
  - destruct X as (_ & b' & O & K & W & W'). split; [split; [exact W|exact (HQ _ W')]|]. exists b'. split; [exact O|].
    intros b Hb. destruct (K b Hb) as (rest & <-). exists rest. reflexivity.
Qed.

Lemma encode_short t w :
  match encode_to fl pieces src t w with
  | Ret (w', Ok _) => exists b b', json_encode fl t src = Ret b /\ w_out w' = w_out w ++ b' /\ shortened b' b
  | Ret (w', Err e) => In (culprit e) (w_answers w) /\
      exists b', w_out w' = w_out w ++ b' /\ forall b, json_encode fl t src = Ret b -> exists rest, shortened (b' ++ rest) b
  | Panic => json_encode fl t src = Panic
  | Undef => json_encode fl t src = Undef
  end.
Proof.
  assert (H : refines shortened (fun _ => True) (fun _ => True) (encode_to fl pieces src t) (json_encode fl t src)).
  { apply (refines_emit shortened short_chars); try exact Pieces.
    - trivial.
    - exact sh_refl.
    - exact sh_app.
    - exact sc_refl.
    - exact sc_app.
    - intros b' b X. apply sh_text; [exact X|constructor].
    - right. exact once_any. }
  specialize (H w ltac:(apply Forall_forall; trivial)). destruct (encode_to _ _ _ _ _) as [[w' [u|e]]| |]; [| |exact H|exact H].
  - destruct H as (_ & b' & O & b & E & S'). exists b, b'. auto.
  - destruct H as (_ & b' & O & K & W & _). split; [exact W|]. exists b'. split; [exact O|]. exact K.
Qed.

Lemma encode_willing t w : Forall willing (w_answers w) ->
  match encode_to fl pieces src t w with Ret (_, Err _) => False | _ => True end.
Proof.
  intros F. pose proof (encode_short t w) as H. destruct (encode_to _ _ _ _ _) as [[w' [u|e]]| |]; try exact Logic.I.
  destruct H as [H _]. rewrite Forall_forall in F. apply F in H. destruct e; cbn in H; [exact H|exact H|lia].
Qed.

End Cases.
