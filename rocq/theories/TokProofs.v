(** * The tokenizer with byte positions refines the tokenizer on characters *)

From Coq Require Import ZifyBool ZifyNat Strings.String.
From Verif Require Import Base BaseFacts StrModel Utf8Model Utf8Facts JsonModel TokModel TokSpec.
Local Open Scope list_scope.

Definition blen (s : str) : nat := List.length (utf8_encode s).

Lemma blen_app a b : blen (a ++ b) = (blen a + blen b)%nat.
Proof. unfold blen, utf8_encode. rewrite flat_map_app, app_length. reflexivity. Qed.

Lemma blen_cons c s : blen (c :: s) = (List.length (utf8_char c) + blen s)%nat.
Proof. unfold blen, utf8_encode. cbn [flat_map]. rewrite app_length. reflexivity. Qed.

Section Run.
Variables (alnum : Z -> bool) (input : str).
Notation bytes := (utf8_encode input).

(** The characters [s] remain. *)
Definition remains (s : str) (k : tokenizer) : Prop := exists pre, input = pre ++ s /\
  k_look k = hd_error (char_indices (blen pre) s) /\ k_iter k = tl (char_indices (blen pre) s).

Definition spans (a b : nat) (m : str) : Prop := exists p q, input = p ++ m ++ q /\ a = blen p /\ b = blen (p ++ m).

Definition same (k : tokenizer) (st : tstate) : Prop :=
  remains (t_rest st) k /\ k_token k = t_token st /\ k_buf k = t_buf st /\ spans (k_start k) (k_end k) (t_range st).

Lemma remains_look s k : remains s k -> look k = hd_error s.
Proof. intros (pre & _ & L & _). unfold look. rewrite L. destruct s; reflexivity. Qed.

Lemma remains_iter s k : remains s k -> List.length (k_iter k) = List.length (tl s).
Proof.
  intros (pre & _ & _ & ->). destruct s as [|c s]; [reflexivity|]. cbn [char_indices tl]. generalize (blen pre + List.length (utf8_char c))%nat.
  induction s as [|d s IH]; intros n; [reflexivity|]. cbn [char_indices List.length]. rewrite IH. reflexivity.
Qed.

Lemma remains_advance c s k : remains (c :: s) k -> remains s (advance k).
Proof.
  intros (pre & E & L & T). exists (pre ++ [c]). split; [rewrite <- app_assoc; exact E|]. cbn [char_indices tl hd_error] in T.
  replace (blen (pre ++ [c])) with (blen pre + List.length (utf8_char c))%nat
    by (rewrite blen_app, blen_cons; change (blen []) with 0%nat; lia).
  cbn [advance k_look k_iter]. rewrite T. auto.
Qed.

Lemma remains_advance_nil k : remains [] k -> remains [] (advance k).
Proof. intros (pre & E & L & T). exists pre. cbn [advance k_look k_iter]. rewrite T. auto. Qed.

Lemma remains_ext s k k' : k_look k' = k_look k -> k_iter k' = k_iter k -> remains s k -> remains s k'.
Proof. intros L T (pre & H). exists pre. rewrite L, T. exact H. Qed.

Lemma remains_pos s k pre : remains s k -> input = pre ++ s -> current_pos bytes k = blen pre.
Proof.
  intros (pre' & E & L & _) E'. assert (pre' = pre) by (rewrite E in E'; apply app_inv_tail in E'; exact E'). subst pre'.
  unfold current_pos. rewrite L. destruct s; [|reflexivity]. cbn. rewrite E', app_nil_r. reflexivity.
Qed.

(** ** Loops *)

Lemma skip_while_spec (f : char -> bool) (g : str -> str) : (forall s, g s = match s with c :: s' => if f c then g s' else s | [] => [] end) ->
  forall s k n, remains s k -> (List.length (tl s) <= n)%nat ->
  remains (g s) (skip_while f n k) /\ (exists m, s = m ++ g s) /\
  k_token (skip_while f n k) = k_token k /\ k_buf (skip_while f n k) = k_buf k /\
  k_start (skip_while f n k) = k_start k /\ k_end (skip_while f n k) = k_end k.
Proof.
  intros G. induction s as [|c s IH]; intros k n H Hn; rewrite G; [|destruct (f c) eqn:F];
    destruct n; cbn [skip_while]; rewrite (remains_look _ _ H); cbn [hd_error]; try rewrite F.
  - split; [exact H|]. split; [exists []; reflexivity|]. auto.
  - split; [exact H|]. split; [exists []; reflexivity|]. auto.
  - destruct s; [|cbn in Hn; lia]. rewrite G. split; [apply remains_advance with (1 := H)|]. split; [exists [c]; reflexivity|]. auto.
  - destruct (IH (advance k) n (remains_advance _ _ _ H)) as (A & (m & B) & C); [cbn [tl] in Hn; destruct s; cbn [tl List.length] in *; lia|].
    split; [exact A|]. split; [exists (c :: m); cbn [app]; rewrite <- B; reflexivity|]. exact C.
  - split; [exact H|]. split; [exists []; reflexivity|]. auto.
  - split; [exact H|]. split; [exists []; reflexivity|]. auto.
Qed.

Lemma skip_white_spec s k : remains s k ->
  remains (skip_whitespace s) (skip_white k) /\ (exists m, s = m ++ skip_whitespace s) /\
  k_token (skip_white k) = k_token k /\ k_buf (skip_white k) = k_buf k /\
  k_start (skip_white k) = k_start k /\ k_end (skip_white k) = k_end k.
Proof.
  intros H. apply skip_while_spec; [intros []; reflexivity|exact H|]. rewrite (remains_iter _ _ H). lia.
Qed.

Lemma skip_digits_spec s k : remains s k ->
  remains (digits s) (skip_digits k) /\ (exists m, s = m ++ digits s) /\
  k_token (skip_digits k) = k_token k /\ k_buf (skip_digits k) = k_buf k /\
  k_start (skip_digits k) = k_start k /\ k_end (skip_digits k) = k_end k.
Proof.
  intros H. apply skip_while_spec; [intros []; reflexivity|exact H|]. rewrite (remains_iter _ _ H). lia.
Qed.

Definition frame (k k' : tokenizer) : Prop :=
  k_token k' = k_token k /\ k_buf k' = k_buf k /\ k_start k' = k_start k /\ k_end k' = k_end k.

Lemma frame_refl k : frame k k.
Proof. unfold frame. auto. Qed.

Lemma frame_trans k1 k2 k3 : frame k1 k2 -> frame k2 k3 -> frame k1 k3.
Proof. unfold frame. intros (A & B & C & D) (A' & B' & C' & D'). rewrite A', B', C', D'. auto. Qed.

Lemma frame_advance k : frame k (advance k).
Proof. unfold frame. auto. Qed.

Lemma frame_same k k' st : frame k k' -> remains (t_rest st) k' -> same k st -> same k' st.
Proof. intros (A & B & C & D) R (_ & X & Y & Z). split; [exact R|]. rewrite A, B, C, D. auto. Qed.

Lemma keyword_spec target t : forall s k, remains s k ->
  exists s' k' r, keyword alnum target t k = (k', r) /\ remains s' k' /\ k_buf k' = k_buf k /\ k_start k' = k_start k /\ k_end k' = k_end k /\
    (forall st, match_keyword alnum st target t s =
       Ret ({| t_token := k_token k'; t_rest := s'; t_range := t_range st; t_buf := t_buf st |}, r)).
Proof.
  induction target as [|c target IH]; intros s k H; cbn [keyword]; rewrite (remains_look _ _ H).
  - exists s. unfold match_keyword. cbn [keyword_loop]. destruct s as [|c s]; cbn [hd_error].
    + eexists _, _. split; [reflexivity|]. split; [exact (remains_ext _ _ _ eq_refl eq_refl H)|]. auto.
    + destruct (is_alphanumeric alnum c); eexists _, _; (split; [reflexivity|]); (split; [exact (remains_ext _ _ _ eq_refl eq_refl H)|]); auto.
  - destruct s as [|c' s]; cbn [hd_error].
    + exists []. eexists _, _. split; [reflexivity|]. split; [exact (remains_ext _ _ _ eq_refl eq_refl H)|]. auto.
    + destruct (c' =? c)%Z eqn:E.
      * destruct (IH s (advance k) (remains_advance _ _ _ H)) as (s' & k' & r & K & R & B & S & T & M).
        exists s', k', r. split; [exact K|]. split; [exact R|]. split; [exact B|]. split; [exact S|]. split; [exact T|].
        intros st. rewrite <- (M st). unfold match_keyword. cbn [keyword_loop]. rewrite E. reflexivity.
      * exists (c' :: s). eexists _, _. split; [reflexivity|]. split; [exact (remains_ext _ _ _ eq_refl eq_refl H)|].
        split; [reflexivity|]. split; [reflexivity|]. split; [reflexivity|]. intros st. unfold match_keyword. cbn [keyword_loop]. rewrite E. reflexivity.
Qed.

Lemma hex_spec n : forall code s k, remains s k ->
  exists s' k' o, hex_digits n code k = (k', o) /\ hex_loop n code s = (s', o) /\ remains s' k' /\ frame k k' /\ (exists m, s = m ++ s').
Proof.
  induction n as [|n IH]; intros code s k H; cbn [hex_digits hex_loop].
  - exists s, k, (Some code). split; [reflexivity|]. split; [reflexivity|]. split; [exact H|]. split; [apply frame_refl|]. exists []. reflexivity.
  - rewrite (remains_look _ _ H). destruct s as [|c s]; cbn [hd_error].
    + exists [], k, None. split; [reflexivity|]. split; [reflexivity|]. split; [exact H|]. split; [apply frame_refl|]. exists []. reflexivity.
    + destruct (hex_digit c) as [d|].
      * destruct (IH (code * 16 + d)%Z s (advance k) (remains_advance _ _ _ H)) as (s' & k' & o & A & B & C & D & m & E).
        exists s', k', o. split; [exact A|]. split; [exact B|]. split; [exact C|].
        split; [exact (frame_trans _ _ _ (frame_advance k) D)|]. exists (c :: m). cbn [app]. rewrite <- E. reflexivity.
      * exact (IH code (c :: s) k H).
Qed.

(** Same token, range and start. *)
Definition frame' (k k' : tokenizer) : Prop := k_token k' = k_token k /\ k_start k' = k_start k /\ k_end k' = k_end k.

Lemma control_spec c s k : remains (c :: s) k ->
  match string_control_char s (k_buf k) with
  | Ret (s', buf', r) => exists k', control_char k = Ret (k', r) /\ remains s' k' /\ k_buf k' = buf' /\ frame' k k' /\
      (exists m, s = m ++ s') /\ r <> Err EQuote
  | Panic => control_char k = Panic
  | Undef => False
  end.
Proof.
  intros H. pose proof (remains_advance _ _ _ H) as R. unfold control_char, string_control_char. cbv zeta. rewrite (remains_look _ _ R).
  destruct s as [|d s]; cbn [hd_error].
  { eexists. split; [reflexivity|]. split; [exact R|]. split; [reflexivity|]. split; [unfold frame'; auto|]. split; [exists []; reflexivity|discriminate]. }
  assert (P : forall x, exists k', @Ret kstep (push_char (advance k) x, Ok tt) = Ret (k', Ok tt) /\ remains s k' /\ k_buf k' = k_buf k ++ [x] /\ frame' k k' /\
      (exists m, d :: s = m ++ s) /\ @Ok unit jerr tt <> Err EQuote).
  { intros x. eexists. split; [reflexivity|]. split; [exact (remains_ext _ _ _ eq_refl eq_refl (remains_advance _ _ _ R))|].
    split; [reflexivity|]. split; [unfold frame'; auto|]. split; [exists [d]; reflexivity|discriminate]. }
  destruct (d =? 47)%Z; [exact (P _)|]. destruct (d =? 92)%Z; [exact (P _)|]. destruct (d =? 34)%Z; [exact (P _)|].
  destruct (d =? 98)%Z; [exact (P _)|]. destruct (d =? 102)%Z; [exact (P _)|]. destruct (d =? 110)%Z; [exact (P _)|].
  destruct (d =? 114)%Z; [exact (P _)|]. destruct (d =? 116)%Z; [exact (P _)|]. clear P.
  destruct (d =? 117)%Z.
  - destruct (hex_spec 4 0%Z s (advance (advance k)) (remains_advance _ _ _ R)) as (s' & k' & o & -> & -> & C & F & m & E).
    destruct F as (F1 & F2 & F3 & F4). destruct o as [code|].
    + destruct (is_char code); [|reflexivity]. eexists. split; [reflexivity|]. split; [exact (remains_ext _ _ _ eq_refl eq_refl C)|].
      split; [cbn [with_buf k_buf]; rewrite F2; reflexivity|]. split; [unfold frame'; cbn [with_buf k_token k_start k_end]; rewrite F1, F3, F4; auto|].
      split; [exists (d :: m); cbn [app]; rewrite <- E; reflexivity|discriminate].
    + eexists. split; [reflexivity|]. split; [exact C|]. split; [exact F2|]. split; [unfold frame'; rewrite F1, F3, F4; auto|].
      split; [exists (d :: m); cbn [app]; rewrite <- E; reflexivity|discriminate].
  - eexists. split; [reflexivity|]. split; [exact R|]. split; [reflexivity|]. split; [unfold frame'; auto|]. split; [exists []; reflexivity|discriminate].
Qed.

Lemma string_spec fuel : forall s k, remains s k ->
  match string_loop fuel s (k_buf k) with
  | Ret (s', buf', r) => exists k', string_chars bytes fuel k = Ret (k', r) /\ remains s' k' /\ k_buf k' = buf' /\ k_start k' = k_start k /\
      (exists m, s = m ++ s') /\
      match r with
      | Ok _ => k_token k' = KString /\ k_end k' = k_end k
      | Err EQuote => k_token k' = KError /\ k_end k' = current_pos bytes k'
      | Err _ => k_token k' = k_token k /\ k_end k' = k_end k
      end
  | Panic => string_chars bytes fuel k = Panic
  | Undef => string_chars bytes fuel k = Undef
  end.
Proof.
  induction fuel as [|fuel IH]; intros s k H; cbn [string_loop string_chars]; [reflexivity|].
  rewrite (remains_look _ _ H). destruct s as [|c s]; cbn [hd_error].
  { eexists. split; [reflexivity|]. split; [exact (remains_ext _ _ _ eq_refl eq_refl H)|]. split; [reflexivity|]. split; [reflexivity|].
    split; [exists []; reflexivity|]. auto. }
  destruct (c =? 34)%Z.
  { eexists. split; [reflexivity|]. split; [exact (remains_ext _ _ _ eq_refl eq_refl (remains_advance _ _ _ H))|].
    split; [reflexivity|]. split; [reflexivity|]. split; [exists [c]; reflexivity|]. auto. }
  destruct (c =? 92)%Z.
  { pose proof (control_spec c s k H) as C. destruct (string_control_char s (k_buf k)) as [[[s2 buf2] r]| |]; cbn [bind];
      [|rewrite C; reflexivity|contradiction].
    destruct C as (k' & -> & R & B & (F1 & F2 & F3) & (m & E) & N). cbn [bind]. destruct r as [u|e].
    - specialize (IH s2 k' R). rewrite B in IH. destruct (string_loop fuel s2 buf2) as [[[s3 buf3] r3]| |]; [|exact IH|exact IH].
      destruct IH as (k3 & A & R3 & B3 & S3 & (m3 & E3) & X). exists k3. split; [exact A|]. split; [exact R3|]. split; [exact B3|].
      split; [rewrite S3; exact F2|]. split; [exists (c :: m ++ m3); cbn [app]; rewrite <- app_assoc, <- E3, <- E; reflexivity|].
      rewrite <- F1, <- F3. exact X.
    - exists k'. split; [reflexivity|]. split; [exact R|]. split; [exact B|]. split; [exact F2|].
      split; [exists (c :: m); cbn [app]; rewrite <- E; reflexivity|]. destruct e; try (split; [exact F1|exact F3]). congruence. }
  destruct (c <=? 0x1f)%Z.
  { eexists. split; [reflexivity|]. split; [exact (remains_ext _ _ _ eq_refl eq_refl H)|]. split; [reflexivity|]. split; [reflexivity|].
    split; [exists []; reflexivity|]. auto. }
  assert (R : remains s (push_char k c)) by exact (remains_ext _ _ _ eq_refl eq_refl (remains_advance _ _ _ H)).
  specialize (IH s (push_char k c) R). change (k_buf (push_char k c)) with (k_buf k ++ [c]) in IH.
  destruct (string_loop fuel s (k_buf k ++ [c])) as [[[s3 buf3] r3]| |]; [|exact IH|exact IH].
  destruct IH as (k3 & A & R3 & B3 & S3 & (m3 & E3) & X). exists k3. split; [exact A|]. split; [exact R3|]. split; [exact B3|].
  split; [exact S3|]. split; [exists (c :: m3); cbn [app]; rewrite <- E3; reflexivity|]. exact X.
Qed.

Lemma text_between_app m s : text_between (m ++ s) s = m.
Proof.
  unfold text_between. rewrite app_length. replace (List.length m + List.length s - List.length s)%nat with (List.length m) by lia.
  rewrite firstn_app, Nat.sub_diag, firstn_all, firstn_O. apply app_nil_r.
Qed.

Definition agrees (o : outcome tstep) (o' : outcome kstep) : Prop :=
  match o, o' with
  | Ret (st, r), Ret (k, r') => r' = r /\ same k st
  | Panic, Panic | Undef, Undef => True
  | _, _ => False
  end.

Lemma spans_here s k : remains s k -> spans (current_pos bytes k) (current_pos bytes k) [].
Proof.
  intros H. pose proof H as (pre & E & _). exists pre, s. rewrite (remains_pos _ _ _ H E), app_nil_r. auto.
Qed.

Lemma spans_text s m s' k k' : remains s k -> s = m ++ s' -> remains s' k' -> spans (current_pos bytes k) (current_pos bytes k') m.
Proof.
  intros H -> H'. pose proof H as (pre & E & _). exists pre, s'. split; [exact E|]. split; [exact (remains_pos _ _ _ H E)|].
  apply (remains_pos _ _ _ H'). rewrite E. apply app_assoc.
Qed.

Lemma string_agrees c s k st : remains (c :: s) k -> same k st ->
  agrees (match_string st (c :: s)) (string_token bytes k).
Proof.
  intros H (_ & T & _ & _). unfold match_string, string_token. cbn [tl]. rewrite (remains_iter _ _ H). cbn [tl List.length].
  set (k0 := with_buf (advance (mark_start bytes k)) []).
  assert (R0 : remains s k0) by exact (remains_ext _ _ _ eq_refl eq_refl (remains_advance _ _ _ H)).
  pose proof (string_spec (S (S (List.length s))) s k0 R0) as X. change (k_buf k0) with (@nil Z) in X.
  destruct (string_loop _ s []) as [[[s' buf] r]| |]; cbn [bind]; [|rewrite X; exact I|rewrite X; exact I].
  destruct X as (k' & -> & R & B & S & (m & E) & Y). change (k_start k0) with (current_pos bytes k) in S.
  change (k_token k0) with (k_token k) in Y. change (k_end k0) with (current_pos bytes k) in Y.
  assert (Z : r <> Err EQuote -> forall t, k_token k' = t -> k_end k' = current_pos bytes k ->
    same k' {| t_token := t; t_rest := s'; t_range := []; t_buf := buf |}).
  { intros _ t Ht He. split; [exact R|]. split; [exact Ht|]. split; [exact B|]. cbn [t_range]. rewrite S, He. exact (spans_here _ _ H). }
  destruct r as [u|e]; [destruct Y; destruct u; split; [reflexivity|apply Z; [discriminate|assumption|assumption]]|].
  destruct e; try (destruct Y as [Y1 Y2]; split; [reflexivity|apply Z; [discriminate|rewrite Y1; exact T|exact Y2]]).
  destruct Y as [Y1 Y2]. split; [reflexivity|]. split; [exact R|]. split; [exact Y1|]. split; [exact B|]. cbn [t_range].
  rewrite S, Y2. subst s. rewrite app_comm_cons, text_between_app. exact (spans_text _ (c :: m) s' _ _ H eq_refl R).
Qed.

Lemma looks_spec s k f : remains s k -> looks k f = match s with c :: _ => f c | [] => false end.
Proof. intros H. unfold looks. rewrite (remains_look _ _ H). destruct s; reflexivity. Qed.

(** What the parts of [match_number] keep. *)
Definition part (s0 s : str) (k0 k : tokenizer) : Prop := remains s k /\ frame k0 k /\ exists m, s0 = m ++ s.

Lemma part_refl s k : remains s k -> part s s k k.
Proof. intros H. split; [exact H|]. split; [apply frame_refl|]. exists []. reflexivity. Qed.

Lemma part_advance s0 k0 c s k : part s0 (c :: s) k0 k -> part s0 s k0 (advance k).
Proof.
  intros (R & F & m & E). split; [exact (remains_advance _ _ _ R)|]. split; [exact (frame_trans _ _ _ F (frame_advance k))|].
  exists (m ++ [c]). rewrite <- app_assoc. exact E.
Qed.

Lemma part_digits s0 k0 s k : part s0 s k0 k -> part s0 (digits s) k0 (skip_digits k).
Proof.
  intros (R & F & m & E). destruct (skip_digits_spec s k R) as (R' & (m' & E') & F').
  split; [exact R'|]. split; [exact (frame_trans _ _ _ F F')|]. exists (m ++ m'). rewrite <- app_assoc, <- E'. exact E.
Qed.

Lemma number_agrees s k st : remains s k -> same k st -> agrees (match_number st s) (number_token bytes k).
Proof.
  intros H (_ & T & B & _). set (k0 := mark_start bytes k).
  assert (P0 : part s s k0 k0) by (apply part_refl; exact (remains_ext _ _ _ eq_refl eq_refl H)).
  assert (Bad : forall s' k' e, part s s' k0 k' ->
    agrees (Ret ({| t_token := t_token st; t_rest := s'; t_range := []; t_buf := t_buf st |}, Err e)) (Ret (k', Err e))).
  { intros s' k' e (R & (F1 & F2 & F3 & F4) & _). split; [reflexivity|]. split; [exact R|]. cbn [t_token t_buf t_range].
    rewrite F1, F2, F3, F4. split; [exact T|]. split; [exact B|]. exact (spans_here _ _ H). }
  assert (Good : forall s' k', part s s' k0 k' ->
    agrees (Ret ({| t_token := KNumber; t_rest := s'; t_range := text_between s s'; t_buf := t_buf st |}, Ok tt))
           (Ret (with_token (mark_end bytes k') KNumber, Ok tt))).
  { intros s' k' (R & (F1 & F2 & F3 & F4) & m & E). split; [reflexivity|]. split; [exact (remains_ext _ _ _ eq_refl eq_refl R)|].
    cbn [t_token t_buf t_range with_token mark_end with_range k_token k_buf k_start k_end]. rewrite F2, F3.
    split; [reflexivity|]. split; [exact B|]. rewrite E at 1. rewrite text_between_app. exact (spans_text _ _ _ _ _ H E R). }
  unfold match_number, number_token, number_body. fold k0. cbv zeta.
  set (s1 := match s with c :: s' => if (c =? 45)%Z then s' else s | [] => s end).
  set (k1 := if looks k0 (Z.eqb 45) then advance k0 else k0).
  assert (P1 : part s s1 k0 k1).
  { unfold s1, k1. rewrite (looks_spec _ _ _ (proj1 P0)). destruct s as [|c s]; [exact P0|]. rewrite (Z.eqb_sym 45 c).
    destruct (c =? 45)%Z; [exact (part_advance _ _ _ _ _ P0)|exact P0]. }
  clearbody s1 k1.
  set (o2 := match s1 with c :: s' => if (c =? 48)%Z then Some s' else if is_digit c then Some (digits s') else None | [] => None end).
  set (ok2 := if looks k1 (Z.eqb 48) then Some (advance k1) else if looks k1 is_digit then Some (skip_digits (advance k1)) else None).
  assert (P2 : match o2, ok2 with Some s2, Some k2 => part s s2 k0 k2 | None, None => True | _, _ => False end).
  { unfold o2, ok2. rewrite !(looks_spec _ _ _ (proj1 P1)). destruct s1 as [|c s']; [exact I|]. rewrite (Z.eqb_sym 48 c). destruct (c =? 48)%Z.
    - exact (part_advance _ _ _ _ _ P1).
    - destruct (is_digit c); [|exact I]. apply part_digits. exact (part_advance _ _ _ _ _ P1). }
  clearbody o2 ok2. destruct o2 as [s2|], ok2 as [k2|]; try contradiction; [|exact (Bad _ _ _ P1)].
  set (s3 := match s2 with c :: s' => if (c =? 46)%Z then digits s' else s2 | [] => s2 end).
  set (k3 := if looks k2 (Z.eqb 46) then skip_digits (advance k2) else k2).
  assert (P3 : part s s3 k0 k3).
  { unfold s3, k3. rewrite (looks_spec _ _ _ (proj1 P2)). destruct s2 as [|c s']; [exact P2|]. rewrite (Z.eqb_sym 46 c).
    destruct (c =? 46)%Z; [|exact P2]. apply part_digits. exact (part_advance _ _ _ _ _ P2). }
  clearbody s3 k3. rewrite (looks_spec _ _ _ (proj1 P3)). destruct s3 as [|c s']; [exact (Good _ _ P3)|].
  destruct ((c =? 101)%Z || (c =? 69)%Z); [|exact (Good _ _ P3)].
  apply part_advance in P3. set (s4 := match s' with c' :: s'' => if (c' =? 43)%Z || (c' =? 45)%Z then s'' else s' | [] => s' end).
  set (k4 := if looks (advance k3) (fun c => (c =? 43)%Z || (c =? 45)%Z) then advance (advance k3) else advance k3).
  assert (P4 : part s s4 k0 k4).
  { unfold s4, k4. rewrite (looks_spec _ _ _ (proj1 P3)). destruct s' as [|c' s'']; [exact P3|].
    destruct ((c' =? 43)%Z || (c' =? 45)%Z); [exact (part_advance _ _ _ _ _ P3)|exact P3]. }
  clearbody s4 k4. rewrite (looks_spec _ _ _ (proj1 P4)). destruct s4 as [|c4 s4]; [exact (Bad _ _ _ P4)|].
  destruct (is_digit c4); [|exact (Bad _ _ _ P4)]. apply Good, part_digits, P4.
Qed.

Lemma next_agrees k st : same k st -> agrees (next alnum st) (next_token alnum bytes k).
Proof.
  intros H. pose proof H as (R & T & B & S). unfold next, next_token. cbv zeta.
  destruct (skip_white_spec _ _ R) as (R' & _ & F). set (s := skip_whitespace (t_rest st)) in *. set (k1 := skip_white k) in *.
  destruct F as (F1 & F2 & F3 & F4).
  set (st1 := {| t_token := t_token st; t_rest := s; t_range := t_range st; t_buf := t_buf st |}).
  assert (H1 : same k1 st1) by (split; [exact R'|]; cbn [st1 t_token t_buf t_range]; rewrite F1, F2, F3, F4; auto).
  clearbody s k1. rewrite (remains_look _ _ R'). destruct s as [|c s]; cbn [hd_error].
  { split; [reflexivity|]. split; [exact (remains_ext _ _ _ eq_refl eq_refl R')|]. destruct H1 as (_ & _ & H1). split; [reflexivity|exact H1]. }
  assert (One : forall t, agrees (single_char_token st t s) (single_char k1 t)).
  { intros t. split; [reflexivity|]. split; [exact (remains_ext _ _ _ eq_refl eq_refl (remains_advance _ _ _ R'))|].
    destruct H1 as (_ & _ & H1). split; [reflexivity|exact H1]. }
  assert (Word : forall w t, agrees (match_keyword alnum st w t (c :: s)) (Ret (keyword alnum w t k1))).
  { intros w t. destruct (keyword_spec w t _ _ R') as (s' & k' & r & -> & R2 & B2 & S2 & E2 & ->). split; [reflexivity|].
    destruct H1 as (_ & _ & H1). split; [exact R2|]. split; [reflexivity|]. rewrite B2, S2, E2. exact H1. }
  destruct (c =? 91)%Z; [exact (One _)|]. destruct (c =? 93)%Z; [exact (One _)|]. destruct (c =? 123)%Z; [exact (One _)|].
  destruct (c =? 125)%Z; [exact (One _)|]. destruct (c =? 44)%Z; [exact (One _)|]. destruct (c =? 58)%Z; [exact (One _)|].
  destruct (c =? 110)%Z; [exact (Word _ _)|]. destruct (c =? 116)%Z; [exact (Word _ _)|]. destruct (c =? 102)%Z; [exact (Word _ _)|].
  destruct (c =? 34)%Z; [exact (string_agrees c s k1 st1 R' H1)|]. destruct (c =? 45)%Z; [exact (number_agrees _ k1 st1 R' H1)|].
  destruct (is_digit c); [exact (number_agrees _ k1 st1 R' H1)|].
  split; [reflexivity|]. split; [exact (remains_ext _ _ _ eq_refl eq_refl R')|]. destruct H1 as (_ & _ & H1). split; [reflexivity|exact H1].
Qed.

Lemma init_same : same (token_init input) (tok_init input).
Proof.
  split; [exists []; split; [reflexivity|split; reflexivity]|]. split; [reflexivity|]. split; [reflexivity|]. exists [], input. auto.
Qed.

(** ** Values *)

Hypothesis Chars : Forall (fun c => is_char c = true) input.

Lemma first_byte c : is_char c = true -> exists b l, utf8_char c = b :: l /\ ((b2z b <? 0x80)%Z || (0xC0 <=? b2z b)%Z) = true.
Proof.
  intros H. unfold is_char in H. unfold utf8_char.
  destruct (c <? 0x80)%Z eqn:E1; [|destruct (c <? 0x800)%Z eqn:E2; [|destruct (c <? 0x10000)%Z eqn:E3]]; eexists _, _;
    (split; [reflexivity|]); rewrite b2z_z2b_small; try lia.
  all: pose proof (Z.div_mod c 64); pose proof (Z.div_mod c 4096); pose proof (Z.div_mod c 262144);
    pose proof (Z.mod_pos_bound c 64); pose proof (Z.mod_pos_bound c 4096); pose proof (Z.mod_pos_bound c 262144); lia.
Qed.

Lemma boundary pre post : input = pre ++ post -> is_char_boundary bytes (blen pre) = true.
Proof.
  intros E. unfold is_char_boundary. rewrite E. unfold utf8_encode. rewrite flat_map_app. fold (utf8_encode pre) (utf8_encode post).
  unfold blen. rewrite nth_error_app2, Nat.sub_diag by lia. destruct post as [|c post].
  - cbn [utf8_encode flat_map nth_error]. rewrite app_nil_r, Nat.eqb_refl. apply orb_true_r.
  - unfold utf8_encode at 2. cbn [flat_map]. assert (Hc : is_char c = true).
    { rewrite E in Chars. apply Forall_app in Chars. destruct Chars as [_ X]. inversion X. assumption. }
    destruct (first_byte c Hc) as (b & l & -> & Hb). cbn [app nth_error]. rewrite Hb. apply orb_true_r.
Qed.

Lemma spans_get a b m : spans a b m -> str_get bytes a b = Some m.
Proof.
  intros (p & q & E & -> & ->). unfold str_get. rewrite blen_app. replace (blen p <=? blen p + blen m)%nat with true by lia.
  rewrite (boundary p (m ++ q) E). rewrite <- blen_app. rewrite (boundary (p ++ m) q) by (rewrite <- app_assoc; exact E).
  cbn [andb]. rewrite blen_app. replace (blen p + blen m - blen p)%nat with (blen m) by lia. rewrite E.
  unfold utf8_encode. rewrite !flat_map_app. fold (utf8_encode p) (utf8_encode m) (utf8_encode q). unfold blen.
  rewrite skipn_app, skipn_all, Nat.sub_diag. cbn [skipn app]. rewrite firstn_app, Nat.sub_diag, firstn_O, firstn_all, app_nil_r.
  apply utf8_decode_encode. rewrite E in Chars. apply Forall_app in Chars. destruct Chars as [_ X]. apply Forall_app in X. tauto.
Qed.

Lemma value_same k st : same k st -> token_value bytes k = Ret (tok_value st).
Proof.
  intros (_ & T & B & S). unfold token_value, tok_value. rewrite T, (spans_get _ _ _ S). destruct (t_token st); rewrite ?B; reflexivity.
Qed.

Lemma reached_same k : reached alnum input k -> exists st, same k st.
Proof.
  induction 1 as [|k k' r H (st & IH) E]; [exists (tok_init input); apply init_same|].
  pose proof (next_agrees k st IH) as A. rewrite E in A. unfold agrees in A. destruct (next alnum st) as [[st' r']| |]; try contradiction.
  exists st'. apply A.
Qed.

Lemma reached_span k : reached alnum input k -> exists before text after, input = before ++ text ++ after /\
  k_start k = List.length (utf8_encode before) /\ k_end k = List.length (utf8_encode (before ++ text)) /\
  token_value bytes k = Ret (match k_token k with KString => k_buf k | _ => text end).
Proof.
  intros H. destruct (reached_same k H) as (st & S). pose proof (value_same k st S) as V. destruct S as (_ & T & B & p & q & S).
  exists p, (t_range st), q. destruct S as (E & S1 & S2). split; [exact E|]. split; [exact S1|]. split; [exact S2|].
  rewrite V. unfold tok_value. rewrite T, B. destruct (t_token st); reflexivity.
Qed.

Lemma seen_same n : forall k st, same k st -> seen_bytes alnum bytes n k = seen_chars alnum n st.
Proof.
  induction n as [|n IH]; intros k st H; [reflexivity|]. cbn [seen_bytes seen_chars]. pose proof (next_agrees k st H) as A. unfold agrees in A.
  destruct (next alnum st) as [[st' r]| |], (next_token alnum bytes k) as [[k' r']| |]; try contradiction; try reflexivity.
  destruct A as [-> A]. cbn [bind]. rewrite (IH _ _ A), (value_same _ _ A). destruct A as (_ & -> & _). reflexivity.
Qed.

Lemma look_remaining k : reached alnum input k -> exists before after, input = before ++ after /\
  current_pos bytes k = List.length (utf8_encode before) /\ look k = hd_error after.
Proof.
  intros H. destruct (reached_same k H) as (st & R & _). pose proof R as (pre & E & _). exists pre, (t_rest st).
  split; [exact E|]. split; [exact (remains_pos _ _ _ R E)|exact (remains_look _ _ R)].
Qed.

End Run.

Lemma keyword_token alnum target t k k' r : keyword alnum target t k = (k', r) -> k_token k' = t \/ k_token k' = KError.
Proof.
  revert k. induction target as [|c target IH]; intros k; cbn [keyword]; destruct (look k) as [d|].
  - destruct (is_alphanumeric alnum d); intros H; injection H as <- <-; auto.
  - intros H; injection H as <- <-; auto.
  - destruct (d =? c)%Z; [apply IH|]. intros H; injection H as <- <-; auto.
  - intros H; injection H as <- <-; auto.
Qed.

Lemma string_chars_token bytes fuel : forall k k' u, string_chars bytes fuel k = Ret (k', Ok u) -> k_token k' = KString.
Proof.
  induction fuel as [|fuel IH]; intros k k' u; cbn [string_chars]; [discriminate|]. destruct (look k) as [c|]; [|discriminate].
  destruct (c =? 34)%Z; [intros H; injection H as <- <-; reflexivity|]. destruct (c =? 92)%Z.
  - destruct (control_char k) as [[k1 [v|e]]| |]; cbn [bind]; try discriminate. apply IH.
  - destruct (c <=? 0x1f)%Z; [discriminate|]. apply IH.
Qed.

Lemma number_token_end bytes k k' u : number_token bytes k = Ret (k', Ok u) -> k_end k' = current_pos bytes k'.
Proof.
  unfold number_token. cbv zeta. set (k1 := if looks (mark_start bytes k) (Z.eqb 45) then advance (mark_start bytes k) else mark_start bytes k).
  clearbody k1. destruct (if looks k1 (Z.eqb 48) then _ else _) as [k2|]; [|discriminate].
  set (k3 := if looks k2 (Z.eqb 46) then skip_digits (advance k2) else k2). clearbody k3.
  destruct (if looks k3 _ then _ else _) as [k4 [|]]; [|discriminate]. intros H. injection H as <- <-. reflexivity.
Qed.

Lemma number_end alnum bytes k k' u : next_token alnum bytes k = Ret (k', Ok u) -> k_token k' = KNumber -> k_end k' = current_pos bytes k'.
Proof.
  unfold next_token. cbv zeta. destruct (look (skip_white k)) as [c|]; [|intros H; injection H as <- <-; discriminate].
  assert (One : forall t, t <> KNumber -> single_char (skip_white k) t = Ret (k', Ok u) -> k_token k' = KNumber -> k_end k' = current_pos bytes k').
  { intros t N H. injection H as <- <-. cbn. congruence. }
  assert (Word : forall w t, t <> KNumber -> Ret (keyword alnum w t (skip_white k)) = Ret (k', Ok u) -> k_token k' = KNumber -> k_end k' = current_pos bytes k').
  { intros w t N H K. assert (H' : keyword alnum w t (skip_white k) = (k', Ok u)) by congruence. apply keyword_token in H'. destruct H'; congruence. }
  destruct (c =? 91)%Z; [apply One; discriminate|]. destruct (c =? 93)%Z; [apply One; discriminate|].
  destruct (c =? 123)%Z; [apply One; discriminate|]. destruct (c =? 125)%Z; [apply One; discriminate|].
  destruct (c =? 44)%Z; [apply One; discriminate|]. destruct (c =? 58)%Z; [apply One; discriminate|].
  destruct (c =? 110)%Z; [apply Word; discriminate|]. destruct (c =? 116)%Z; [apply Word; discriminate|].
  destruct (c =? 102)%Z; [apply Word; discriminate|].
  destruct (c =? 34)%Z; [intros H K; apply string_chars_token in H; congruence|].
  destruct (c =? 45)%Z; [intros H _; exact (number_token_end _ _ _ _ H)|].
  destruct (is_digit c); [intros H _; exact (number_token_end _ _ _ _ H)|discriminate].
Qed.
