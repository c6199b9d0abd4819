(** * The JSON tokenizer: termination, progress, panics, numbers *)

From Coq Require Import ZifyBool ZifyNat ZifyN.
From Verif Require Import Base BaseFacts StrModel StrFacts Utf8Model TypesModel MarshalModel MarshalSpec JsonModel JsonSpec.
Local Open Scope Z_scope.
Ltac Zify.zify_post_hook ::= Z.div_mod_to_equations.

(** ** Hexadecimal escapes *)

Lemma hex_digit_some c d : hex_digit c = Some d <-> hex_char c /\ d = hex_value c.
Proof.
  unfold hex_digit, hex_char, hex_value.
  destruct ((48 <=? c) && (c <=? 57)) eqn:E1; [|destruct ((97 <=? c) && (c <=? 102)) eqn:E2; [|destruct ((65 <=? c) && (c <=? 70)) eqn:E3]].
  - replace (c <=? 57) with true by lia. split; [intros H; injection H as <-; split; [lia|reflexivity]|intros [_ ->]; reflexivity].
  - replace (c <=? 57) with false by lia. replace (c <=? 70) with false by lia.
    split; [intros H; injection H as <-; split; [lia|reflexivity]|intros [_ ->]; reflexivity].
  - replace (c <=? 57) with false by lia. replace (c <=? 70) with true by lia.
    split; [intros H; injection H as <-; split; [lia|reflexivity]|intros [_ ->]; reflexivity].
  - split; [discriminate|]. intros [H _]. lia.
Qed.

Lemma hex_digit_none c : hex_digit c = None <-> ~ hex_char c.
Proof.
  destruct (hex_digit c) as [d|] eqn:E.
  - apply hex_digit_some in E. split; [discriminate|tauto].
  - split; [|reflexivity]. intros _ H. assert (X : hex_digit c = Some (hex_value c)) by (apply hex_digit_some; auto). congruence.
Qed.

Definition hex_fold (code : Z) (ds : str) : Z := fold_left (fun acc c => 16 * acc + hex_value c) ds code.

Lemma hex_loop_stop n code c s : ~ hex_char c -> hex_loop n code (c :: s) = (c :: s, Some code).
Proof. intros H. apply hex_digit_none in H. induction n as [|n IH]; cbn [hex_loop]; [reflexivity|]. rewrite H. exact IH. Qed.

Lemma hex_loop_some n : forall code s s2 code', hex_loop n code s = (s2, Some code') ->
  exists ds, s = ds ++ s2 /\ Forall hex_char ds /\ (length ds <= n)%nat /\ code' = hex_fold code ds /\
    ((length ds < n)%nat -> exists c r, s2 = c :: r /\ ~ hex_char c).
Proof.
  induction n as [|n IH]; intros code s s2 code' H.
  - injection H as <- <-. exists []. cbn. repeat split; auto. lia.
  - destruct s as [|c s]; [discriminate|]. destruct (hex_digit c) as [d|] eqn:E.
    + cbn [hex_loop] in H. rewrite E in H. apply IH in H. destruct H as (ds & -> & F & L & -> & St).
      apply hex_digit_some in E. destruct E as [Hc ->]. exists (c :: ds). repeat split.
      * constructor; assumption.
      * cbn; lia.
      * unfold hex_fold. cbn [fold_left]. rewrite (Z.mul_comm code). reflexivity.
      * cbn. intros HL. apply St. lia.
    + apply hex_digit_none in E. rewrite hex_loop_stop in H by exact E. injection H as <- <-.
      exists []. cbn. repeat split; auto; [lia|]. intros _. exists c, s. auto.
Qed.

Lemma hex_loop_none n : forall code s s2, hex_loop n code s = (s2, None) -> s2 = [] /\ Forall hex_char s /\ (length s < n)%nat.
Proof.
  induction n as [|n IH]; intros code s s2 H; [discriminate|].
  destruct s as [|c s]; [injection H as <-; repeat split; auto; cbn; lia|].
  destruct (hex_digit c) as [d|] eqn:E.
  - cbn [hex_loop] in H. rewrite E in H. apply IH in H. destruct H as (-> & F & L).
    apply hex_digit_some in E. repeat split; [constructor; tauto|cbn; lia].
  - apply hex_digit_none in E. rewrite hex_loop_stop in H by exact E. discriminate.
Qed.

Lemma hex_loop_complete n : forall ds r code, Forall hex_char ds -> (length ds <= n)%nat ->
  ((length ds < n)%nat -> exists c r', r = c :: r' /\ ~ hex_char c) ->
  hex_loop n code (ds ++ r) = (r, Some (hex_fold code ds)).
Proof.
  induction n as [|n IH]; intros ds r code F L St.
  - destruct ds; [reflexivity|cbn in L; lia].
  - destruct F as [|c ds Hc F].
    + destruct St as (c & r' & -> & Hc); [cbn; lia|]. cbn [app]. rewrite hex_loop_stop by exact Hc. reflexivity.
    + cbn [app hex_loop]. assert (E : hex_digit c = Some (hex_value c)) by (apply hex_digit_some; auto). rewrite E.
      rewrite IH; [|exact F|cbn in L; lia|intros HL; apply St; cbn; lia].
      unfold hex_fold. cbn [fold_left]. rewrite (Z.mul_comm 16 code). reflexivity.
Qed.

Lemma hex_value_range c : hex_char c -> 0 <= hex_value c < 16.
Proof. unfold hex_char, hex_value. intros H. destruct (Z.leb_spec c 57); [|destruct (Z.leb_spec c 70)]; lia. Qed.

Lemma hex_fold_bound ds : Forall hex_char ds -> forall code, 0 <= code ->
  0 <= hex_fold code ds < (code + 1) * 16 ^ Z.of_nat (length ds).
Proof.
  induction 1 as [|c ds Hc F IH]; intros code H0; [cbn; lia|].
  unfold hex_fold. cbn [fold_left]. fold (hex_fold (16 * code + hex_value c) ds).
  pose proof (hex_value_range c Hc). specialize (IH (16 * code + hex_value c) ltac:(lia)).
  cbn [length]. rewrite Nat2Z.inj_succ, Z.pow_succ_r by lia.
  assert (0 < 16 ^ Z.of_nat (length ds)) by (apply Z.pow_pos_nonneg; lia). nia.
Qed.

Lemma hex_code_small ds : Forall hex_char ds -> (length ds <= 4)%nat -> 0 <= hex_code ds < 0x10000.
Proof.
  intros F L. pose proof (hex_fold_bound ds F 0 ltac:(lia)) as B. change (hex_fold 0 ds) with (hex_code ds) in B.
  assert (16 ^ Z.of_nat (length ds) <= 16 ^ 4) by (apply Z.pow_le_mono_r; lia). change (16 ^ 4) with 0x10000 in *. lia.
Qed.

Lemma is_char_hex ds : Forall hex_char ds -> (length ds <= 4)%nat -> is_char (hex_code ds) = false <-> surrogate (hex_code ds).
Proof. intros F L. pose proof (hex_code_small ds F L). unfold is_char, surrogate. lia. Qed.

Lemma surrogate_four ds : Forall hex_char ds -> (length ds <= 4)%nat -> surrogate (hex_code ds) -> length ds = 4%nat.
Proof.
  intros F L S. pose proof (hex_fold_bound ds F 0 ltac:(lia)) as B. change (hex_fold 0 ds) with (hex_code ds) in B.
  unfold surrogate in S. destruct (Nat.eq_dec (length ds) 4) as [E|E]; [exact E|].
  assert (16 ^ Z.of_nat (length ds) <= 16 ^ 3) by (apply Z.pow_le_mono_r; lia). change (16 ^ 3) with 0x1000 in *. lia.
Qed.

(** ** Escapes *)

Definition simple_escape (c : Z) : option Z :=
  if c =? 47 then Some 47 else if c =? 92 then Some 92 else if c =? 34 then Some 34 else if c =? 98 then Some 8
  else if c =? 102 then Some 12 else if c =? 110 then Some 10 else if c =? 114 then Some 13 else if c =? 116 then Some 9
  else None.

Lemma control_char_eq s buf : string_control_char s buf =
  match s with
  | [] => Ret ([], buf, Err EEscape)
  | c :: s' =>
      match simple_escape c with
      | Some e => Ret (s', buf ++ [e], Ok tt)
      | None =>
          if c =? 117 then
            match hex_loop 4 0 s' with
            | (s2, None) => Ret (s2, buf, Err EUnicode)
            | (s2, Some code) => if is_char code then Ret (s2, buf ++ [code], Ok tt) else Panic
            end
          else Ret (s, buf, Err EEscape)
      end
  end.
Proof.
  destruct s as [|c s]; [reflexivity|]. unfold string_control_char, simple_escape.
  repeat (match goal with |- context [if ?b then _ else _] => match b with (c =? _) => destruct b; [reflexivity|] end end).
  reflexivity.
Qed.

Lemma simple_escape_in c : In c [47; 92; 34; 98; 102; 110; 114; 116] <-> exists e, simple_escape c = Some e.
Proof.
  unfold simple_escape. cbn [In]. split.
  - intros H. repeat (destruct H as [<-|H]; [eexists; reflexivity|]). destruct H.
  - intros (e & H). repeat match type of H with (if ?b then _ else _) = _ => destruct b eqn:?E; [lia|clear E] end. discriminate.
Qed.

Lemma control_char_length s buf s2 buf2 r : string_control_char s buf = Ret (s2, buf2, r) ->
  exists pre, s = pre ++ s2 /\ (r = Ok tt -> pre <> []).
Proof.
  rewrite control_char_eq. destruct s as [|c s]; [intros H; injection H as <- <- <-; exists []; split; [reflexivity|discriminate]|].
  destruct (simple_escape c) as [e|]; [intros H; injection H as <- <- <-; exists [c]; split; [reflexivity|discriminate]|].
  destruct (c =? 117); [|intros H; injection H as <- <- <-; exists []; split; [reflexivity|discriminate]].
  destruct (hex_loop 4 0 s) as [s3 [code|]] eqn:E.
  - destruct (is_char code); [|discriminate]. intros H; injection H as <- <- <-.
    apply hex_loop_some in E. destruct E as (ds & -> & _). exists (c :: ds). split; [reflexivity|discriminate].
  - intros H; injection H as <- <- <-. apply hex_loop_none in E. destruct E as (-> & _). exists (c :: s). rewrite app_nil_r.
    split; [reflexivity|discriminate].
Qed.

Lemma control_char_not_undef s buf : string_control_char s buf <> Undef.
Proof.
  rewrite control_char_eq. destruct s as [|c s]; [discriminate|]. destruct (simple_escape c); [discriminate|].
  destruct (c =? 117); [|discriminate]. destruct (hex_loop 4 0 s) as [s3 [code|]]; [|discriminate]. destruct (is_char code); discriminate.
Qed.

(** ** The string loop does not depend on its fuel *)

Definition sloop (s buf : str) := string_loop (S (length s)) s buf.

Lemma string_loop_fuel f : forall s buf, (length s < f)%nat -> string_loop f s buf = sloop s buf.
Proof.
  induction f as [f IH] using (well_founded_induction lt_wf). intros s buf Hf. destruct f as [|f]; [lia|].
  unfold sloop. cbn [string_loop]. destruct s as [|c s]; [reflexivity|]. cbn [length] in *.
  destruct (c =? 34); [reflexivity|]. destruct (c =? 92).
  - destruct (string_control_char s buf) as [[[s2 b2] r]| |] eqn:E; cbn [bind]; try reflexivity.
    destruct r; [|reflexivity]. destruct (control_char_length _ _ _ _ _ E) as (pre & -> & _). rewrite app_length in Hf.
    rewrite IH by lia. destruct pre as [|x pre].
    + cbn [app length] in *. rewrite IH by lia. reflexivity.
    + symmetry. apply IH; rewrite ?app_length; cbn [length] in *; lia.
  - destruct (c <=? 31); [reflexivity|]. rewrite IH by lia. reflexivity.
Qed.

Lemma sloop_eq s buf : sloop s buf =
  match s with
  | [] => Ret ([], buf, Err EQuote)
  | c :: s' =>
      if c =? 34 then Ret (s', buf, Ok tt)
      else if c =? 92 then
        '(s2, buf2, r) <- string_control_char s' buf ;;
        match r with
        | Ok _ => sloop s2 buf2
        | Err e => Ret (s2, buf2, Err e)
        end
      else if c <=? 0x1f then Ret (s, buf, Err EQuote)
      else sloop s' (buf ++ [c])
  end.
Proof.
  unfold sloop at 1. cbn [string_loop]. destruct s as [|c s]; [reflexivity|]. cbn [length].
  destruct (c =? 34); [reflexivity|]. destruct (c =? 92).
  - destruct (string_control_char s buf) as [[[s2 b2] r]| |] eqn:E; cbn [bind]; try reflexivity.
    destruct r; [|reflexivity]. destruct (control_char_length _ _ _ _ _ E) as (pre & -> & _).
    apply string_loop_fuel. rewrite app_length. lia.
  - destruct (c <=? 31); [reflexivity|]. reflexivity.
Qed.

Lemma match_string_eq st s : match_string st (34 :: s) =
  ('(s', buf, r) <- sloop s [] ;;
  match r with
  | Ok _ => Ret ({| t_token := KString; t_rest := s'; t_range := []; t_buf := buf |}, Ok tt)
  | Err EQuote =>
      Ret ({| t_token := KError; t_rest := s'; t_range := text_between (34 :: s) s'; t_buf := buf |}, Err EQuote)
  | Err e => Ret ({| t_token := t_token st; t_rest := s'; t_range := []; t_buf := buf |}, Err e)
  end).
Proof. unfold match_string. cbn [tl]. rewrite string_loop_fuel by (cbn; lia). reflexivity. Qed.

Lemma sloop_total n : forall s buf, (length s <= n)%nat -> sloop s buf <> Undef.
Proof.
  induction n as [|n IH]; intros s buf Hn; rewrite sloop_eq; destruct s as [|c s]; try discriminate; [cbn in Hn; lia|].
  cbn [length] in Hn. destruct (c =? 34); [discriminate|]. destruct (c =? 92).
  - destruct (string_control_char s buf) as [[[s2 b2] r]| |] eqn:E; cbn [bind]; try discriminate.
    + destruct r; [|discriminate]. destruct (control_char_length _ _ _ _ _ E) as (pre & -> & _). rewrite app_length in Hn. apply IH. lia.
    + exfalso. exact (control_char_not_undef _ _ E).
  - destruct (c <=? 31); [discriminate|]. apply IH. lia.
Qed.

Lemma sloop_suffix n : forall s buf s' buf' r, (length s <= n)%nat -> sloop s buf = Ret (s', buf', r) -> exists pre, s = pre ++ s'.
Proof.
  induction n as [|n IH]; intros s buf s' buf' r Hn H; rewrite sloop_eq in H; destruct s as [|c s].
  1,3: injection H as <- <- <-; exists []; reflexivity.
  { cbn in Hn; lia. }
  cbn [length] in Hn. destruct (c =? 34); [injection H as <- <- <-; exists [c]; reflexivity|]. destruct (c =? 92).
  - destruct (string_control_char s buf) as [[[s2 b2] r2]| |] eqn:E; cbn [bind] in H; try discriminate.
    destruct (control_char_length _ _ _ _ _ E) as (pre & -> & _). rewrite app_length in Hn. destruct r2.
    + apply IH in H; [|lia]. destruct H as (pre2 & ->). exists (c :: pre ++ pre2). cbn [app]. rewrite app_assoc. reflexivity.
    + injection H as <- <- <-. exists (c :: pre). reflexivity.
  - destruct (c <=? 31); [injection H as <- <- <-; exists []; reflexivity|].
    apply IH in H; [|lia]. destruct H as (pre & ->). exists (c :: pre). reflexivity.
Qed.

(** ** Panics of the string loop *)

Lemma sloop_panic n : forall s buf, (length s <= n)%nat -> sloop s buf = Panic ->
  exists h1 h2 h3 h4 r, string_chars s (92 :: 117 :: h1 :: h2 :: h3 :: h4 :: r) /\
    Forall hex_char [h1; h2; h3; h4] /\ surrogate (hex_code [h1; h2; h3; h4]).
Proof.
  induction n as [|n IH]; intros s buf Hn H; rewrite sloop_eq in H; destruct s as [|c s]; try discriminate; [cbn in Hn; lia|].
  cbn [length] in Hn. destruct (Z.eqb_spec c 34) as [|N34]; [discriminate|]. destruct (Z.eqb_spec c 92) as [->|N92].
  - rewrite control_char_eq in H. destruct s as [|e s]; [discriminate|]. cbn [length] in Hn.
    destruct (simple_escape e) as [e'|] eqn:Ee.
    + cbn [bind] in H. apply IH in H; [|lia]. destruct H as (h1 & h2 & h3 & h4 & r & SC & F & Su).
      exists h1, h2, h3, h4, r. split; [|split; assumption]. apply sc_escape; [|exact SC]. apply simple_escape_in. eauto.
    + destruct (Z.eqb_spec e 117) as [->|]; [|discriminate].
      destruct (hex_loop 4 0 s) as [s2 [code|]] eqn:Eh; [|discriminate].
      apply hex_loop_some in Eh. destruct Eh as (ds & -> & F & L & -> & St). change (hex_fold 0 ds) with (hex_code ds) in H.
      destruct (is_char (hex_code ds)) eqn:Ec.
      * cbn [bind] in H. rewrite app_length in Hn. apply IH in H; [|lia].
        destruct H as (h1 & h2 & h3 & h4 & r & SC & F' & Su).
        exists h1, h2, h3, h4, r. split; [|split; assumption]. apply sc_unicode; [repeat split; assumption| |exact SC].
        intros X. apply (is_char_hex ds F L) in X. congruence.
      * assert (Su : surrogate (hex_code ds)) by (apply (is_char_hex ds F L); exact Ec).
        pose proof (surrogate_four ds F L Su) as L4. destruct ds as [|h1 [|h2 [|h3 [|h4 [|]]]]]; cbn in L4; try lia.
        exists h1, h2, h3, h4, s2. split; [|split; assumption]. constructor.
  - destruct (Z.leb_spec c 31); [discriminate|]. apply IH in H; [|lia].
    destruct H as (h1 & h2 & h3 & h4 & r & SC & F & Su). exists h1, h2, h3, h4, r. split; [|split; assumption].
    apply sc_plain; assumption || lia.
Qed.

Lemma sloop_chars s r : string_chars s r -> forall buf, exists buf', sloop s buf = sloop r buf'.
Proof.
  induction 1 as [r|c s r H1 H2 H3 SC IH|c s r H1 SC IH|ds s r H1 H2 SC IH]; intros buf.
  - exists buf. reflexivity.
  - rewrite sloop_eq. destruct (Z.eqb_spec c 34); [lia|]. destruct (Z.eqb_spec c 92); [lia|]. destruct (Z.leb_spec c 31); [lia|]. apply IH.
  - rewrite sloop_eq, control_char_eq. change (92 =? 34) with false. change (92 =? 92) with true. cbv iota.
    apply simple_escape_in in H1. destruct H1 as (e & ->). cbn [bind]. apply IH.
  - rewrite sloop_eq, control_char_eq. change (92 =? 34) with false. change (92 =? 92) with true. cbv iota.
    change (simple_escape 117) with (@None Z). change (117 =? 117) with true. cbv iota.
    destruct H1 as (F & L & St). rewrite hex_loop_complete by assumption. change (hex_fold 0 ds) with (hex_code ds).
    destruct (is_char (hex_code ds)) eqn:Ec; [cbn [bind]; apply IH|]. exfalso. apply H2, is_char_hex; assumption.
Qed.

Lemma sloop_surrogate s buf h1 h2 h3 h4 r : string_chars s (92 :: 117 :: h1 :: h2 :: h3 :: h4 :: r) ->
  Forall hex_char [h1; h2; h3; h4] -> surrogate (hex_code [h1; h2; h3; h4]) -> sloop s buf = Panic.
Proof.
  intros SC F Su. destruct (sloop_chars _ _ SC buf) as (buf' & ->). rewrite sloop_eq, control_char_eq.
  change (92 =? 34) with false. change (92 =? 92) with true. cbv iota.
  change (simple_escape 117) with (@None Z). change (117 =? 117) with true. cbv iota.
  change (h1 :: h2 :: h3 :: h4 :: r) with ([h1; h2; h3; h4] ++ r).
  rewrite (hex_loop_complete 4 [h1; h2; h3; h4] r 0 F) by (cbn; lia).
  change (hex_fold 0 [h1; h2; h3; h4]) with (hex_code [h1; h2; h3; h4]).
  apply (is_char_hex _ F) in Su; [|cbn; lia]. rewrite Su. reflexivity.
Qed.

(** ** Whitespace *)

Lemma skip_whitespace_split s : exists w, s = w ++ skip_whitespace s /\ Forall (fun c => is_whitespace c = true) w.
Proof.
  induction s as [|c s (w & E & F)]; [exists []; split; [reflexivity|constructor]|]. cbn [skip_whitespace].
  destruct (is_whitespace c) eqn:W; [|exists []; split; [reflexivity|constructor]].
  exists (c :: w). split; [cbn [app]; f_equal; exact E|constructor; assumption].
Qed.

Lemma skip_whitespace_head s c r : skip_whitespace s = c :: r -> is_whitespace c = false.
Proof.
  induction s as [|c' s IH]; [discriminate|]. cbn [skip_whitespace]. destruct (is_whitespace c') eqn:W; [exact IH|].
  intros H. injection H as <- <-. exact W.
Qed.

Lemma skip_whitespace_app w s : Forall (fun c => is_whitespace c = true) w ->
  match s with [] => True | c :: _ => is_whitespace c = false end -> skip_whitespace (w ++ s) = s.
Proof.
  induction 1 as [|c w Hc F IH]; intros Hs; cbn [app skip_whitespace].
  - destruct s as [|c s]; [reflexivity|]. cbn [skip_whitespace]. rewrite Hs. reflexivity.
  - rewrite Hc. apply IH. exact Hs.
Qed.

(** ** Numbers *)

Lemma is_digit_iff c : is_digit c = true <-> 48 <= c <= 57.
Proof. unfold is_digit. lia. Qed.

Lemma digits_split s : exists ds, s = ds ++ digits s /\ all_digits ds /\ match digits s with [] => True | c :: _ => ~ 48 <= c <= 57 end.
Proof.
  induction s as [|c s (ds & E & F & St)]; cbn [digits]; [exists []; repeat split; constructor|].
  destruct (is_digit c) eqn:D.
  - exists (c :: ds). repeat split; [cbn [app]; f_equal; exact E|constructor; [apply is_digit_iff; exact D|exact F]|exact St].
  - exists []. repeat split; [constructor|]. intros X. apply is_digit_iff in X. congruence.
Qed.

Lemma digits_app ds r : all_digits ds -> match r with [] => True | c :: _ => ~ 48 <= c <= 57 end -> digits (ds ++ r) = r.
Proof.
  induction 1 as [|c ds Hc F IH]; intros Hr; cbn [app digits].
  - destruct r as [|c r]; [reflexivity|]. cbn [digits]. destruct (is_digit c) eqn:D; [apply is_digit_iff in D; tauto|reflexivity].
  - apply is_digit_iff in Hc. rewrite Hc. apply IH. exact Hr.
Qed.

Lemma text_between_app a b : text_between (a ++ b) b = a.
Proof.
  unfold text_between. rewrite app_length, Nat.add_sub. rewrite firstn_app, Nat.sub_diag, firstn_all. cbn [firstn].
  apply app_nil_r.
Qed.
