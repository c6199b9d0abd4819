(** * When no symbol can be read *)

From Coq Require Import Strings.String ZifyBool ZifyNat ZifyN.
From Verif Require Import Base BaseFacts StrModel StrFacts Utf8Model TypesModel MarshalModel MarshalSpec JsonModel JsonSpec JsonData JsonBits JsonLex JsonNum JsonTok JsonRead JsonMore WhiteSpec WhiteProofs JsonDocSpec JsonDocProofs JsonBlame.
Local Open Scope list_scope.
Local Open Scope Z_scope.

(** ** Strings *)

Lemma contents_skip s r x : contents s r x -> forall buf, sloop s buf = sloop r (buf ++ x).
Proof.
  induction 1 as [r|c s r x H1 H2 H3 C IH|c e s r x H1 C IH|ds s r x H1 H2 C IH]; intros buf.
  - rewrite app_nil_r. reflexivity.
  - rewrite sloop_eq. replace (c =? 34) with false by lia. replace (c =? 92) with false by lia. replace (c <=? 31) with false by lia.
    rewrite IH, <- app_assoc. reflexivity.
  - rewrite sloop_eq, control_char_eq. apply escape_table in H1. rewrite H1. change (92 =? 34) with false. change (92 =? 92) with true. cbn [bind]. rewrite IH, <- app_assoc. reflexivity.
  - rewrite sloop_eq. destruct H1 as (F & L & St). rewrite control_char_eq. change (92 =? 34) with false. change (92 =? 92) with true. change (simple_escape 117) with (@None Z). change (117 =? 117) with true. cbv iota.
    rewrite (hex_loop_complete 4 ds s 0 F L St). change (hex_fold 0 ds) with (hex_code ds).
    destruct (is_char (hex_code ds)) eqn:Ec; [|apply (is_char_hex ds F L) in Ec; contradiction]. cbn [bind]. rewrite IH, <- app_assoc. reflexivity.
Qed.

Inductive bad_string (s : str) : jerr -> Prop :=
| bs_quote r x : contents s r x -> (forall c r', r = c :: r' -> c <= 0x1f) -> bad_string s EQuote
| bs_escape r x : contents s (92 :: r) x -> (forall c r', r = c :: r' -> ~ In c [47; 92; 34; 98; 102; 110; 114; 116; 117]) -> bad_string s EEscape
| bs_unicode ds x : contents s (92 :: 117 :: ds) x -> Forall hex_char ds -> (List.length ds < 4)%nat -> bad_string s EUnicode.

Lemma bad_plain c s e : 0x1f < c -> c <> 34 -> c <> 92 -> bad_string s e -> bad_string (c :: s) e.
Proof. intros H1 H2 H3 [r x C H|r x C H|ds x C H L]; [eapply bs_quote|eapply bs_escape|eapply bs_unicode]; try apply ct_plain; eauto. Qed.

Lemma bad_simple c y s e : simple_escape c = Some y -> bad_string s e -> bad_string (92 :: c :: s) e.
Proof. intros H1%escape_table [r x C H|r x C H|ds x C H L]; [eapply bs_quote|eapply bs_escape|eapply bs_unicode]; try (eapply ct_escape; [exact H1|]); eauto. Qed.

Lemma bad_hex ds s e : hex_escape ds s -> ~ surrogate (hex_code ds) -> bad_string s e -> bad_string (92 :: 117 :: ds ++ s) e.
Proof. intros H1 H2 [r x C H|r x C H|ds' x C H L]; [eapply bs_quote|eapply bs_escape|eapply bs_unicode]; try (eapply ct_unicode; [exact H1|exact H2|]); eauto. Qed.

Lemma simple_none c : simple_escape c = None -> c <> 117 -> ~ In c [47; 92; 34; 98; 102; 110; 114; 116; 117].
Proof.
  intros H N I. assert (I' : In c [47; 92; 34; 98; 102; 110; 114; 116]) by (cbn [In] in *; intuition congruence).
  apply simple_escape_in in I'. destruct I' as (e & E). congruence.
Qed.

Lemma sloop_bad n : forall s buf r buf' e, (List.length s <= n)%nat -> sloop s buf = Ret (r, buf', Err e) -> bad_string s e.
Proof.
  induction n as [|n IH]; intros s buf r buf' e L H; rewrite sloop_eq in H;
    (destruct s as [|c s]; [injection H as <- <- <-; eapply bs_quote; [constructor|discriminate]|]); cbn [List.length] in L; [lia|].
  destruct (Z.eqb_spec c 34) as [->|N34]; [discriminate|].
  destruct (Z.eqb_spec c 92) as [->|N92].
  - rewrite control_char_eq in H. destruct s as [|x s].
    { injection H as <- <- <-. eapply bs_escape; [constructor|discriminate]. }
    cbn [List.length] in L. destruct (simple_escape x) as [y|] eqn:Ee.
    + cbn [bind] in H. apply IH in H; [|lia]. eapply bad_simple; eassumption.
    + destruct (Z.eqb_spec x 117) as [->|N].
      * destruct (hex_loop 4 0 s) as [s2 [code|]] eqn:Eh.
        -- destruct (is_char code) eqn:Ec; [|discriminate]. cbn [bind] in H.
           apply hex_loop_some in Eh. destruct Eh as (ds & -> & F & Ld & -> & St). rewrite app_length in L.
           apply IH in H; [|lia]. apply bad_hex; [repeat split; assumption| |exact H].
           intros Su. apply (is_char_hex ds F Ld) in Su. change (hex_fold 0 ds) with (hex_code ds) in Ec. congruence.
        -- injection H as <- <- <-. apply hex_loop_none in Eh. destruct Eh as (-> & F & Ld). eapply bs_unicode; [constructor|exact F|exact Ld].
      * injection H as <- <- <-. eapply bs_escape; [constructor|]. intros c r' E. injection E as <- <-. apply simple_none; assumption.
  - destruct (Z.leb_spec c 31).
    + injection H as <- <- <-. eapply bs_quote; [constructor|]. intros c0 r' E. injection E as <- <-. assumption.
    + apply IH in H; [|lia]. apply bad_plain; auto.
Qed.

Lemma hex_loop_short n : forall ds code, Forall hex_char ds -> (List.length ds < n)%nat -> hex_loop n code ds = ([], None).
Proof.
  induction n as [|n IH]; intros ds code F L; [lia|]. destruct F as [|c ds Hc F]; [reflexivity|]. cbn [hex_loop].
  assert (E : hex_digit c = Some (hex_value c)) by (apply hex_digit_some; auto). rewrite E. apply IH; [exact F|cbn in L; lia].
Qed.

Lemma bad_sloop s e buf : bad_string s e -> exists r buf', sloop s buf = Ret (r, buf', Err e).
Proof.
  intros [r x C H|r x C H|ds x C H L]; rewrite (contents_skip _ _ _ C), sloop_eq.
  - destruct r as [|c r]; [eauto|]. specialize (H c r eq_refl). replace (c =? 34) with false by lia. replace (c =? 92) with false by lia. replace (c <=? 31) with true by lia. eauto.
  - change (92 =? 34) with false. change (92 =? 92) with true. cbv iota. rewrite control_char_eq. destruct r as [|c r]; [cbn [bind]; eauto|].
    specialize (H c r eq_refl). destruct (simple_escape c) as [y|] eqn:E.
    { exfalso. apply H. assert (I : In c [47; 92; 34; 98; 102; 110; 114; 116]) by (apply simple_escape_in; eauto). cbn [In] in *. tauto. }
    replace (c =? 117) with false by (cbn [In] in H; lia). cbn [bind]. eauto.
  - change (92 =? 34) with false. change (92 =? 92) with true. cbv iota. rewrite control_char_eq. change (simple_escape 117) with (@None Z). change (117 =? 117) with true. cbv iota.
    rewrite hex_loop_short by assumption. cbn [bind]. eauto.
Qed.

Section Lexical.
Context (alnum : Z -> bool).
Notation next := (JsonModel.next alnum).
Notation unreadable := (JsonBlame.unreadable alnum).

Lemma unreadable_white w s e : Forall (fun c => is_whitespace c = true) w -> unreadable s e -> unreadable (w ++ s) e.
Proof. induction 1 as [|c w Hc F IH]; intros H; [exact H|]. cbn [app]. apply un_white; [apply white_iff; exact Hc|auto]. Qed.

Lemma keyword_bad st c w k s st' e : In (c :: w) [lit "null"; lit "true"; lit "false"] ->
  match_keyword alnum st (c :: w) k (c :: s) = Ret (st', Err e) -> unreadable (c :: s) e.
Proof.
  intros Hin. unfold match_keyword. cbn [keyword_loop]. rewrite Z.eqb_refl. destruct (keyword_loop w s) as [s' b] eqn:E. intros H.
  assert (e = EToken) as ->.
  { destruct b; [|congruence]. destruct s' as [|c' s']; [discriminate|]. destruct (is_alphanumeric alnum c'); congruence. }
  apply (un_word alnum c w s Hin). intros r ->. rewrite keyword_loop_app in E. injection E as <- <-.
  destruct r as [|c' r]; [discriminate|]. destruct (is_alphanumeric alnum c') eqn:A; [|discriminate]. exists c', r. split; [reflexivity|].
  apply word_character_iff. exact A.
Qed.

Lemma number_bad st s st' e : match_number st s = Ret (st', Err e) -> (exists c s', s = c :: s' /\ (c = 45 \/ 48 <= c <= 57)) -> unreadable s e.
Proof.
  unfold match_number. destruct (number_body s) as [s' [[]|e']] eqn:E; [discriminate|]. intros H (c & s1 & -> & Hc). injection H as <- <-.
  apply number_err in E. destruct E as [[-> H]|[-> H]]; [|apply un_exponent; exact H].
  assert (D : forall d r, 48 <= d <= 57 -> c :: s1 <> d :: r).
  { intros d r Hd X. injection X as -> ->. apply (H [d] r eq_refl). exists [], [d], [], []. split; [reflexivity|]. split; [left; reflexivity|]. split; [|split; left; reflexivity].
    destruct (Z.eq_dec d 48) as [->|]; [left; reflexivity|right]. exists d, []. repeat split; [lia|lia|constructor]. }
  destruct Hc as [->|Hc]; [|exfalso; apply (D c s1 Hc eq_refl)]. apply un_number. intros d r -> Hd.
  apply (H [45; d] r eq_refl). exists [45], [d], [], []. split; [reflexivity|]. split; [right; reflexivity|]. split; [|split; left; reflexivity].
  destruct (Z.eq_dec d 48) as [->|]; [left; reflexivity|right]. exists d, []. repeat split; [lia|lia|constructor].
Qed.

Lemma next_bad st st' e : next st = Ret (st', Err e) -> unreadable (t_rest st) e.
Proof.
  unfold JsonModel.next. destruct (skip_whitespace_split (t_rest st)) as (w & Ew & Fw). intros H. rewrite Ew. apply (unreadable_white w _ _ Fw). clear Ew Fw.
  pose proof (skip_whitespace_head (t_rest st)) as HH. destruct (skip_whitespace (t_rest st)) as [|c s]; [discriminate|]. specialize (HH c s eq_refl).
  repeat (match type of H with (if c =? ?n then _ else _) = _ => destruct (Z.eqb_spec c n) as [->|] end); try discriminate H.
  - apply (keyword_bad _ 110 (lit "ull") _ _ _ _ ltac:(cbn [In]; tauto) H).
  - apply (keyword_bad _ 116 (lit "rue") _ _ _ _ ltac:(cbn [In]; tauto) H).
  - apply (keyword_bad _ 102 (lit "alse") _ _ _ _ ltac:(cbn [In]; tauto) H).
  - rewrite match_string_eq in H. destruct (sloop s []) as [[[s' buf] [[]|e']]| |] eqn:E; try discriminate. cbn [bind] in H.
    assert (e' = e) as -> by (destruct e'; congruence). apply (sloop_bad _ _ _ _ _ _ (le_n _)) in E.
    destruct E as [r x C F|r x C F|ds x C F L]; [eapply un_quote|eapply un_escape|eapply un_unicode]; eassumption.
  - apply (number_bad _ _ _ _ H). eauto.
  - destruct (is_digit c) eqn:D.
    + apply (number_bad _ _ _ _ H). apply is_digit_iff in D. eauto.
    + injection H as <- <-. apply un_character.
      * intros X. apply white_iff in X. congruence.
      * vm_compute. intuition congruence.
      * assumption.
      * intros X. apply is_digit_iff in X. congruence.
Qed.

Lemma incomplete_start s : incomplete_exponent s -> exists c s', s = c :: s' /\ (c = 45 \/ 48 <= c <= 57).
Proof.
  intros (sg & i & f & r & -> & Hs & Hi & _).
  assert (G : exists c s', i = c :: s' /\ 48 <= c <= 57).
  { destruct Hi as [->|(c & ds & -> & Hc & _)]; [exists 48, []|exists c, ds]; split; auto; lia. }
  destruct G as (c & s' & -> & Hc). destruct Hs as [->| ->]; cbn [app]; eexists; eexists; split; try reflexivity; auto.
Qed.

Lemma keyword_unread st c w k s : (forall r, s = w ++ r -> exists c' r', r = c' :: r' /\ word_character alnum c') ->
  exists st', match_keyword alnum st (c :: w) k (c :: s) = Ret (st', Err EToken).
Proof.
  intros H. unfold match_keyword. cbn [keyword_loop]. rewrite Z.eqb_refl. destruct (keyword_loop w s) as [s' [|]] eqn:E; [|eauto].
  apply keyword_loop_true in E. destruct (H _ E) as (c' & r' & -> & W). apply word_character_iff in W. rewrite W. eauto.
Qed.

Lemma unreadable_next s e : unreadable s e -> forall st, t_rest st = s -> exists st', next st = Ret (st', Err e).
Proof.
  assert (Str : forall s e st, bad_string s e -> t_rest st = 34 :: s -> exists st', next st = Ret (st', Err e)).
  { intros s0 e0 st B E. destruct (bad_sloop _ _ [] B) as (r & buf' & L). unfold JsonModel.next. rewrite E. change (skip_whitespace (34 :: s0)) with (34 :: s0). cbv beta iota.
    change (34 =? 91) with false. change (34 =? 93) with false. change (34 =? 123) with false. change (34 =? 125) with false. change (34 =? 44) with false. change (34 =? 58) with false.
    change (34 =? 110) with false. change (34 =? 116) with false. change (34 =? 102) with false. change (34 =? 34) with true. cbv beta iota.
    rewrite match_string_eq, L. cbn [bind]. destruct e0; eauto. }
  induction 1 as [c s e Hc H IH|c s N1 N2 N3 N4|c w s Hw H|s r x C H|s r x C H|s ds x C F L|s H|s H]; intros st E.
  - destruct (IH {| t_token := t_token st; t_rest := s; t_range := t_range st; t_buf := t_buf st |} eq_refl) as (st' & H1).
    exists st'. rewrite <- H1. unfold JsonModel.next. rewrite E. cbn [t_rest]. apply white_iff in Hc. rewrite (white_stands c s Hc). reflexivity.
  - unfold JsonModel.next. rewrite E. assert (W : is_whitespace c = false) by (destruct (is_whitespace c) eqn:W; [apply white_iff in W; contradiction|reflexivity]).
    cbn [skip_whitespace]. rewrite W. vm_compute in N2.
    repeat (match goal with |- context [if c =? ?n then _ else _] => destruct (Z.eqb_spec c n) as [->|]; [exfalso; tauto|] end).
    destruct (is_digit c) eqn:D; [apply is_digit_iff in D; contradiction|]. eauto.
  - unfold JsonModel.next. rewrite E. cbn [In] in Hw. destruct Hw as [Hw|[Hw|[Hw|[]]]].
    + injection Hw as <- <-. change (skip_whitespace (110 :: s)) with (110 :: s). destruct (keyword_unread st 110 (lit "ull") KNull s H) as (st' & K). exists st'. exact K.
    + injection Hw as <- <-. change (skip_whitespace (116 :: s)) with (116 :: s). destruct (keyword_unread st 116 (lit "rue") KTrue s H) as (st' & K). exists st'. exact K.
    + injection Hw as <- <-. change (skip_whitespace (102 :: s)) with (102 :: s). destruct (keyword_unread st 102 (lit "alse") KFalse s H) as (st' & K). exists st'. exact K.
  - eapply Str; [eapply bs_quote; eassumption|exact E].
  - eapply Str; [eapply bs_escape; eassumption|exact E].
  - eapply Str; [eapply bs_unicode; eassumption|exact E].
  - rewrite (next_at_number alnum st [] (45 :: s)); [|exact E|constructor|left; reflexivity]. unfold match_number, number_body. change (45 =? 45) with true. cbv beta iota zeta.
    destruct s as [|c s]; [eauto|]. specialize (H c s eq_refl). replace (c =? 48) with false by lia. destruct (is_digit c) eqn:D; [apply is_digit_iff in D; contradiction|]. eauto.
  - destruct (incomplete_start _ H) as (c & s' & -> & Hc). rewrite (next_at_number alnum st [] (c :: s')); [|exact E|constructor|exact Hc].
    unfold match_number. apply incomplete_is_error in H. destruct (number_body (c :: s')) as [r [[]|e]]; [discriminate|]. cbn [snd] in H. injection H as ->. eauto.
Qed.

Lemma unreadable_iff st e : (exists st', next st = Ret (st', Err e)) <-> unreadable (t_rest st) e.
Proof. split; [intros (st' & H); exact (next_bad _ _ _ H)|intros H; exact (unreadable_next _ _ H st eq_refl)]. Qed.

End Lexical.
