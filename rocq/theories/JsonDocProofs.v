(** * The JSON documents of a type are what the decoder accepts *)

From Coq Require Import Strings.String Sorting.Permutation ZifyBool ZifyNat ZifyN.
From Verif Require Import Base BaseFacts StrModel StrFacts Utf8Model Utf8Facts TypesModel TypesSpec MarshalModel MarshalSpec LayoutProofs PresentsFacts JsonModel JsonSpec JsonData JsonBits JsonLex JsonNum JsonTok JsonRead JsonEmit JsonSound JsonTop JsonMore WhiteSpec WhiteProofs JsonDocSpec.
Local Open Scope list_scope.
Local Open Scope Z_scope.

(** ** Strings *)

Lemma escape_table c e : simple_escape c = Some e <->
  In (c, e) [(47, 47); (92, 92); (34, 34); (98, 8); (102, 12); (110, 10); (114, 13); (116, 9)].
Proof.
  unfold simple_escape. split.
  - repeat (match goal with |- context [if c =? ?n then _ else _] => destruct (Z.eqb_spec c n) as [->|] end;
      [intros H; injection H as <-; cbn [In]; tauto|]). discriminate.
  - cbn [In]. intros H. repeat (destruct H as [H|H]; [injection H as <- <-; reflexivity|]). destruct H.
Qed.

Lemma sloop_contents n : forall s buf r buf', (List.length s <= n)%nat -> sloop s buf = Ret (r, buf', Ok tt) ->
  exists x, buf' = buf ++ x /\ contents s (34 :: r) x.
Proof.
  induction n as [|n IH]; intros s buf r buf' L H; rewrite sloop_eq in H; (destruct s as [|c s]; [discriminate|]); cbn [List.length] in L; [lia|].
  destruct (Z.eqb_spec c 34) as [->|N34]; [injection H as <- <-; exists []; split; [rewrite app_nil_r; reflexivity|constructor]|].
  destruct (Z.eqb_spec c 92) as [->|N92].
  - rewrite control_char_eq in H. destruct s as [|e s]; [discriminate|]. cbn [List.length] in L. destruct (simple_escape e) as [y|] eqn:Ee.
    + cbn [bind] in H. apply IH in H; [|lia]. destruct H as (x & -> & Hx). exists (y :: x). split; [rewrite <- app_assoc; reflexivity|].
      apply ct_escape; [apply escape_table; exact Ee|exact Hx].
    + destruct (Z.eqb_spec e 117) as [->|]; [|discriminate].
      destruct (hex_loop 4 0 s) as [s2 [code|]] eqn:Eh; [|discriminate].
      destruct (is_char code) eqn:Ec; [|discriminate]. cbn [bind] in H.
      apply hex_loop_some in Eh. destruct Eh as (ds & -> & F & Ld & -> & St). rewrite app_length in L.
      apply IH in H; [|lia]. destruct H as (x & -> & Hx). exists (hex_code ds :: x). split; [rewrite <- app_assoc; reflexivity|].
      apply ct_unicode; [repeat split; assumption| |exact Hx]. intros Su. apply (is_char_hex ds F Ld) in Su.
      change (hex_fold 0 ds) with (hex_code ds) in Ec. congruence.
  - destruct (Z.leb_spec c 31); [discriminate|]. apply IH in H; [|lia]. destruct H as (x & -> & Hx). exists (c :: x).
    split; [rewrite <- app_assoc; reflexivity|]. apply ct_plain; auto.
Qed.

Lemma contents_sloop s r0 x : contents s r0 x -> forall r, r0 = 34 :: r -> forall buf, sloop s buf = Ret (r, buf ++ x, Ok tt).
Proof.
  induction 1 as [r0|c s r0 x H1 H2 H3 C IH|c e s r0 x H1 C IH|ds s r0 x H1 H2 C IH]; intros r Hr buf; rewrite sloop_eq.
  - subst r0. rewrite app_nil_r. reflexivity.
  - replace (c =? 34) with false by lia. replace (c =? 92) with false by lia. replace (c <=? 31) with false by lia.
    rewrite (IH r Hr). rewrite <- app_assoc. reflexivity.
  - rewrite control_char_eq. apply escape_table in H1. rewrite H1. change (92 =? 34) with false. change (92 =? 92) with true. cbn [bind]. rewrite (IH r Hr), <- app_assoc. reflexivity.
  - destruct H1 as (F & L & St). rewrite control_char_eq. change (92 =? 34) with false. change (92 =? 92) with true. change (simple_escape 117) with (@None Z). change (117 =? 117) with true. cbv iota.
    rewrite (hex_loop_complete 4 ds s 0 F L St). change (hex_fold 0 ds) with (hex_code ds).
    destruct (is_char (hex_code ds)) eqn:Ec; [|apply (is_char_hex ds F L) in Ec; contradiction]. cbn [bind]. rewrite (IH r Hr), <- app_assoc. reflexivity.
Qed.

(** ** Symbols *)

Section Docs.
Context (alnum : Z -> bool) (fl : floats) (pf : profile).

Notation next := (JsonModel.next alnum).
Notation reads := (JsonDocSpec.reads alnum).
Notation step := (JsonModel.step alnum).
Notation must_be := (JsonModel.must_be alnum).
Notation parse := (JsonModel.parse alnum fl pf).
Notation document := (JsonDocSpec.document alnum fl).
Notation elements := (JsonDocSpec.elements alnum fl).
Notation members := (JsonDocSpec.members alnum fl).

Definition sym_of (st : tstate) : symbol :=
  match t_token st with
  | KEof => SEnd
  | KBeginArray => SPunct 91
  | KEndArray => SPunct 93
  | KBeginObject => SPunct 123
  | KEndObject => SPunct 125
  | KComma => SPunct 44
  | KColon => SPunct 58
  | KNull => SWord (lit "null")
  | KTrue => SWord (lit "true")
  | KFalse => SWord (lit "false")
  | KString => SText (t_buf st)
  | KNumber => SNumber (t_range st)
  | KError => SWord []
  end.

(** The state after reading the first symbol of [s]. *)
Definition stands (s : str) (st : tstate) : Prop := reads s (sym_of st) (t_rest st).

Lemma word_character_iff c : is_alphanumeric alnum c = true <-> word_character alnum c.
Proof. unfold is_alphanumeric, word_character. destruct (Z.ltb_spec c 128); destruct (alnum c); lia. Qed.

Lemma reads_white w s x r : Forall (fun c => is_whitespace c = true) w -> reads s x r -> reads (w ++ s) x r.
Proof. induction 1 as [|c w Hc F IH]; intros H; [exact H|]. cbn [app]. apply rd_white; [apply white_iff; exact Hc|auto]. Qed.

Lemma keyword_reads st target k s st' : In target [lit "null"; lit "true"; lit "false"] -> match_keyword alnum st target k s = Ret (st', Ok tt) ->
  t_token st' = k /\ reads s (SWord target) (t_rest st').
Proof.
  intros Hin. unfold match_keyword. destruct (keyword_loop target s) as [s' [|]] eqn:E; [|discriminate]. apply keyword_loop_true in E. subst s.
  intros H. assert (N : (forall c r', s' = c :: r' -> ~ word_character alnum c) /\ t_token st' = k /\ t_rest st' = s').
  { destruct s' as [|c s']; [injection H as <-; repeat split; intros; discriminate|].
    destruct (is_alphanumeric alnum c) eqn:A; [discriminate|]. injection H as <-. repeat split. intros c0 r' E. injection E as <- <-.
    intros W. apply word_character_iff in W. congruence. }
  destruct N as (N & K & R). split; [exact K|]. rewrite R. apply rd_word; assumption.
Qed.

Lemma number_reads st s st' : match_number st s = Ret (st', Ok tt) -> t_token st' = KNumber /\ reads s (SNumber (t_range st')) (t_rest st').
Proof.
  unfold match_number. destruct (number_body s) as [s' [[]|]] eqn:E; [|discriminate]. intros H. injection H as <-. cbn [t_token t_range t_rest].
  split; [reflexivity|]. apply number_ok in E. destruct E as (p & -> & Lp & Ni). rewrite text_between_app. apply rd_number; assumption.
Qed.

Lemma next_reads st st' : next st = Ret (st', Ok tt) -> stands (t_rest st) st'.
Proof.
  unfold stands, JsonModel.next. destruct (skip_whitespace_split (t_rest st)) as (w & Ew & Fw).
  destruct (skip_whitespace (t_rest st)) as [|c s]; intros H; rewrite Ew; apply (reads_white w _ _ _ Fw).
  { injection H as <-. constructor. }
  repeat (match type of H with (if c =? ?n then _ else _) = _ => destruct (Z.eqb_spec c n) as [->|] end);
    try (injection H as <-; apply rd_punct; vm_compute; tauto);
    try (apply keyword_reads in H; [|cbn [In]; tauto]; destruct H as [K H]; unfold sym_of; rewrite K; exact H);
    try (apply number_reads in H; destruct H as [K H]; unfold sym_of; rewrite K; exact H).
  - rewrite match_string_eq in H. destruct (sloop s []) as [[[s' buf] [[]|e]]| |] eqn:E; try discriminate.
    + cbn [bind] in H. injection H as <-. cbn. apply (sloop_contents _ _ _ _ _ (le_n _)) in E. destruct E as (x & -> & Hx). apply rd_text. exact Hx.
    + destruct e; discriminate.
  - destruct (is_digit c); [|discriminate]. apply number_reads in H. destruct H as [K H]. unfold sym_of. rewrite K. exact H.
Qed.

Lemma white_stands c s : is_whitespace c = true -> skip_whitespace (c :: s) = skip_whitespace s.
Proof. intros H. cbn [skip_whitespace]. rewrite H. reflexivity. Qed.

Lemma number_start s p : longest_number s p -> exists c s', s = c :: s' /\ (c = 45 \/ 48 <= c <= 57).
Proof.
  intros H. destruct H as ((sg & i & f & e & -> & Hs & Hi & _) & (r & ->) & _).
  assert (G : exists c s', i = c :: s' /\ 48 <= c <= 57).
  { destruct Hi as [->|(c & ds & -> & Hc & _)]; [exists 48, []|exists c, ds]; split; auto; lia. }
  destruct G as (c & s' & -> & Hc). destruct Hs as [->| ->]; cbn [app]; eexists; eexists; split; try reflexivity; auto.
Qed.

Lemma reads_next s x r : reads s x r -> forall st, t_rest st = s -> exists st', next st = Ret (st', Ok tt) /\ sym_of st' = x /\ t_rest st' = r.
Proof.
  induction 1 as [c s x r Hc H IH| |c r Hc|w r Hw Hr|s r x C|p r L N]; intros st E.
  - destruct (IH {| t_token := t_token st; t_rest := s; t_range := t_range st; t_buf := t_buf st |} eq_refl) as (st' & H1 & H2 & H3).
    exists st'. split; [|auto]. rewrite <- H1. unfold JsonModel.next. rewrite E. cbn [t_rest]. apply white_iff in Hc. rewrite (white_stands c s Hc). reflexivity.
  - unfold JsonModel.next. rewrite E. cbn. eexists. split; [reflexivity|]. auto.
  - unfold JsonModel.next. rewrite E. vm_compute in Hc.
    repeat (destruct Hc as [<-|Hc]; [cbn; eexists; (split; [reflexivity|]); auto|]). destruct Hc.
  - assert (K : forall st target k, (forall c r', r = c :: r' -> ~ word_character alnum c) -> match_keyword alnum st target k (target ++ r) =
       Ret ({| t_token := k; t_rest := r; t_range := t_range st; t_buf := t_buf st |}, Ok tt)).
    { clear. intros st target k H. unfold match_keyword. rewrite keyword_loop_app. destruct r as [|c r]; [reflexivity|].
      destruct (is_alphanumeric alnum c) eqn:A; [|reflexivity]. apply word_character_iff in A. exfalso. exact (H c r eq_refl A). }
    unfold JsonModel.next. rewrite E. cbn [In] in Hw.
    destruct Hw as [<-|[<-|[<-|[]]]].
    + change (skip_whitespace (lit "null" ++ r)) with (110 :: lit "ull" ++ r). cbv beta iota. cbn -[match_keyword lit].
      change (110 :: lit "ull" ++ r) with (lit "null" ++ r). rewrite (K st (lit "null") KNull Hr). eexists. split; [reflexivity|]. auto.
    + change (skip_whitespace (lit "true" ++ r)) with (116 :: lit "rue" ++ r). cbv beta iota. cbn -[match_keyword lit].
      change (116 :: lit "rue" ++ r) with (lit "true" ++ r). rewrite (K st (lit "true") KTrue Hr). eexists. split; [reflexivity|]. auto.
    + change (skip_whitespace (lit "false" ++ r)) with (102 :: lit "alse" ++ r). cbv beta iota. cbn -[match_keyword lit].
      change (102 :: lit "alse" ++ r) with (lit "false" ++ r). rewrite (K st (lit "false") KFalse Hr). eexists. split; [reflexivity|]. auto.
  - unfold JsonModel.next. rewrite E. change (skip_whitespace (34 :: s)) with (34 :: s). cbv beta iota.
    change (34 =? 91) with false. change (34 =? 93) with false. change (34 =? 123) with false. change (34 =? 125) with false. change (34 =? 44) with false. change (34 =? 58) with false.
    change (34 =? 110) with false. change (34 =? 116) with false. change (34 =? 102) with false. change (34 =? 34) with true. cbv beta iota.
    rewrite match_string_eq, (contents_sloop s _ x C r eq_refl []). cbn [bind app]. eexists. split; [reflexivity|]. auto.
  - destruct (number_start _ _ L) as (c & s' & Es & Hc).
    rewrite (next_at_number alnum st [] (p ++ r)); [|exact E|constructor|rewrite Es; exact Hc].
    unfold match_number. assert (B : number_body (p ++ r) = (r, Ok tt)) by (apply number_iff; exists p; auto). rewrite B, text_between_app.
    eexists. split; [reflexivity|]. auto.
Qed.

Lemma reads_det s x r x' r' : reads s x r -> reads s x' r' -> x = x' /\ r = r'.
Proof.
  intros H H'. destruct (reads_next _ _ _ H (tok_init s) eq_refl) as (st & E & <- & <-).
  destruct (reads_next _ _ _ H' (tok_init s) eq_refl) as (st' & E' & <- & <-). rewrite E in E'. injection E' as <-. auto.
Qed.

(** ** A text begins with at most one document *)

Lemma numeral_det p x z z' : integer_prim p -> numeral (signed_prim p) x z -> in_range p z -> numeral (signed_prim p) x z' -> in_range p z' -> z = z'.
Proof.
  intros Hp H1 H2 H3 H4. assert (E : parse_number fl p x = Some z) by (apply parse_number_iff; auto).
  assert (E' : parse_number fl p x = Some z') by (apply parse_number_iff; auto). congruence.
Qed.

Ltac same H H' := let E1 := fresh "E" in let E2 := fresh "E" in destruct (reads_det _ _ _ _ _ H H') as [E1 E2]; try discriminate E1; try (injection E1 as E1); subst.

Lemma either_det s x r x' r' : reads s (SNumber x) r \/ reads s (SText x) r -> reads s (SNumber x') r' \/ reads s (SText x') r' -> x = x' /\ r = r'.
Proof. intros [H|H] [H'|H']; same H H'; auto. Qed.

Lemma separated_det b s s0 s0' : separated alnum b s s0 -> separated alnum b s s0' -> s0 = s0'.
Proof. destruct b; cbn; [congruence|]. intros H H'. same H H'. reflexivity. Qed.

Lemma combine_values {A B} (l : list (str * A)) : NoDup (map fst l) -> forall vs vs' : list B, List.length vs = List.length l -> List.length vs' = List.length l ->
  Permutation (combine l vs) (combine l vs') -> vs = vs'.
Proof.
  intros ND vs vs' L L' P.
  assert (G : forall i a v, nth_error l i = Some a -> nth_error vs i = Some v -> nth_error vs' i = Some v).
  { intros i a v Ha Hv.
    assert (In (a, v) (combine l vs)).
    { apply (nth_error_In _ i). clear -Ha Hv. revert l vs Ha Hv. induction i as [|i IH]; intros [|x l] [|y vs] Ha Hv; try discriminate; cbn in *; [congruence|auto]. }
    apply (Permutation_in _ P) in H. apply In_nth_error in H. destruct H as (j & Hj).
    assert (J : nth_error l j = Some a /\ nth_error vs' j = Some v).
    { clear -Hj. revert l vs' Hj. induction j as [|j IH]; intros [|x l] [|y vs] Hj; try discriminate; cbn in *; [injection Hj as <- <-; auto|auto]. }
    destruct J as [Ja Jv]. assert (i = j); [|congruence].
    rewrite NoDup_nth_error in ND. apply ND; [rewrite map_length; apply nth_error_Some; congruence|].
    rewrite !nth_error_map, Ha, Ja. reflexivity. }
  clear P ND. revert vs vs' L L' G. induction l as [|a l IH]; intros [|v vs] [|v' vs'] L L' G; try discriminate; [reflexivity|].
  pose proof (G 0%nat a v eq_refl eq_refl) as G0. injection G0 as ->. f_equal. apply IH; [cbn in L; lia|cbn in L'; lia|].
  intros i b u H1 H2. exact (G (S i) b u H1 H2).
Qed.

Lemma combine_fst_eq {A B} (l : list A) : forall vs : list B, List.length vs = List.length l -> map fst (combine l vs) = l.
Proof. induction l as [|a l IH]; intros [|v vs] L; try discriminate; [reflexivity|]. cbn in *. rewrite IH by lia. reflexivity. Qed.

Lemma nodup_assoc {A} (l : list (str * A)) k a a' : NoDup (map fst l) -> In (k, a) l -> In (k, a') l -> a = a'.
Proof.
  induction l as [|[x b] l IH]; intros ND H H'; [destruct H|]. cbn [map fst] in ND. inversion ND as [|? ? N1 N2]; subst.
  destruct H as [H|H], H' as [H'|H']; try congruence; auto.
  - injection H as -> ->. exfalso. apply N1. apply (in_map fst) in H'. exact H'.
  - injection H' as -> ->. exfalso. apply N1. apply (in_map fst) in H. exact H.
Qed.

Ltac prim_clash := exfalso; match goal with
  | H : integer_prim _ |- _ => unfold integer_prim in H; cbn [In] in H; (tauto || (match goal with H' : _ = PF32 \/ _ = PF64 |- _ => destruct H'; subst; (discriminate || tauto) end))
  | H : _ = PF32 \/ _ = PF64 |- _ => destruct H; discriminate
  end.

Ltac same_any := match goal with H : JsonDocSpec.reads alnum ?s _ _, H' : JsonDocSpec.reads alnum ?s _ _ |- _ => same H H'; auto end.

Lemma document_det t s v r : document t s v r -> forall v' r', document t s v' r' -> v = v' /\ r = r'.
Proof.
  revert t s v r.
  apply (document_mind alnum fl (fun t s v r => forall v' r', document t s v' r' -> v = v' /\ r = r')
    (fun b ts s vs r => forall vs' r', elements b ts s vs' r' -> vs = vs' /\ r = r')
    (fun b ms s r => forall ms' r', members b ms' s r' -> List.length ms = List.length ms' ->
       (forall l t v t' v', In (l, t, v) ms -> In (l, t', v') ms' -> t = t') -> ms = ms' /\ r = r')).
  - intros s r H v' r' H'. inversion H'; subst. same H H0. auto.
  - intros s r H v' r' H'. inversion H'; subst; try prim_clash; same_any.
  - intros s r H v' r' H'. inversion H'; subst; try prim_clash; same_any.
  - intros s c r H v' r' H'. inversion H'; subst; try prim_clash; same_any.
  - intros p s x z r Hp H Hn Hr v' r' H'. inversion H'; subst; try prim_clash.
    match goal with H1 : reads _ _ _ \/ reads _ _ _, H2 : reads _ _ _ \/ reads _ _ _ |- _ => destruct (either_det _ _ _ _ _ H1 H2) as [<- <-] end.
    split; [f_equal; eapply numeral_det; eassumption|reflexivity].
  - intros p s x z r Hp H Hf v' r' H'. inversion H'; subst; try prim_clash.
    match goal with H1 : reads _ _ _ \/ reads _ _ _, H2 : reads _ _ _ \/ reads _ _ _ |- _ => destruct (either_det _ _ _ _ _ H1 H2) as [<- <-] end.
    split; congruence.
  - intros s x r H v' r' H'. inversion H'; subst. same H H0. auto.
  - intros ts vs s s1 s2 r R1 _ IH R2 v' r' H'. inversion H'; subst. same R1 H0. destruct (IH _ _ H1) as [<- <-]. same R2 H2. auto.
  - intros fs vs ms s s1 s2 r ND L P R1 _ IH R2 v' r' H'. inversion H' as [| | | | | | | |? vs' ms' ? s1' s2' ? ND' L' P' R1' M' R2'|]; subst.
    same R1 R1'. destruct (IH _ _ M') as [<- <-].
    + rewrite (Permutation_length P), (Permutation_length P'), !combine_length. lia.
    + intros l t v t' v' Hi Hi'. apply (Permutation_in _ P) in Hi. apply (Permutation_in _ P') in Hi'. apply in_combine_l in Hi, Hi'.
      eapply nodup_assoc; eassumption.
    + same R2 R2'. split; [|reflexivity]. f_equal. apply (combine_values fs ND); auto. rewrite <- P. exact P'.
  - intros cs k l t v s s1 s2 s3 s4 s5 s6 s7 s8 r N M R1 R2 R3 R4 R5 R6 R7 _ IH R8 v' r' H'.
    inversion H' as [| | | | | | | | |? k' l' t' v2 ? s1' s2' s3' s4' s5' s6' s7' s8' ? N' M' R1' R2' R3' R4' R5' R6' R7' D' R8']; subst.
    same R1 R1'. same R2 R2'. same R3 R3'. same R4 R4'. same R5 R5'. same R6 R6'. same R7 R7'.
    assert (k = k') by (specialize (M _ _ N'); specialize (M' _ _ N); lia). subst k'. rewrite N in N'. injection N' as <-.
    destruct (IH _ _ D') as [<- <-]. same R8 R8'. auto.
  - intros b s vs' r' H'. inversion H'; subst. auto.
  - intros b t ts v vs s s0 s1 r Hs _ IHd _ IHe vs' r' H'. inversion H' as [|? ? ? v' vs2 ? s0' s1' ? Hs' D' E']; subst.
    rewrite (separated_det _ _ _ _ Hs' Hs) in D'. destruct (IHd _ _ D') as [<- <-]. destruct (IHe _ _ E') as [<- <-]. auto.
  - intros b s ms' r' H' L _. destruct ms'; [|discriminate]. inversion H'; subst. auto.
  - intros b l t v ms s s0 s1 s2 s3 r Hs R1 R2 _ IHd _ IHm ms' r' H' L T.
    inversion H' as [|? l' t' v' ms2 ? s0' s1' s2' s3' ? Hs' R1' R2' D' M']; subst; [discriminate|].
    rewrite (separated_det _ _ _ _ Hs' Hs) in R1'. same R1 R1'. same R2 R2'.
    assert (t = t') by (eapply T; left; reflexivity). subst t'. destruct (IHd _ _ D') as [<- <-].
    destruct (IHm _ _ M') as [<- <-]; [cbn in L; lia| |auto]. intros l0 t0 v0 t0' v0' Hi Hi'. eapply T; right; eassumption.
Qed.

(** ** What the decoder accepts is a document *)

Lemma andthen_ok x k d' st' : andthen x k = Ret (d', Ok st') -> exists d1 st1, x = Ret (d1, Ok st1) /\ k st1 d1 = Ret (d', Ok st').
Proof. destruct x as [[d1 [st1|e]]| |]; cbn; intros H; try discriminate. eauto. Qed.

Lemma step_ok st d d' st' : step st d = Ret (d', Ok st') -> d' = d /\ stands (t_rest st) st'.
Proof.
  unfold JsonModel.step. destruct (next st) as [[st1 [[]|e]]| |] eqn:N; cbn; intros H; try discriminate.
  injection H as <- <-. split; [reflexivity|]. apply next_reads. exact N.
Qed.

Lemma token_is st k : token_eqb (t_token st) k = true -> t_token st = k.
Proof. destruct (t_token st), k; try discriminate; reflexivity. Qed.

Lemma must_ok k w st d d' st' : must_be k w st d = Ret (d', Ok st') -> t_token st = k /\ d' = d /\ stands (t_rest st) st'.
Proof.
  unfold JsonModel.must_be. destruct (token_eqb (t_token st) k) eqn:K; cbn [negb]; intros H; [|discriminate].
  split; [apply token_is; exact K|apply step_ok; exact H].
Qed.

Lemma named_ok name w st d d' st' : named_field alnum name w st d = Ret (d', Ok st') -> sym_of st = SText name /\ d' = d /\ stands (t_rest st) st'.
Proof.
  unfold named_field. destruct (token_eqb (t_token st) KString) eqn:K; cbn [negb orb]; intros H; [|discriminate].
  apply token_is in K. unfold tok_value in H. rewrite K in H. destruct (str_eqb (t_buf st) name) eqn:E; cbn [negb] in H; [|discriminate]. apply str_eqb_eq in E.
  split; [unfold sym_of; rewrite K, E; reflexivity|apply step_ok; exact H].
Qed.

Lemma stands_as s st x : stands s st -> sym_of st = x -> reads s x (t_rest st).
Proof. intros H <-. exact H. Qed.

Lemma last_index_max {A} (l : list (str * A)) lab : forall k i j a, last_index l k lab = Some i -> nth_error l j = Some (lab, a) -> (k + j <= i)%nat.
Proof.
  induction l as [|[x b] l IH]; intros k i j a H N; [destruct j; discriminate|]. cbn [last_index] in H.
  destruct (last_index l (S k) lab) as [i'|] eqn:E.
  - injection H as <-. destruct j as [|j]; cbn in N.
    + apply last_index_some in E. lia.
    + specialize (IH _ _ _ _ E N). lia.
  - destruct j as [|j]; cbn in N.
    + destruct (str_eqb x lab); [|discriminate]. injection H as <-. lia.
    + exfalso. assert (G : In lab (map fst l)) by (apply (in_map fst _ (lab, a)); apply nth_error_In in N; exact N).
      clear -E G. revert k E. induction l as [|[y c] l IH]; intros k E; [destruct G|]. cbn [last_index] in E. cbn [map fst In] in G.
      destruct (last_index l (S (S k)) lab) eqn:E2; [discriminate|]. destruct G as [->|G]; [rewrite str_eqb_refl in E; discriminate|]. exact (IH G _ E2).
Qed.

Lemma last_index_is {A} (l : list (str * A)) lab a i : nth_error l i = Some (lab, a) -> (forall j a', nth_error l j = Some (lab, a') -> (j <= i)%nat) -> last_index l 0 lab = Some i.
Proof.
  intros N M. destruct (last_index l 0 lab) as [j|] eqn:E.
  - pose proof (last_index_max _ _ _ _ _ _ E N). apply last_index_some in E. destruct E as (_ & a' & Nj). rewrite Nat.sub_0_r in Nj. specialize (M _ _ Nj). f_equal. lia.
  - exfalso. assert (G : In lab (map fst l)) by (apply (in_map fst _ (lab, a)); apply nth_error_In in N; exact N).
    clear -E G. revert E. generalize 0%nat as k. induction l as [|[y c] l IH]; intros k E; [destruct G|]. cbn [last_index] in E. cbn [map fst In] in G.
    destruct (last_index l (S k) lab) eqn:E2; [discriminate|]. destruct G as [->|G]; [rewrite str_eqb_refl in E; discriminate|]. exact (IH G _ E2).
Qed.

Definition sound (t : ty) : Prop := forall q s st d d' st', stands s st -> parse t q st d = Ret (d', Ok st') ->
  exists v r, document t s v r /\ stands r st' /\ frame d d' (extends q) /\ presents (ds_source d') t q v.

Lemma prim_presents d q p z : presents (ds_source (ds_add d q (JPrim p z))) (TPrim p) q (VPrim z).
Proof. constructor. cbn [ds_source src_prim]. rewrite ds_get_add, prim_eqb_refl. reflexivity. Qed.

Lemma prim_sound p : sound (TPrim p).
Proof.
  intros q s st d d' st' Hs H. cbn [JsonModel.parse] in H.
  assert (N : p <> PBool -> p <> PChar ->
    (if negb (token_eqb (t_token st) KString) && negb (token_eqb (t_token st) KNumber)
      then Ret (d, Err (EExpected WNumber))
      else match parse_number fl p (tok_value st) with
           | Some z => step st (ds_add d q (JPrim p z))
           | None => Ret (d, Err (ERefused p (tok_value st)))
           end) = Ret (d', Ok st') ->
    exists v r, document (TPrim p) s v r /\ stands r st' /\ frame d d' (extends q) /\ presents (ds_source d') (TPrim p) q v).
  { clear H. intros N1 N2 H. destruct (negb (token_eqb (t_token st) KString) && negb (token_eqb (t_token st) KNumber)) eqn:K; [discriminate|].
    destruct (parse_number fl p (tok_value st)) as [z|] eqn:E; [|discriminate]. apply step_ok in H. destruct H as [-> H].
    assert (R : reads s (SNumber (tok_value st)) (t_rest st) \/ reads s (SText (tok_value st)) (t_rest st)).
    { unfold stands, sym_of in Hs. unfold tok_value. destruct (t_token st); try discriminate; auto. }
    exists (VPrim z), (t_rest st). repeat split; [|exact H|apply frame_add|apply prim_presents].
    destruct (match p with PF32 | PF64 => true | _ => false end) eqn:F.
    - apply (dc_float alnum fl p s (tok_value st)); [destruct p; try discriminate; auto|exact R|]. destruct p; try discriminate; exact E.
    - assert (Hp : integer_prim p) by (unfold integer_prim; cbn [In]; destruct p; try discriminate; intuition discriminate).
      apply parse_number_iff in E; [|exact Hp]. apply (dc_integer alnum fl p s (tok_value st)); tauto. }
  destruct p; try (apply N; [discriminate|discriminate|exact H]); clear N; unfold parse_prim in H.
  - destruct (t_token st) eqn:K; try discriminate; apply step_ok in H; destruct H as [-> H]; eexists; exists (t_rest st);
      (split; [|split; [exact H|split; [apply frame_add|apply prim_presents]]]).
    + apply dc_true. apply (stands_as s st); [exact Hs|]. unfold sym_of. rewrite K. reflexivity.
    + apply dc_false. apply (stands_as s st); [exact Hs|]. unfold sym_of. rewrite K. reflexivity.
  - destruct (token_eqb (t_token st) KString) eqn:K; [|discriminate]. apply token_is in K. unfold tok_value in H. rewrite K in H.
    destruct (t_buf st) as [|c [|c' b]] eqn:B; try (apply andthen_ok in H; destruct H as (? & ? & _ & H); discriminate).
    apply step_ok in H. destruct H as [-> H]. eexists. exists (t_rest st).
    split; [|split; [exact H|split; [apply frame_add|apply prim_presents]]].
    apply dc_char. apply (stands_as s st); [exact Hs|]. unfold sym_of. rewrite K, B. reflexivity.
Qed.

Ltac ok H := let d1 := fresh "d" in let st1 := fresh "st" in let E := fresh "E" in apply andthen_ok in H; destruct H as (d1 & st1 & E & H).
Ltac musts E := let K := fresh "K" in let R := fresh "R" in apply must_ok in E; destruct E as (K & -> & R).
Ltac sym := unfold sym_of; match goal with K : t_token ?st = _ |- context [t_token ?st] => rewrite K; reflexivity end.

Lemma tuple_sound ts : Forall sound ts -> forall q k s st d d' st', stands s st -> tuple_loop alnum parse ts q k st d = Ret (d', Ok st') ->
  exists vs r, elements (k =? 0)%nat ts s vs r /\ stands r st' /\ frame d d' (fun p => exists i, (k <= i)%nat /\ extends (q ++ [i]) p) /\
    presents_list (ds_source d') ts q k vs.
Proof.
  induction 1 as [|t ts Ht F IH]; intros q k s st d d' st' Hs H; cbn [tuple_loop] in H.
  - injection H as <- <-. exists [], s. split; [apply el_nil|]. split; [exact Hs|]. split; [apply frame_refl|constructor].
  - ok H. assert (G : d0 = d /\ exists s0, separated alnum (k =? 0)%nat s s0 /\ stands s0 st0).
    { destruct (k =? 0)%nat.
      - injection E as <- <-. split; [reflexivity|]. exists s. split; [reflexivity|exact Hs].
      - musts E. split; [reflexivity|]. exists (t_rest st). split; [apply (stands_as s st _ Hs); sym|exact R]. }
    destruct G as (-> & s0 & Sep & Hs0). ok H. unfold with_component in E0.
    destruct (Ht _ _ _ _ _ _ Hs0 E0) as (v & s1 & Dv & Hs1 & Fr & Pv).
    destruct (IH _ _ _ _ _ _ _ Hs1 H) as (vs & r & El & Hr & Fr2 & Pl).
    exists (v :: vs), r. split; [econstructor; eassumption|]. split; [exact Hr|]. split.
    + eapply frame_trans; [exact Fr|exact Fr2| |].
      * intros p Hp. exists k. split; [lia|exact Hp].
      * intros p (i & Li & Hi). exists i. split; [lia|exact Hi].
    + constructor; [|exact Pl]. eapply result_keep; [exact Pv|].
      eapply frame_trans; [apply frame_refl with (i := fun _ => False)|exact Fr2|intros ? []|]. intros p (i & Li & Hi). exists i. split; [lia|exact Hi].
Qed.

Definition item_ok (fs : list (str * ty)) (q : path) (d : ds) (it : nat * (str * ty * val)) : Prop :=
  nth_error fs (fst it) = Some (fst (snd it)) /\ last_index fs 0 (fst (fst (snd it))) = Some (fst it) /\
  presents (ds_source d) (snd (fst (snd it))) (q ++ [fst it]) (snd (snd it)).

Lemma struct_sound fs q : (List.length fs < 64)%nat -> Forall (fun f => sound (snd f)) fs ->
  forall f set v b s st d d' st', is_set v set -> NoDup set -> Forall (fun i => (i < List.length fs)%nat) set -> stands s st ->
  struct_loop alnum pf (last_index fs 0) (fun i st d => select (fun f : str * ty => parse (snd f) (with_component q i) st d) fs i) f v b st d = Ret (d', Ok st') ->
  exists items r, members b (map snd items) s r /\ stands r st' /\ frame d d' (fun p => exists i, In i set /\ extends (q ++ [i]) p) /\
    Permutation (map fst items) set /\ Forall (item_ok fs q d') items.
Proof.
  intros few HF f. induction f as [|f IH]; intros set v b s st d d' st' Hset ND HL Hs H; cbn [struct_loop] in H;
    pose proof (is_set_empty _ _ Hset) as Z0; rewrite Z0 in H; (destruct set as [|i0 set0];
      [injection H as <- <-; exists [], s; (split; [apply mb_nil|split; [exact Hs|split; [apply frame_refl|split; constructor]]])|]); [discriminate|].
  set (set := i0 :: set0) in *. clearbody set. clear Z0.
  ok H. assert (G : d0 = d /\ exists s0, separated alnum b s s0 /\ stands s0 st0).
  { destruct b.
    - injection E as <- <-. split; [reflexivity|]. exists s. split; [reflexivity|exact Hs].
    - musts E. split; [reflexivity|]. exists (t_rest st). split; [apply (stands_as s st _ Hs); sym|exact R]. }
  destruct G as (-> & s0 & Sep & Hs0). clear E.
  destruct (token_eqb (t_token st0) KString) eqn:K; [|discriminate]. apply token_is in K.
  destruct (last_index fs 0 (tok_value st0)) as [i|] eqn:Ei; [|discriminate]. unfold tok_value in Ei. rewrite K in Ei.
  destruct (last_index_some fs _ _ _ Ei) as (_ & t & Hn). rewrite Nat.sub_0_r in Hn.
  assert (Li : (i < List.length fs)%nat) by (apply nth_error_Some; rewrite Hn; discriminate).
  rewrite bits_has_small in H by lia. cbn [bind] in H. destruct (Z.testbit v (Z.of_nat i)) eqn:B; [|discriminate].
  assert (Hi : In i set). { destruct Hset as (_ & _ & Hset). apply Hset; [lia|exact B]. }
  destruct (in_split _ _ Hi) as (set1 & set2 & ->). apply NoDup_remove in ND. destruct ND as [ND Ni].
  destruct (is_set_clear pf v i set1 set2 Hset Ni) as (v' & Ec & Hv').
  ok H. rewrite Ec in H. cbn [bind] in H. apply step_ok in E. destruct E as [-> Hs1]. ok H. musts E.
  rewrite (select_nth _ _ _ _ Hn) in H. unfold with_component in H. ok H. cbn [snd] in E.
  rewrite Forall_forall in HF. destruct (HF _ (nth_error_In _ _ Hn) _ _ _ _ _ _ R E) as (w & s3 & Dw & Hs3 & Fr & Pw).
  destruct (IH _ _ _ _ _ _ _ _ Hv' ND ltac:(apply Forall_app in HL; destruct HL as [HL1 HL2]; inversion HL2; subst; apply Forall_app; split; assumption) Hs3 H)
    as (items & r & Hm & Hr & Fr2 & P & FI).
  exists ((i, (t_buf st0, t, w)) :: items), r. split; [|split; [exact Hr|split; [|split]]].
  - cbn [map snd]. apply (mb_cons alnum fl b (t_buf st0) t w _ s s0 (t_rest st0) (t_rest st1) s3); auto.
    + apply (stands_as s0 st0 _ Hs0). sym.
    + apply (stands_as _ st1 _ Hs1). sym.
  - eapply frame_trans; [exact Fr|exact Fr2| |].
    + intros p Hp. exists i. split; [exact Hi|exact Hp].
    + intros p (j & Lj & Hj). exists j. split; [|exact Hj]. apply in_app_or in Lj. apply in_or_app. cbn [In]. tauto.
  - cbn [map fst]. apply Permutation_cons_app. exact P.
  - constructor; [|exact FI]. unfold item_ok. cbn [fst snd]. split; [exact Hn|]. split; [exact Ei|]. eapply result_keep; [exact Pw|].
    eapply frame_trans; [apply frame_refl with (i := fun _ => False)|exact Fr2|intros ? []|]. intros p (j & Lj & Hp). exists j. split; [congruence|exact Hp].
Qed.

(** Members in any order, sorted by position. *)
Lemma sorted_items q d (fs : list (str * ty)) : forall k items, map fst items = seq k (List.length fs) ->
  Forall (fun it => nth_error fs (fst it - k) = Some (fst (snd it)) /\ presents (ds_source d) (snd (fst (snd it))) (q ++ [fst it]) (snd (snd it))) items ->
  map snd items = combine fs (map (fun it => snd (snd it)) items) /\ presents_list (ds_source d) (map snd fs) q k (map (fun it => snd (snd it)) items).
Proof.
  induction fs as [|f fs IH]; intros k items E F; (destruct items as [|it items]; try discriminate); [split; [reflexivity|constructor]|].
  cbn [map List.length seq] in E. injection E as E0 E. inversion F as [|? ? [F0 F1] F2]; subst. rewrite Nat.sub_diag in F0. cbn [nth_error] in F0. injection F0 as ->.
  destruct (IH (S (fst it)) items E) as [H1 H2].
  { apply Forall_forall. intros it' Hi. rewrite Forall_forall in F2. destruct (F2 _ Hi) as [G1 G2]. split; [|exact G2].
    assert (In (fst it') (seq (S (fst it)) (List.length fs))) as Hq by (rewrite <- E; apply in_map; exact Hi). apply in_seq in Hq.
    replace (fst it' - fst it)%nat with (S (fst it' - S (fst it))) in G1 by lia. exact G1. }
  cbn [map combine]. split; [f_equal; [destruct it as [? [? ?]]; reflexivity|exact H1]|]. constructor; [exact F1|exact H2].
Qed.

Lemma struct_close fs q d items s1 s2 s r : Permutation (map fst items) (seq 0 (List.length fs)) -> Forall (item_ok fs q d) items ->
  members true (map snd items) s1 s2 -> reads s (SPunct 123) s1 -> reads s2 (SPunct 125) r ->
  exists v, document (TStruct fs) s v r /\ presents (ds_source d) (TStruct fs) q v.
Proof.
  intros P FI Hm R1 R2.
  assert (NDl : NoDup (map fst fs)).
  { apply NoDup_nth_error. intros i j Li E2. rewrite map_length in Li.
    assert (G : forall i, (i < List.length fs)%nat -> exists f, nth_error fs i = Some f /\ last_index fs 0 (fst f) = Some i).
    { intros i1 L1. assert (In i1 (map fst items)) as Hi by (apply (Permutation_in _ (Permutation_sym P)), in_seq; lia).
      apply in_map_iff in Hi. destruct Hi as (it & <- & Hit). rewrite Forall_forall in FI. destruct (FI _ Hit) as (G1 & G2 & _). eauto. }
    destruct (G i Li) as (f & Ef & Lf). rewrite !nth_error_map, Ef in E2. cbn [option_map] in E2.
    destruct (nth_error fs j) as [g|] eqn:Eg; [|discriminate]. cbn [option_map] in E2. injection E2 as E2.
    assert (Lj : (j < List.length fs)%nat) by (apply nth_error_Some; congruence). destruct (G j Lj) as (g' & Eg' & Lg). rewrite Eg in Eg'. injection Eg' as <-.
    rewrite <- E2, Lf in Lg. injection Lg as ->. reflexivity. }
  rewrite <- (map_id (seq 0 (List.length fs))) in P.
  assert (P2 : exists items', map fst items' = seq 0 (List.length fs) /\ Permutation items items').
  { rewrite map_id in P. apply Permutation_sym in P. apply Permutation_map_inv in P. destruct P as (l3 & E3 & P3). exists l3. auto. }
  destruct P2 as (items' & E' & P').
  destruct (sorted_items q d fs 0 items' E') as [C1 C2].
  { apply Forall_forall. intros it Hit. apply (Permutation_in _ (Permutation_sym P')) in Hit. rewrite Forall_forall in FI.
    destruct (FI _ Hit) as (G1 & _ & G3). rewrite Nat.sub_0_r. auto. }
  exists (VStruct (map (fun it => snd (snd it)) items')). split; [|constructor; exact C2].
  apply (dc_struct alnum fl fs _ (map snd items) s s1 s2); auto.
  - rewrite map_length, <- (map_length fst), E', seq_length. reflexivity.
  - rewrite <- C1. apply Permutation_map. exact P'.
Qed.

Lemma parse_sound t : all_structs (fun n => (n < 64)%nat) t -> sound t.
Proof.
  induction t using ty_ind'; intros HA q s st d d' st' Hs H0; cbn [JsonModel.parse] in H0.
  - destruct (token_eqb (t_token st) KNull) eqn:K; [|discriminate]. apply token_is in K. apply step_ok in H0. destruct H0 as [-> H0].
    exists VUnit, (t_rest st). split; [|split; [exact H0|split; [apply frame_refl|constructor]]]. constructor. apply (stands_as s st _ Hs). sym.
  - exact (prim_sound p q s st d d' st' Hs H0).
  - destruct (token_eqb (t_token st) KString) eqn:K; [|discriminate]. apply token_is in K. apply step_ok in H0. destruct H0 as [-> H0].
    unfold tok_value. rewrite K. exists (VStr (utf8_encode (t_buf st))), (t_rest st). split; [|split; [exact H0|split; [apply frame_add|]]].
    + constructor. apply (stands_as s st _ Hs). sym.
    + constructor; cbn [ds_source src_len src_bytes]; rewrite ds_get_add; reflexivity.
  - inversion HA as [| | |? HA'| |]; subst.
    assert (F : Forall sound ts). { rewrite Forall_forall in *. auto. }
    ok H0. musts E. ok H0. musts H0. destruct (tuple_sound ts F _ _ _ _ _ _ _ R E) as (vs & r & El & Hr & Fr & Pl).
    exists (VTuple vs), (t_rest st1). split; [|split; [assumption|split; [|constructor; exact Pl]]].
    + apply (dc_tuple alnum fl ts vs s (t_rest st) r); [apply (stands_as s st _ Hs); sym|exact El|apply (stands_as r st1 _ Hr); sym].
    + eapply frame_trans; [apply frame_refl with (i := fun _ => False)|exact Fr|intros ? []|]. intros p (i & _ & Hi). eapply extends_below; exact Hi.
  - inversion HA as [| | | |? few HA'|]; subst.
    assert (F : Forall (fun f => sound (snd f)) fs). { rewrite Forall_forall in *. auto. }
    ok H0. musts E. rewrite bits_new_small in H0 by exact few. cbn [bind] in H0. ok H0. musts H0.
    destruct (struct_sound fs q few F _ _ _ _ _ _ _ _ _ (is_set_new _ few) (seq_NoDup _ _) ltac:(apply Forall_forall; intros i Hi; apply in_seq in Hi; lia) R E)
      as (items & r & Hm & Hr & Fr & P & FI).
    destruct (struct_close fs q d0 items (t_rest st) r s (t_rest st1) P FI Hm) as (v & Dv & Pv); [apply (stands_as s st _ Hs); sym|apply (stands_as r st1 _ Hr); sym|].
    exists v, (t_rest st1). split; [exact Dv|split; [assumption|split; [|exact Pv]]].
    eapply frame_trans; [apply frame_refl with (i := fun _ => False)|exact Fr|intros ? []|]. intros p (i & _ & Hi). eapply extends_below; exact Hi.
  - inversion HA as [| | | | |? HA']; subst.
    ok H0. musts E. ok H0. apply named_ok in E. destruct E as (K1 & -> & R1). ok H0. musts E.
    destruct (token_eqb (t_token st2) KString) eqn:K3; [|discriminate]. apply token_is in K3. cbn [negb] in H0.
    unfold tok_value in H0. rewrite K3 in H0. destruct (last_index cs 0 (t_buf st2)) as [i|] eqn:Ei; [|discriminate].
    destruct (last_index_some cs _ _ _ Ei) as (_ & t & Hn). rewrite Nat.sub_0_r in Hn.
    ok H0. apply step_ok in E. destruct E as [-> R3]. ok H0. musts E. ok H0. apply named_ok in E. destruct E as (K5 & -> & R5). ok H0. musts E.
    ok H0. rewrite (select_nth _ _ _ _ Hn) in E. unfold with_component in E. cbn [snd] in E. musts H0.
    rewrite Forall_forall in *. destruct (H _ (nth_error_In _ _ Hn) (HA' _ (nth_error_In _ _ Hn)) _ _ _ _ _ _ R4 E) as (v & s8 & Dv & Hs8 & Fr & Pv).
    exists (VCase i v), (t_rest st7). split; [|split; [assumption|split]].
    + eapply (dc_enum alnum fl cs i (t_buf st2) t v); [exact Hn| | | | | | | | |exact Dv|].
      * intros k' t' Hk. apply (last_index_max _ _ _ _ _ _ Ei Hk).
      * apply (stands_as _ _ _ Hs). sym.
      * apply (stands_as _ _ _ R). exact K1.
      * apply (stands_as _ _ _ R1). sym.
      * apply (stands_as _ _ _ R0). sym.
      * apply (stands_as _ _ _ R3). sym.
      * apply (stands_as _ _ _ R2). exact K5.
      * apply (stands_as _ _ _ R5). sym.
      * apply (stands_as _ _ _ Hs8). sym.
    + eapply frame_trans; [apply (frame_add d q (JTag i))|exact Fr|auto|]. intros p Hp. eapply extends_below; exact Hp.
    + econstructor; [|exact Hn|exact Pv]. cbn [ds_source src_tag]. rewrite (Fr q).
      * rewrite ds_get_add. reflexivity.
      * intros [r E2]. apply (f_equal (@List.length _)) in E2. rewrite !app_length in E2. cbn in E2. lia.
Qed.

(** ** Documents are accepted *)

Definition readable (s : str) : Prop := exists x r, reads s x r.

Lemma stands_is s st x r : stands s st -> reads s x r -> sym_of st = x /\ t_rest st = r.
Proof. intros H H'. exact (reads_det _ _ _ _ _ H H'). Qed.

Lemma step_runs st d r : t_rest st = r -> readable r -> exists st', step st d = Ret (d, Ok st') /\ stands r st'.
Proof.
  intros <- (x & r0 & H). destruct (reads_next _ _ _ H st eq_refl) as (st' & N & E1 & E2). exists st'. unfold JsonModel.step. rewrite N. split; [reflexivity|].
  unfold stands. rewrite E1, E2. exact H.
Qed.

Lemma punct_token st c : sym_of st = SPunct c ->
  (c = 91 -> t_token st = KBeginArray) /\ (c = 93 -> t_token st = KEndArray) /\ (c = 123 -> t_token st = KBeginObject) /\
  (c = 125 -> t_token st = KEndObject) /\ (c = 44 -> t_token st = KComma) /\ (c = 58 -> t_token st = KColon).
Proof. unfold sym_of. destruct (t_token st); intros H; try discriminate; injection H as <-; repeat split; try discriminate; auto. Qed.

Lemma text_token st x : sym_of st = SText x -> t_token st = KString /\ tok_value st = x.
Proof. unfold sym_of, tok_value. destruct (t_token st); intros H; try discriminate. injection H as <-. auto. Qed.

Lemma number_token st x : sym_of st = SNumber x -> t_token st = KNumber /\ tok_value st = x.
Proof. unfold sym_of, tok_value. destruct (t_token st); intros H; try discriminate. injection H as <-. auto. Qed.

Lemma must_runs k c w s st d r : In (k, c) [(KBeginArray, 91); (KEndArray, 93); (KBeginObject, 123); (KEndObject, 125); (KComma, 44); (KColon, 58)] ->
  stands s st -> reads s (SPunct c) r -> readable r -> exists st', must_be k w st d = Ret (d, Ok st') /\ stands r st'.
Proof.
  intros Hk Hs R Hr. destruct (stands_is _ _ _ _ Hs R) as [Es Er]. pose proof (punct_token _ _ Es) as P.
  assert (K : t_token st = k). { cbn [In] in Hk. repeat (destruct Hk as [Hk|Hk]; [injection Hk as <- <-; intuition|]). destruct Hk. }
  unfold JsonModel.must_be. rewrite K. replace (token_eqb k k) with true by (destruct k; reflexivity). cbn [negb]. apply step_runs; assumption.
Qed.

Lemma named_runs name w s st d r : stands s st -> reads s (SText name) r -> readable r -> exists st', named_field alnum name w st d = Ret (d, Ok st') /\ stands r st'.
Proof.
  intros Hs R Hr. destruct (stands_is _ _ _ _ Hs R) as [Es Er]. destruct (text_token _ _ Es) as [K V].
  unfold named_field. rewrite K, V, str_eqb_refl. cbn [token_eqb negb orb]. apply step_runs; assumption.
Qed.

Lemma reads_readable s x r : reads s x r -> readable s.
Proof. intros H. exists x, r. exact H. Qed.

Lemma document_readable t s v r : document t s v r -> readable s.
Proof.
  intros H. inversion H; subst; try (eapply reads_readable; eassumption); match goal with H : reads _ _ _ \/ _ |- _ => destruct H; eapply reads_readable; eassumption end.
Qed.

Lemma elements_readable ts s vs r : elements false ts s vs r -> readable r -> readable s.
Proof. intros H Hr. inversion H; subst; [exact Hr|]. cbn [separated] in *. eapply reads_readable; eassumption. Qed.

Lemma members_readable ms s r : members false ms s r -> readable r -> readable s.
Proof. intros H Hr. inversion H; subst; [exact Hr|]. cbn [separated] in *. eapply reads_readable; eassumption. Qed.

Lemma separated_runs b w s s0 st d : separated alnum b s s0 -> readable s0 -> stands s st ->
  exists st', (if b return outcome parsed then Ret (d, Ok st) else must_be KComma w st d) = Ret (d, Ok st') /\ stands s0 st'.
Proof.
  intros H Hr Hs. destruct b; cbn [separated] in H.
  - subst s0. exists st. auto.
  - apply (must_runs KComma 44 w s); auto. cbn [In]. tauto.
Qed.

Lemma is_set_perm v s s' : Permutation s s' -> is_set v s -> is_set v s'.
Proof.
  intros P (R & F & H). split; [exact R|]. split.
  - rewrite Forall_forall in *. intros i Hi. apply F. apply (Permutation_in _ (Permutation_sym P)). exact Hi.
  - intros i Li. rewrite (H i Li). split; apply Permutation_in; [exact P|apply Permutation_sym; exact P].
Qed.

Lemma number_runs p q s st d x z r : p <> PBool -> p <> PChar -> reads s (SNumber x) r \/ reads s (SText x) r -> parse_number fl p x = Some z ->
  readable r -> stands s st -> exists d' st', parse (TPrim p) q st d = Ret (d', Ok st') /\ stands r st'.
Proof.
  intros N1 N2 R E Hr Hs.
  assert (G : (t_token st = KString \/ t_token st = KNumber) /\ tok_value st = x /\ t_rest st = r).
  { destruct R as [R|R]; destruct (stands_is _ _ _ _ Hs R) as [Es Er]; [apply number_token in Es|apply text_token in Es]; tauto. }
  destruct G as (K & V & T). destruct (step_runs st (ds_add d q (JPrim p z)) r T Hr) as (st' & S1 & S2).
  exists (ds_add d q (JPrim p z)), st'. split; [|exact S2]. rewrite <- S1.
  cbn [JsonModel.parse]. rewrite <- V in E.
  destruct p; try congruence; unfold parse_prim; (destruct K as [-> | ->]; cbn [token_eqb negb andb]; rewrite E; reflexivity).
Qed.

Lemma indices {B} (fs : list (str * ty)) : forall (vs : list B), List.length vs = List.length fs ->
  forall pre, Forall2 (fun m i => nth_error (pre ++ fs) i = Some (fst m)) (combine fs vs) (seq (List.length pre) (List.length fs)).
Proof.
  induction fs as [|f fs IH]; intros [|v vs] L pre; try discriminate; [constructor|]. cbn [combine List.length seq]. constructor.
  - cbn [fst]. rewrite nth_error_app2, Nat.sub_diag by lia. reflexivity.
  - specialize (IH vs ltac:(cbn in L; lia) (pre ++ [f])). rewrite app_length, <- app_assoc in IH. cbn [List.length app] in IH.
    replace (List.length pre + 1)%nat with (S (List.length pre)) in IH by lia. exact IH.
Qed.

Definition fine (t : ty) : Prop := all_structs (fun n => (n < 64)%nat) t.

Lemma parse_complete t s v r : document t s v r -> fine t -> readable r -> forall q st d, stands s st ->
  exists d' st', parse t q st d = Ret (d', Ok st') /\ stands r st'.
Proof.
  revert t s v r.
  apply (document_mind alnum fl
    (fun t s v r => fine t -> readable r -> forall q st d, stands s st -> exists d' st', parse t q st d = Ret (d', Ok st') /\ stands r st')
    (fun b ts s vs r => Forall fine ts -> readable r -> forall q k st d, (k =? 0)%nat = b -> stands s st ->
       exists d' st', tuple_loop alnum parse ts q k st d = Ret (d', Ok st') /\ stands r st')
    (fun b ms s r => forall fs q, NoDup (map fst fs) -> (List.length fs < 64)%nat -> Forall (fun f => fine (snd f)) fs -> readable r ->
       forall set f v st d, Forall2 (fun m i => nth_error fs i = Some (fst m)) ms set -> is_set v set -> NoDup set -> (List.length set <= f)%nat -> stands s st ->
       exists d' st', struct_loop alnum pf (last_index fs 0) (fun i st d => select (fun f : str * ty => parse (snd f) (with_component q i) st d) fs i) f v b st d = Ret (d', Ok st')
         /\ stands r st')).
  - intros s r R _ Hr q st d Hs. destruct (stands_is _ _ _ _ Hs R) as [Es Er]. cbn [JsonModel.parse].
    assert (K : t_token st = KNull) by (unfold sym_of in Es; destruct (t_token st); try discriminate; reflexivity). rewrite K. cbn [token_eqb].
    destruct (step_runs st d r Er Hr) as (st' & S1 & S2). exists d, st'. auto.
  - intros s r R _ Hr q st d Hs. destruct (stands_is _ _ _ _ Hs R) as [Es Er]. cbn [JsonModel.parse]. unfold parse_prim.
    assert (K : t_token st = KTrue) by (unfold sym_of in Es; destruct (t_token st); try discriminate; reflexivity). rewrite K.
    destruct (step_runs st (ds_add d q (JPrim PBool 1)) r Er Hr) as (st' & S1 & S2). eexists. exists st'. split; [exact S1|exact S2].
  - intros s r R _ Hr q st d Hs. destruct (stands_is _ _ _ _ Hs R) as [Es Er]. cbn [JsonModel.parse]. unfold parse_prim.
    assert (K : t_token st = KFalse) by (unfold sym_of in Es; destruct (t_token st); try discriminate; reflexivity). rewrite K.
    destruct (step_runs st (ds_add d q (JPrim PBool 0)) r Er Hr) as (st' & S1 & S2). eexists. exists st'. split; [exact S1|exact S2].
  - intros s c r R _ Hr q st d Hs. destruct (stands_is _ _ _ _ Hs R) as [Es Er]. destruct (text_token _ _ Es) as [K V]. cbn [JsonModel.parse]. unfold parse_prim.
    rewrite K, V. cbn [token_eqb]. destruct (step_runs st (ds_add d q (JPrim PChar c)) r Er Hr) as (st' & S1 & S2). eexists. exists st'. split; [exact S1|exact S2].
  - intros p s x z r Hp R Hn Hz _ Hr q st d Hs. unfold integer_prim in Hp. apply (number_runs p q s st d x z r); auto; try (intros ->; apply Hp; cbn [In]; tauto).
    apply parse_number_iff; auto.
  - intros p s x z r Hp R E _ Hr q st d Hs. apply (number_runs p q s st d x z r); auto; try (intros ->; destruct Hp; discriminate).
    destruct Hp as [->| ->]; exact E.
  - intros s x r R _ Hr q st d Hs. destruct (stands_is _ _ _ _ Hs R) as [Es Er]. destruct (text_token _ _ Es) as [K V]. cbn [JsonModel.parse].
    rewrite K, V. cbn [token_eqb]. destruct (step_runs st (ds_add d q (JString x)) r Er Hr) as (st' & S1 & S2). eexists. exists st'. split; [exact S1|exact S2].
  - intros ts vs s s1 s2 r R1 El IH R2 HA Hr q st d Hs. inversion HA as [| | |? HA'| |]; subst. cbn [JsonModel.parse].
    assert (Hr2 : readable s2) by (eapply reads_readable; exact R2).
    destruct (must_runs KBeginArray 91 WTuple s st d s1 ltac:(cbn [In]; tauto) Hs R1) as (st1 & E1 & Hs1).
    { inversion El; subst; [exact Hr2|]. cbn [separated] in *. subst. eapply document_readable; eassumption. }
    rewrite E1, andthen_ret. destruct (IH HA' Hr2 q 0%nat st1 d eq_refl Hs1) as (d2 & st2 & E2 & Hs2). rewrite E2, andthen_ret.
    destruct (must_runs KEndArray 93 WTupleEnd s2 st2 d2 r ltac:(cbn [In]; tauto) Hs2 R2 Hr) as (st3 & E3 & Hs3). rewrite E3. eauto.
  - intros fs vs ms s s1 s2 r ND L P R1 Hm IH R2 HA Hr q st d Hs. inversion HA as [| | | |? few HA'|]; subst. cbn [JsonModel.parse].
    assert (Hr2 : readable s2) by (eapply reads_readable; exact R2).
    destruct (must_runs KBeginObject 123 WStruct s st d s1 ltac:(cbn [In]; tauto) Hs R1) as (st1 & E1 & Hs1).
    { inversion Hm; subst; [exact Hr2|]. cbn [separated] in *. subst. eapply reads_readable; eassumption. }
    rewrite E1, andthen_ret. rewrite bits_new_small by exact few. cbn [bind].
    pose proof (indices fs vs L []) as F2. cbn [app List.length] in F2.
    destruct (Permutation_Forall2 (Permutation_sym P) F2) as (set & Pset & F3).
    destruct (IH fs q ND few HA' Hr2 set 65%nat (2 ^ Z.of_nat (List.length fs) - 1) st1 d F3) as (d2 & st2 & E2 & Hs2); auto.
    { eapply is_set_perm; [exact Pset|apply is_set_new; exact few]. }
    { eapply Permutation_NoDup; [exact Pset|apply seq_NoDup]. }
    { rewrite <- (Permutation_length Pset), seq_length. lia. }
    rewrite E2, andthen_ret.
    destruct (must_runs KEndObject 125 WStructEnd s2 st2 d2 r ltac:(cbn [In]; tauto) Hs2 R2 Hr) as (st3 & E3 & Hs3). rewrite E3. eauto.
  - intros cs k l t v s s1 s2 s3 s4 s5 s6 s7 s8 r N M R1 R2 R3 R4 R5 R6 R7 D IH R8 HA Hr q st d Hs. inversion HA as [| | | | |? HA']; subst. cbn [JsonModel.parse].
    destruct (must_runs KBeginObject 123 WEnum s st d s1 ltac:(cbn [In]; tauto) Hs R1 (reads_readable _ _ _ R2)) as (st1 & E1 & Hs1). rewrite E1, andthen_ret.
    destruct (named_runs (lit "kind") WKind s1 st1 d s2 Hs1 R2 (reads_readable _ _ _ R3)) as (st2 & E2 & Hs2). rewrite E2, andthen_ret.
    destruct (must_runs KColon 58 WColon s2 st2 d s3 ltac:(cbn [In]; tauto) Hs2 R3 (reads_readable _ _ _ R4)) as (st3 & E3 & Hs3). rewrite E3, andthen_ret.
    destruct (stands_is _ _ _ _ Hs3 R4) as [Es3 Er3]. destruct (text_token _ _ Es3) as [K3 V3]. rewrite K3, V3. cbn [token_eqb negb].
    rewrite (last_index_is cs l t k N M).
    destruct (step_runs st3 (ds_add d q (JTag k)) s4 Er3 (reads_readable _ _ _ R5)) as (st4 & E4 & Hs4). rewrite E4, andthen_ret.
    destruct (must_runs KComma 44 WCaseComma s4 st4 (ds_add d q (JTag k)) s5 ltac:(cbn [In]; tauto) Hs4 R5 (reads_readable _ _ _ R6)) as (st5 & E5 & Hs5). rewrite E5, andthen_ret.
    destruct (named_runs (lit "value") WValue s5 st5 (ds_add d q (JTag k)) s6 Hs5 R6 (reads_readable _ _ _ R7)) as (st6 & E6 & Hs6). rewrite E6, andthen_ret.
    destruct (must_runs KColon 58 WColon s6 st6 (ds_add d q (JTag k)) s7 ltac:(cbn [In]; tauto) Hs6 R7 (document_readable _ _ _ _ D)) as (st7 & E7 & Hs7). rewrite E7, andthen_ret.
    rewrite (select_nth _ _ _ _ N). cbn [snd]. rewrite Forall_forall in HA'.
    destruct (IH (HA' _ (nth_error_In _ _ N)) (reads_readable _ _ _ R8) (with_component q k) st7 (ds_add d q (JTag k)) Hs7) as (d8 & st8 & E8 & Hs8). rewrite E8, andthen_ret.
    destruct (must_runs KEndObject 125 WEnumEnd s8 st8 d8 r ltac:(cbn [In]; tauto) Hs8 R8 Hr) as (st9 & E9 & Hs9). rewrite E9. eauto.
  - intros b s _ Hr q k st d _ Hs. exists d, st. auto.
  - intros b t ts v vs s s0 s1 r Sep D IHd El IHe HA Hr q k st d Hk Hs. inversion HA as [|? ? HA1 HA2]; subst. cbn [tuple_loop].
    destruct (separated_runs _ WTupleComma s s0 st d Sep (document_readable _ _ _ _ D) Hs) as (st1 & E1 & Hs1). rewrite E1, andthen_ret.
    destruct (IHd HA1 (elements_readable _ _ _ _ El Hr) (with_component q k) st1 d Hs1) as (d2 & st2 & E2 & Hs2). rewrite E2, andthen_ret.
    apply (IHe HA2 Hr q (S k) st2 d2 eq_refl Hs2).
  - intros b s fs q ND few HA Hr set f v st d F2 Hset NDs Lf Hs. inversion F2; subst. exists d, st. split; [|exact Hs].
    pose proof (is_set_empty _ _ Hset) as Z0. destruct f; cbn [struct_loop]; rewrite Z0; reflexivity.
  - intros b l t v ms s s0 s1 s2 s3 r Sep R1 R2 D IHd Hm IHm fs q ND few HA Hr set f bits st d F2 Hset NDs Lf Hs.
    inversion F2 as [|? i ? set' Hn F2']; subst. cbn [fst] in Hn. destruct f as [|f]; [cbn in Lf; lia|]. cbn [struct_loop].
    pose proof (is_set_empty _ _ Hset) as Z0. rewrite Z0.
    assert (Li : (i < List.length fs)%nat) by (apply nth_error_Some; rewrite Hn; discriminate).
    destruct (separated_runs _ WFieldComma s s0 st d Sep (reads_readable _ _ _ R1) Hs) as (st1 & E1 & Hs1). rewrite E1, andthen_ret.
    destruct (stands_is _ _ _ _ Hs1 R1) as [Es1 Er1]. destruct (text_token _ _ Es1) as [K1 V1]. rewrite K1, V1. cbn [token_eqb].
    rewrite (last_index_nth fs l t ND i 0 Hn). cbn [Nat.add]. rewrite bits_has_small by lia. cbn [bind].
    assert (B : Z.testbit bits (Z.of_nat i) = true) by (destruct Hset as (_ & _ & Hset); apply Hset; [lia|left; reflexivity]). rewrite B.
    apply NoDup_cons_iff in NDs. destruct NDs as [N1 N2].
    destruct (is_set_clear pf bits i [] set' Hset N1) as (v' & Ec & Hv'). cbn [app] in Hv'.
    destruct (step_runs st1 d s1 Er1 (reads_readable _ _ _ R2)) as (st2 & E2 & Hs2). rewrite E2, andthen_ret, Ec. cbn [bind].
    destruct (must_runs KColon 58 WColon s1 st2 d s2 ltac:(cbn [In]; tauto) Hs2 R2 (document_readable _ _ _ _ D)) as (st3 & E3 & Hs3). rewrite E3, andthen_ret.
    rewrite (select_nth _ _ _ _ Hn). cbn [snd].
    assert (Ft : fine t) by (rewrite Forall_forall in HA; exact (HA _ (nth_error_In _ _ Hn))).
    destruct (IHd Ft (members_readable _ _ _ Hm Hr) (with_component q i) st3 d Hs3) as (d4 & st4 & E4 & Hs4). rewrite E4, andthen_ret.
    apply (IHm fs q ND few HA Hr set' f v' st4 d4); auto. cbn in Lf. lia.
Qed.

(** ** Values are determined by what a source presents *)

Lemma presents_det src t : forall q v v', presents src t q v -> presents src t q v' -> v = v'.
Proof.
  assert (L : forall ts, Forall (fun t => forall q v v', presents src t q v -> presents src t q v' -> v = v') ts ->
    forall q k vs vs', presents_list src ts q k vs -> presents_list src ts q k vs' -> vs = vs').
  { induction 1 as [|t0 ts H F IH]; intros q k vs vs' P P'; inversion P; inversion P'; subst; [reflexivity|]. f_equal; [eapply H|eapply IH]; eassumption. }
  induction t using ty_ind'; intros q v v' P P'; inversion P; inversion P'; subst; try reflexivity; try congruence.
  - f_equal. eapply L; eassumption.
  - f_equal. eapply (L (map snd fs)); [|eassumption|eassumption]. apply Forall_map. assumption.
  - assert (k = k0) by congruence. subst k0. assert (EE : Some (l, t) = Some (l0, t0)) by congruence. injection EE as <- <-. f_equal.
    rewrite Forall_forall in H. match goal with N : nth_error cs k = Some (l, t) |- _ => apply (H _ (nth_error_In _ _ N) (q ++ [k])); assumption end.
Qed.

Lemma decode_exact t input old v : fine t ->
  ((exists d, json_decode alnum fl pf t input old = Ret (d, Ok tt) /\ presents (ds_source d) t [] v) <->
   exists s x r, document t input v s /\ reads s x r).
Proof.
  intros Hf. unfold json_decode, tok_new. split.
  - intros (d & H & P). destruct (next (tok_init input)) as [[st [[]|e]]| |] eqn:N; try discriminate. cbn [bind] in H.
    pose proof (next_reads _ _ N) as Hs. cbn [tok_init t_rest] in Hs.
    destruct (parse t [] st []) as [[d1 [st1|e]]| |] eqn:E; try discriminate. cbn [bind] in H. injection H as <-.
    destruct (parse_sound t Hf _ _ _ _ _ _ Hs E) as (v' & r & Dv & Hr & _ & P'). rewrite (presents_det _ _ _ _ _ P P').
    exists r, (sym_of st1), (t_rest st1). split; [exact Dv|exact Hr].
  - intros (s & x & r & D & R). destruct (document_readable _ _ _ _ D) as (y & r0 & R0). destruct (reads_next _ _ _ R0 (tok_init input) eq_refl) as (st & N & E1 & E2).
    rewrite N. cbn [bind]. assert (Hs : stands input st) by (apply next_reads in N; exact N).
    destruct (parse_complete _ _ _ _ D Hf (reads_readable _ _ _ R) [] st [] Hs) as (d' & st' & E & Hs'). rewrite E. cbn [bind]. exists d'. split; [reflexivity|].
    destruct (parse_sound t Hf _ _ _ _ _ _ Hs E) as (v' & r' & Dv & _ & _ & P'). destruct (document_det _ _ _ _ D _ _ Dv) as [-> _]. exact P'.
Qed.

Lemma decode_document t input old d : fine t -> json_decode alnum fl pf t input old = Ret (d, Ok tt) ->
  exists v s, document t input v s /\ presents (ds_source d) t [] v.
Proof.
  intros Hf. unfold json_decode, tok_new. destruct (next (tok_init input)) as [[st [[]|e]]| |] eqn:N; try discriminate. cbn [bind].
  pose proof (next_reads _ _ N) as Hs. cbn [tok_init t_rest] in Hs.
  destruct (parse t [] st []) as [[d1 [st1|e]]| |] eqn:E; try discriminate. cbn [bind]. intros H. injection H as <-.
  destruct (parse_sound t Hf _ _ _ _ _ _ Hs E) as (v' & r & Dv & _ & _ & P'). eauto.
Qed.

Lemma no_document fs s v r : ~ NoDup (map fst fs) -> ~ document (TStruct fs) s v r.
Proof. intros N H. inversion H; subst. contradiction. Qed.

Lemma symbol_token st x : t_token st <> KError -> sym_of st = x <->
    match x with
    | SEnd => t_token st = KEof
    | SPunct c => In (t_token st, c) [(KBeginArray, 91); (KEndArray, 93); (KBeginObject, 123); (KEndObject, 125); (KComma, 44); (KColon, 58)]
    | SWord w => In (t_token st, w) [(KNull, lit "null"); (KTrue, lit "true"); (KFalse, lit "false")]
    | SText t => t_token st = KString /\ tok_value st = t
    | SNumber t => t_token st = KNumber /\ tok_value st = t
    end.
Proof.
  intros NE. unfold sym_of, tok_value. cbn [In]. destruct (t_token st), x; split; intros H; try congruence; try (injection H as <-); try (intuition congruence); try discriminate H.
Qed.

Lemma token_symbol_iff s x r : reads s x r <->
  exists st, next (tok_init s) = Ret (st, Ok tt) /\ t_rest st = r /\
    match x with
    | SEnd => t_token st = KEof
    | SPunct c => In (t_token st, c) [(KBeginArray, 91); (KEndArray, 93); (KBeginObject, 123); (KEndObject, 125); (KComma, 44); (KColon, 58)]
    | SWord w => In (t_token st, w) [(KNull, lit "null"); (KTrue, lit "true"); (KFalse, lit "false")]
    | SText t => t_token st = KString /\ tok_value st = t
    | SNumber t => t_token st = KNumber /\ tok_value st = t
    end.
Proof.
  split.
  - intros H. destruct (reads_next _ _ _ H (tok_init s) eq_refl) as (st & N & E & R). exists st. split; [exact N|]. split; [exact R|].
    apply symbol_token; [|exact E]. intros K. unfold sym_of in E. rewrite K in E. subst x.
    clear -H. remember (SWord []) as x. induction H; try discriminate; auto. injection Heqx as ->. cbn [In] in *. destruct H as [H|[H|[H|[]]]]; discriminate.
  - intros (st & N & <- & E). pose proof (next_reads _ _ N) as H. cbn [tok_init t_rest] in H. unfold stands in H.
    replace x with (sym_of st); [exact H|]. destruct (t_token st) eqn:K; try (apply symbol_token; [congruence|rewrite K; exact E]).
    exfalso. destruct x; cbn [In] in E; intuition congruence.
Qed.

End Docs.
