(** * Characters, integers, tokens and wide structs: the statements of the property files *)

From Coq Require Import Strings.String ZifyBool ZifyNat ZifyN.
From Verif Require Import Base BaseFacts StrModel StrFacts Utf8Model Utf8Facts TypesModel MarshalModel MarshalSpec LayoutProofs PresentsFacts JsonModel JsonSpec JsonData JsonBits JsonLex JsonNum JsonTok JsonRead JsonEmit JsonParse JsonSound JsonReject JsonTop MarshalTop.
Ltac Zify.zify_post_hook ::= Z.div_mod_to_equations.
Local Open Scope list_scope.
Local Open Scope Z_scope.

(** ** Integers *)

Lemma positional_value ds : positional ds = digits_value ds.
Proof.
  induction ds as [|c ds IH]; [reflexivity|]. cbn [positional]. rewrite IH. change (c :: ds) with ([c] ++ ds). rewrite digits_value_app.
  unfold digits_value at 2. cbn [fold_left]. lia.
Qed.

Lemma parse_int_iff lo hi s z : lo <= 0 -> parse_int lo hi s = Some z <-> numeral (lo <? 0) s z /\ lo <= z <= hi.
Proof.
  intros Hlo. split.
  - intros H. apply parse_int_sound in H. destruct H as [Hr (ds & Hn & Hd & H)]. split; [|exact Hr]. exists ds.
    split; [exact Hn|]. split; [apply all_digits_of; exact Hd|]. rewrite positional_value. destruct H as [H|(E & L & H)]; [left; exact H|right].
    split; [lia|]. split; [exact E|exact H].
  - intros [(ds & Hn & Hd & H) Hr]. rewrite positional_value in H.
    assert (D : forallb is_digit ds = true).
    { apply forallb_forall. intros c Hc. unfold all_digits in Hd. rewrite Forall_forall in Hd. specialize (Hd c Hc). unfold is_digit. lia. }
    assert (X : exists c ds', ds = c :: ds' /\ c <> 43 /\ c <> 45).
    { destruct ds as [|c ds']; [congruence|]. exists c, ds'. split; [reflexivity|]. inversion Hd; subst. lia. }
    destruct X as (c & ds' & Eds & N43 & N45). unfold parse_int.
    destruct H as [[[->| ->] ->]|(Sg & -> & ->)].
    + rewrite Eds. replace (c =? 43) with false by lia. replace (c =? 45) with false by lia. cbn [andb]. rewrite <- Eds, D.
      replace ((lo <=? digits_value ds) && (digits_value ds <=? hi)) with true by lia. reflexivity.
    + change (43 =? 43) with true. cbv iota. rewrite Eds. rewrite <- Eds, D.
      replace ((lo <=? digits_value ds) && (digits_value ds <=? hi)) with true by lia. reflexivity.
    + change (45 =? 43) with false. change (45 =? 45) with true. rewrite Sg. cbn [andb]. cbv iota. rewrite Eds. rewrite <- Eds, D.
      replace ((lo <=? - digits_value ds) && (- digits_value ds <=? hi)) with true by lia. reflexivity.
Qed.

Lemma parse_number_iff fl p s z : integer_prim p -> parse_number fl p s = Some z <-> numeral (signed_prim p) s z /\ in_range p z.
Proof.
  intros Hp. unfold integer_prim in Hp. cbn [In] in Hp.
  destruct p; try (exfalso; tauto); cbn [parse_number signed_prim in_range prim_size]; rewrite parse_int_iff by (vm_compute; discriminate);
    (match goal with |- numeral ?a _ _ /\ _ <-> numeral ?b _ _ /\ _ => replace a with b by reflexivity end);
    cbn; unfold umax; (split; intros [A B]; split; try exact A; cbn in *; unfold umax in *; lia).
Qed.

Section More.
Context (alnum : Z -> bool) (fl : floats) (pf : profile).
Notation decode := (json_decode alnum fl pf).
Notation next := (JsonModel.next alnum).
Notation token_valid := (JsonSpec.token_valid alnum).
Notation too_wide := (JsonSpec.too_wide pf).
Notation survives := (JsonSpec.survives alnum fl pf).

Lemma integer_read_back p z old : integer_prim p -> in_range p z ->
  exists d, decode (TPrim p) (show_int z) old = Ret (d, Ok tt) /\ ds_get d [] = Some (JPrim p z).
Proof.
  intros Hp Hr. unfold integer_prim in Hp. cbn [In] in Hp.
  assert (E : show_int z = prim_text fl p z) by (destruct p; try reflexivity; exfalso; tauto).
  assert (Hj : jsonable fl (TPrim p) (VPrim z)). { constructor; [exact Hr| |]; intros H; exfalso; intuition congruence. }
  destruct (decode_text alnum fl pf (TPrim p) (VPrim z) (prim_text fl p z) [] old Hj) as (d & G & _ & Ed); [constructor|apply boundary_nil|].
  rewrite app_nil_r in Ed. exists d. rewrite E, Ed. split; [reflexivity|]. rewrite G. reflexivity.
Qed.

Lemma decode_integer_iff p input old d : integer_prim p ->
  (decode (TPrim p) input old = Ret (d, Ok tt) <->
   exists st st' z, next (tok_init input) = Ret (st, Ok tt) /\ (t_token st = KString \/ t_token st = KNumber) /\
     numeral (signed_prim p) (tok_value st) z /\ in_range p z /\ next st = Ret (st', Ok tt) /\ d = [([], JPrim p z)]).
Proof.
  intros Hp. rewrite decode_step.
  assert (E : forall st dd, parse_prim alnum fl p [] st dd =
     if negb (token_eqb (t_token st) KString) && negb (token_eqb (t_token st) KNumber) then Ret (dd, Err (EExpected WNumber))
     else match parse_number fl p (tok_value st) with Some z => step alnum st (ds_add dd [] (JPrim p z)) | None => Ret (dd, Err (ERefused p (tok_value st))) end).
  { intros st dd. unfold integer_prim in Hp. cbn [In] in Hp. destruct p; try reflexivity; exfalso; tauto. }
  unfold JsonModel.step at 1. destruct (next (tok_init input)) as [[st [[]|e]]| |] eqn:N; cbn [bind andthen].
  - cbn [JsonModel.parse]. rewrite E. split.
    + intros H. destruct (negb _ && negb _) eqn:K; [discriminate|].
      destruct (parse_number fl p (tok_value st)) as [z|] eqn:P; [|discriminate]. rewrite finish_step in H.
      destruct (next st) as [[st' [[]|e]]| |] eqn:N'; try discriminate. injection H as <-. exists st, st', z. split; [reflexivity|].
      split; [destruct (t_token st); try discriminate; auto|]. apply parse_number_iff in P; [|exact Hp]. destruct P as [P1 P2]. auto.
    + intros (st0 & st' & z & Es & Hk & Hn & Hr & Hs & ->). injection Es as <-.
      replace (negb (token_eqb (t_token st) KString) && negb (token_eqb (t_token st) KNumber)) with false by (destruct Hk as [-> | ->]; reflexivity).
      assert (P : parse_number fl p (tok_value st) = Some z) by (apply parse_number_iff; auto). rewrite P, finish_step, Hs. reflexivity.
  - split; [discriminate|]. intros (st0 & st' & z & Es & _). discriminate.
  - unfold JsonModel.step, finish. rewrite N. cbn [andthen bind]. split; [discriminate|]. intros (st0 & st' & z & Es & _). discriminate.
  - unfold JsonModel.step, finish. rewrite N. cbn [andthen bind]. split; [discriminate|]. intros (st0 & st' & z & Es & _). discriminate.
Qed.

(** ** Tokens *)

Lemma tok_run_bound n st st' : tok_run alnum n st st' -> (n + List.length (t_rest st') <= List.length (t_rest st))%nat.
Proof.
  induction 1 as [st|n st st1 st2 E K R IH]; [lia|]. destruct (next_consumes alnum st st1 _ E) as (pre & Ep & Hp).
  specialize (Hp eq_refl K). rewrite Ep, app_length. destruct pre; [congruence|]. cbn. lia.
Qed.

Lemma tok_run_ends s : exists n st, tok_run alnum n (tok_init s) st /\ (n <= List.length s)%nat /\
  ((exists st' e, next st = Ret (st', Err e)) \/ (exists st', next st = Ret (st', Ok tt) /\ t_token st' = KEof) \/ next st = Panic).
Proof.
  assert (G : forall m st, (List.length (t_rest st) <= m)%nat -> exists n st1, tok_run alnum n st st1 /\
     ((exists st' e, next st1 = Ret (st', Err e)) \/ (exists st', next st1 = Ret (st', Ok tt) /\ t_token st' = KEof) \/ next st1 = Panic)).
  { induction m as [|m IH]; intros st L; destruct (next st) as [[st' [[]|e]]| |] eqn:E;
      try (exists 0%nat, st; split; [constructor|]; rewrite E; eauto 6; fail);
      try (exfalso; exact (next_total alnum st E)).
    - exists 0%nat, st. split; [constructor|]. right. left. exists st'. split; [exact E|]. apply (next_eof alnum st st' E).
      destruct (t_rest st); [constructor|cbn in L; lia].
    - destruct (token_eqb (t_token st') KEof) eqn:K.
      + apply token_eqb_eq in K. exists 0%nat, st. split; [constructor|]. right. left. exists st'. auto.
      + assert (K' : t_token st' <> KEof) by (intros X; rewrite X in K; discriminate).
        destruct (next_consumes alnum st st' _ E) as (pre & Ep & Hp). specialize (Hp eq_refl K').
        destruct (IH st') as (n & st1 & R & H).
        { rewrite Ep, app_length in L. destruct pre; [congruence|]. cbn in L. lia. }
        exists (S n), st1. split; [econstructor; eassumption|exact H]. }
  destruct (G _ (tok_init s) (le_n _)) as (n & st & R & H). exists n, st. split; [exact R|]. split; [|exact H].
  apply tok_run_bound in R. cbn in R. lia.
Qed.

(** ** Numbers *)

Lemma next_at_number st w s : t_rest st = w ++ s -> whitespace w -> starts_number s -> next st = match_number st s.
Proof.
  intros E Hw Hs. destruct s as [|c s]; [destruct Hs|]. cbn in Hs. unfold JsonModel.next. rewrite E.
  assert (X : skip_whitespace (w ++ c :: s) = c :: s).
  { clear - Hw Hs. induction Hw as [|x w Hx Hw IH]; cbn [app skip_whitespace]; [|rewrite Hx; exact IH].
    replace (is_whitespace c) with false; [reflexivity|]. unfold is_whitespace. lia. }
  rewrite X. cbv zeta iota.
  repeat (match goal with |- (if c =? ?n then _ else _) = _ => replace (c =? n) with false by lia end).
  destruct (Z.eqb_spec c 45) as [->|N]; [reflexivity|].
  repeat (match goal with |- (if c =? ?n then _ else _) = _ => replace (c =? n) with false by lia end).
  replace (is_digit c) with true by (unfold is_digit; lia). reflexivity.
Qed.

Lemma number_token_iff st w s p r : t_rest st = w ++ s -> whitespace w -> starts_number s ->
  ((exists st', next st = Ret (st', Ok tt) /\ t_token st' = KNumber /\ tok_value st' = p /\ t_rest st' = r) <->
   (s = p ++ r /\ longest_number s p /\ ~ incomplete_exponent s)).
Proof.
  intros E Hw Hs. rewrite (next_at_number st w s E Hw Hs). unfold match_number.
  destruct (number_body s) as [r0 [[]|e]] eqn:B.
  - pose proof (proj1 (number_iff s r0) B) as (p0 & E0 & L0 & I0). subst s. rewrite text_between_app. split.
    + intros (st' & H & K & V & R). injection H as <-. cbn in V, R. subst. auto.
    + intros (Er & L & I). eexists. split; [reflexivity|]. cbn.
      assert (B' : number_body (p0 ++ r0) = (r, Ok tt)) by (apply number_iff; exists p; auto).
      rewrite B in B'. injection B' as ->. apply app_inv_tail in Er. auto.
  - split; [intros (st' & H & _); discriminate|]. intros (Er & L & I). exfalso.
    assert (B' : number_body s = (r, Ok tt)) by (apply number_iff; exists p; auto). congruence.
Qed.

Lemma number_token_error_iff st w s : t_rest st = w ++ s -> whitespace w -> starts_number s ->
  ((exists st' e, next st = Ret (st', Err e)) <-> ((forall p r, s = p ++ r -> ~ number_lexeme p) \/ incomplete_exponent s)).
Proof.
  intros E Hw Hs. rewrite (next_at_number st w s E Hw Hs), <- number_error_iff. unfold match_number.
  destruct (number_body s) as [r0 [[]|e]]; split.
  - intros (st' & e & H). discriminate.
  - intros (r & e & H). discriminate.
  - eauto.
  - eauto.
Qed.

(** A token of a given first character. *)
Lemma next_cases_ok st st' : next st = Ret (st', Ok tt) -> t_token st' <> KEof ->
  exists w c s, whitespace w /\ t_rest st = w ++ c :: s /\ is_whitespace c = false /\
    match t_token st' with
    | KBeginArray => c = 91 /\ t_rest st' = s
    | KEndArray => c = 93 /\ t_rest st' = s
    | KBeginObject => c = 123 /\ t_rest st' = s
    | KEndObject => c = 125 /\ t_rest st' = s
    | KComma => c = 44 /\ t_rest st' = s
    | KColon => c = 58 /\ t_rest st' = s
    | KNull => c :: s = lit "null" ++ t_rest st'
    | KTrue => c :: s = lit "true" ++ t_rest st'
    | KFalse => c :: s = lit "false" ++ t_rest st'
    | KString => c = 34
    | KNumber => starts_number (c :: s)
    | KEof | KError => False
    end.
Proof.
  intros E K. destruct (skip_whitespace_split (t_rest st)) as (w & Ew & Fw). unfold JsonModel.next in E.
  destruct (skip_whitespace (t_rest st)) as [|c s] eqn:Sk; [injection E as <-; exfalso; apply K; reflexivity|].
  exists w, c, s. split; [exact Fw|]. split; [exact Ew|]. split; [exact (skip_whitespace_head _ _ _ Sk)|].
  assert (KW : forall x k, match_keyword alnum st x k (c :: s) = Ret (st', Ok tt) -> t_token st' = k /\ c :: s = x ++ t_rest st').
  { intros x k H. destruct (match_keyword_shape alnum st x k (c :: s)) as (st2 & r & H2 & (pre & Ep & Hp) & Ht). rewrite H in H2. injection H2 as <- <-.
    rewrite (Hp eq_refl) in Ep. auto. }
  repeat (match type of E with (if c =? ?n then _ else _) = _ => destruct (Z.eqb_spec c n) as [->|] end);
    try (injection E as <-; cbn; auto; fail);
    try (apply KW in E; destruct E as [-> E]; exact E).
  - rewrite match_string_eq in E. destruct (sloop s []) as [[[s' buf] [[]|e]]| |]; cbn [bind] in E; try discriminate; [injection E as <-; reflexivity|destruct e; discriminate].
  - unfold match_number in E. destruct (number_body (45 :: s)) as [s' [|]]; [|discriminate]. injection E as <-. cbn. auto.
  - destruct (is_digit c) eqn:D; [|discriminate]. unfold match_number in E. destruct (number_body (c :: s)) as [s' [|]]; [|discriminate]. injection E as <-. cbn.
    unfold is_digit in D. lia.
Qed.

(** ** Wide structs *)

Lemma next_open st w r : t_rest st = w ++ 123 :: r -> whitespace w -> exists st', next st = Ret (st', Ok tt) /\ t_token st' = KBeginObject /\ t_rest st' = r.
Proof.
  intros E Hw. unfold JsonModel.next. rewrite E.
  assert (X : skip_whitespace (w ++ 123 :: r) = 123 :: r).
  { clear - Hw. induction Hw as [|x w Hx Hw IH]; [reflexivity|]. cbn [app skip_whitespace]. rewrite Hx. exact IH. }
  rewrite X. eexists. split; [reflexivity|]. auto.
Qed.

Lemma next_close st w r : t_rest st = w ++ 125 :: r -> whitespace w -> exists st', next st = Ret (st', Ok tt) /\ t_token st' = KEndObject /\ t_rest st' = r.
Proof.
  intros E Hw. unfold JsonModel.next. rewrite E.
  assert (X : skip_whitespace (w ++ 125 :: r) = 125 :: r).
  { clear - Hw. induction Hw as [|x w Hx Hw IH]; [reflexivity|]. cbn [app skip_whitespace]. rewrite Hx. exact IH. }
  rewrite X. eexists. split; [reflexivity|]. auto.
Qed.

Lemma token_valid_next st : token_valid (t_rest st) -> exists st', next st = Ret (st', Ok tt).
Proof.
  intros (st1 & N). pose proof (next_rest alnum st (tok_init (t_rest st)) eq_refl) as H. rewrite N in H.
  destruct (next st) as [[st' [[]|e]]| |]; try contradiction. exists st'. reflexivity.
Qed.

Lemma next_token_valid st st' : next st = Ret (st', Ok tt) -> token_valid (t_rest st).
Proof.
  intros N. pose proof (next_rest alnum st (tok_init (t_rest st)) eq_refl) as H. rewrite N in H.
  unfold JsonSpec.token_valid. destruct (next (tok_init (t_rest st))) as [[st1 [[]|e]]| |]; try contradiction. exists st1. reflexivity.
Qed.

Lemma bits_new_too_wide n : too_wide n -> bits_new pf n = Panic.
Proof.
  unfold JsonSpec.too_wide, bits_new. intros [H|[-> ->]]; [|reflexivity]. replace (n <=? 64)%nat with false by lia. reflexivity.
Qed.

Lemma wide_never_ok fs input old d : too_wide (List.length fs) -> decode (TStruct fs) input old <> Ret (d, Ok tt).
Proof.
  intros H. rewrite decode_step. destruct (next (tok_init input)) as [[st [[]|e]]| |] eqn:N; unfold JsonModel.step; try rewrite N; try discriminate.
  cbn [bind]. rewrite andthen_ret. cbn [JsonModel.parse]. rewrite (bits_new_too_wide _ H). cbn [bind].
  destruct (must_be alnum KBeginObject WStruct st []) as [[d' [st'|e]]| |]; discriminate.
Qed.

Lemma wide_panics fs w r old : too_wide (List.length fs) -> whitespace w -> token_valid r -> decode (TStruct fs) (w ++ 123 :: r) old = Panic.
Proof.
  intros H Hw Hr. rewrite decode_step. destruct (next_open (tok_init (w ++ 123 :: r)) w r eq_refl Hw) as (st & N & K & R). unfold JsonModel.step. rewrite N.
  cbn [bind]. rewrite andthen_ret. cbn [JsonModel.parse]. rewrite (bits_new_too_wide _ H). cbn [bind].
  unfold must_be. rewrite K. cbn [token_eqb negb]. unfold JsonModel.step. rewrite <- R in Hr. destruct (token_valid_next st Hr) as (st' & N'). rewrite N'. reflexivity.
Qed.

Lemma release_64_lemma fs input old d : pf = Release -> List.length fs = 64%nat ->
  (decode (TStruct fs) input old = Ret (d, Ok tt) <->
   d = [] /\ exists w1 w2 k, input = w1 ++ 123 :: w2 ++ 125 :: k /\ whitespace w1 /\ whitespace w2 /\ token_valid k).
Proof.
  intros Hp Hn.
  assert (B : bits_new pf (List.length fs) = Ret 0) by (rewrite Hp, Hn; reflexivity).
  assert (P : forall st dd, parse alnum fl pf (TStruct fs) [] st dd = andthen (must_be alnum KBeginObject WStruct st dd) (fun st d => must_be alnum KEndObject WStructEnd st d)).
  { intros st dd. cbn [JsonModel.parse]. rewrite B. cbn [bind]. apply andthen_ext. intros st' d'. cbn [struct_loop]. change (0 =? 0) with true. cbv iota. apply andthen_ret. }
  rewrite decode_step. split.
  - intros E. unfold JsonModel.step in E. destruct (next (tok_init input)) as [[st [[]|e]]| |] eqn:N; try discriminate.
    cbn [bind] in E. rewrite andthen_ret, P in E. unfold must_be at 1 in E.
    destruct (token_eqb (t_token st) KBeginObject) eqn:K; [|discriminate]. apply token_eqb_eq in K. cbn [negb] in E.
    unfold JsonModel.step in E. destruct (next st) as [[st1 [[]|e]]| |] eqn:N1; try discriminate. cbn [bind] in E. rewrite andthen_ret in E. unfold must_be in E.
    destruct (token_eqb (t_token st1) KEndObject) eqn:K1; [|discriminate]. apply token_eqb_eq in K1. cbn [negb] in E. rewrite finish_step in E.
    destruct (next st1) as [[st2 [[]|e]]| |] eqn:N2; try discriminate. injection E as <-. split; [reflexivity|].
    destruct (next_cases_ok _ _ N) as (w1 & c1 & s1 & W1 & E1 & _ & C1); [rewrite K; discriminate|]. rewrite K in C1. destruct C1 as [-> R1].
    destruct (next_cases_ok _ _ N1) as (w2 & c2 & s2 & W2 & E2 & _ & C2); [rewrite K1; discriminate|]. rewrite K1 in C2. destruct C2 as [-> R2].
    exists w1, w2, s2. split; [|split; [exact W1|split; [exact W2|rewrite <- R2; eapply next_token_valid; exact N2]]].
    cbn [t_rest tok_init] in E1. rewrite E1, <- R1, E2. reflexivity.
  - intros (-> & w1 & w2 & k & -> & W1 & W2 & V).
    destruct (next_open (tok_init (w1 ++ 123 :: w2 ++ 125 :: k)) w1 _ eq_refl W1) as (st & N & K & R).
    destruct (next_close st w2 k R W2) as (st1 & N1 & K1 & R1). rewrite <- R1 in V. destruct (token_valid_next st1 V) as (st2 & N2).
    unfold JsonModel.step. rewrite N. cbn [bind]. rewrite andthen_ret, P. unfold must_be at 1. rewrite K. cbn [token_eqb negb]. unfold JsonModel.step. rewrite N1. cbn [bind].
    rewrite andthen_ret. unfold must_be. rewrite K1. cbn [token_eqb negb]. rewrite finish_step, N2. reflexivity.
Qed.

(** ** Characters *)

Lemma string_decoded s old : Forall (fun c => is_char c = true /\ c <> 0) s ->
  decode TString (string_text s) old = Ret ([([], JString (flat_map reread s))], Ok tt).
Proof.
  intros F. rewrite decode_step.
  destruct (reads_string alnum (tok_init (string_text s)) s [] F) as (st & N & K & R & V); [cbn [t_rest tok_init]; rewrite app_nil_r; reflexivity|].
  unfold JsonModel.step at 1. rewrite N. cbn [bind]. rewrite andthen_ret. cbn [JsonModel.parse]. rewrite V by auto. rewrite K. cbn [token_eqb].
  rewrite finish_step. pose proof (next_rest alnum st (tok_init []) R) as X. rewrite next_nil in X.
  destruct (next st) as [[? [|]]| |]; try contradiction. reflexivity.
Qed.

Lemma long_char_invalid pre c post : Forall (fun c => is_char c = true) pre -> Forall (fun c => ~ 0x8000 <= c <= 0xFFFF) pre -> 0x8000 <= c <= 0xFFFF ->
  utf8_decode (emit_utf8_string (pre ++ c :: post)) = None.
Proof.
  intros V S Hc. unfold emit_utf8_string. rewrite flat_map_app. cbn [flat_map].
  rewrite write_chars.
  - rewrite <- !app_assoc. rewrite (app_assoc (utf8_encode (lit """"))), <- utf8_app. apply utf8_decode_invalid_suffix.
    + apply Forall_app. split; [repeat constructor|]. clear - V. induction V as [|x l Hx V IH]; [constructor|]. cbn [flat_map].
      apply Forall_app. split; [apply char_text_valid; exact Hx|exact IH].
    + apply write_ch_invalid. exact Hc.
  - rewrite Forall_forall in *. intros x Hx. split; [apply V; exact Hx|apply S; exact Hx].
Qed.

Lemma first_such (P : Z -> Prop) (dec : forall c, P c \/ ~ P c) s : Forall (fun c => ~ P c) s \/ exists pre c post, s = pre ++ c :: post /\ Forall (fun c => ~ P c) pre /\ P c.
Proof.
  induction s as [|x s IH]; [left; constructor|]. destruct (dec x) as [H|H].
  - right. exists [], x, s. repeat split; auto.
  - destruct IH as [IH|(pre & c & post & -> & F & Hc)]; [left; constructor; assumption|right]. exists (x :: pre), c, post. repeat split; auto.
Qed.

Lemma reread_grows s : (List.length s <= List.length (flat_map reread s))%nat.
Proof. induction s as [|c s IH]; [cbn; lia|]. cbn [flat_map]. rewrite app_length. unfold reread at 1. destruct (_ && _); cbn [List.length]; lia. Qed.

Lemma reread_same s : Forall (fun c => 0 <= c) s -> flat_map reread s = s -> Forall (fun c => ~ bad_control c) s.
Proof.
  induction 1 as [|c s Hc F IH]; intros E; [constructor|]. cbn [flat_map] in E.
  assert (D : bad_control c \/ ~ bad_control c). { unfold bad_control. destruct (Z.ltb_spec c 32); [|right; lia]. destruct (Z.leb_spec 10 (c mod 16)); [|right; lia].
    destruct (Z.eq_dec c 10); [right; lia|]. destruct (Z.eq_dec c 12); [right; lia|]. destruct (Z.eq_dec c 13); [right; lia|]. left. lia. }
  destruct D as [B|B].
  - exfalso. apply (f_equal (@List.length _)) in E. rewrite reread_bad in E by exact B. rewrite app_length in E. cbn in E. pose proof (reread_grows s). lia.
  - rewrite (reread_good c B Hc) in E. injection E as E. constructor; [exact B|apply IH; exact E].
Qed.

Lemma zero_rejected pre post old : Forall (fun c => is_char c = true /\ c <> 0) pre ->
  decode TString (string_text (pre ++ 0 :: post)) old = Ret (old, Err EEscape).
Proof.
  intros F. rewrite decode_step.
  assert (N : exists st, next (tok_init (string_text (pre ++ 0 :: post))) = Ret (st, Err EEscape)).
  { unfold JsonModel.next. cbn [t_rest tok_init]. unfold string_text. cbn [skip_whitespace]. change (is_whitespace 34) with false. cbv iota.
    change (exists st, match_string (tok_init (34 :: flat_map char_text (pre ++ 0 :: post) ++ [34])) (34 :: flat_map char_text (pre ++ 0 :: post) ++ [34]) = Ret (st, Err EEscape)).
    rewrite match_string_eq, flat_map_app. cbn [flat_map]. rewrite <- !app_assoc.
    assert (X : forall l buf k, Forall (fun c => is_char c = true /\ c <> 0) l -> sloop (flat_map char_text l ++ k) buf = sloop k (buf ++ flat_map reread l)).
    { intros l. induction l as [|c l IH]; intros buf k Fl; cbn [flat_map app]; [rewrite app_nil_r; reflexivity|]. inversion Fl as [|? ? [Hc H0] Fl']; subst.
      rewrite <- app_assoc, sloop_char by assumption. rewrite IH by exact Fl'. rewrite <- app_assoc. reflexivity. }
    rewrite X by exact F. rewrite sloop_eq. cbn [char_text Z.eqb lit map Strings.String.list_ascii_of_string app]. eexists. reflexivity. }
  destruct N as (st & N). rewrite N. reflexivity.
Qed.

Lemma survives_iff s : Forall (fun c => is_char c = true) s -> (survives s <-> Forall json_char s).
Proof.
  intros V. split.
  - intros (text & d & E & Ed & Eg).
    assert (S : Forall (fun c => ~ 0x8000 <= c <= 0xFFFF) s).
    { destruct (first_such (fun c => 0x8000 <= c <= 0xFFFF)) with (s := s) as [F|(pre & c & post & -> & F & Hc)]; [|exact F|].
      - intros c. destruct (Z.leb_spec 0x8000 c); [|right; lia]. destruct (Z.leb_spec c 0xFFFF); [left; lia|right; lia].
      - exfalso. rewrite long_char_invalid in E; [discriminate| |exact F|exact Hc]. apply Forall_app in V. tauto. }
    assert (SF : Forall utf8_safe s). { rewrite Forall_forall in *. intros c Hc. split; auto. }
    rewrite emit_string_text in E by exact SF. rewrite utf8_decode_encode in E by (apply string_text_valid; exact V). injection E as <-.
    destruct (first_such (fun c => c = 0) ltac:(intros c; destruct (Z.eq_dec c 0); auto) s) as [F0|(pre & c & post & -> & F & ->)].
    + rewrite string_decoded in Ed; [|rewrite Forall_forall in *; auto]. injection Ed as <-. cbn in Eg. injection Eg as Eg.
      assert (NN : Forall (fun c => 0 <= c) s) by (revert V; apply Forall_impl; apply is_char_nonneg).
      pose proof (reread_same s NN Eg) as B. rewrite Forall_forall in *. intros c Hc. split; [auto|]. split; [auto|]. split; auto.
    + rewrite zero_rejected in Ed; [discriminate|]. apply Forall_app in V. destruct V as [V _]. rewrite Forall_forall in *. auto.
  - intros F. exists (string_text s), [([], JString s)]. rewrite emit_string_text by (apply json_char_safe; exact F).
    rewrite utf8_decode_encode by (apply string_text_valid; exact V). split; [reflexivity|].
    rewrite string_decoded by (apply json_char_nonzero; exact F). rewrite reread_json by exact F. split; reflexivity.
Qed.

(** What becomes of any string without characters from U+8000 to U+FFFF. *)
Lemma string_fate s old : Forall (fun c => is_char c = true /\ ~ 0x8000 <= c <= 0xFFFF) s ->
  exists text, utf8_decode (emit_utf8_string s) = Some text /\
    (In 0 s -> decode TString text old = Ret (old, Err EEscape)) /\
    (~ In 0 s -> exists d, decode TString text old = Ret (d, Ok tt) /\ ds_get d [] = Some (JString (flat_map reread s))).
Proof.
  intros F. assert (V : Forall (fun c => is_char c = true) s) by (revert F; apply Forall_impl; tauto).
  assert (SF : Forall utf8_safe s). { revert F. apply Forall_impl. intros c [H1 H2]. split; assumption. }
  exists (string_text s). rewrite emit_string_text by exact SF. split; [apply utf8_decode_encode, string_text_valid, V|]. split.
  - intros H0. destruct (first_such (fun c => c = 0) ltac:(intros c; destruct (Z.eq_dec c 0); auto) s) as [F0|(pre & c & post & -> & F0 & ->)].
    + exfalso. rewrite Forall_forall in F0. exact (F0 0 H0 eq_refl).
    + apply zero_rejected. apply Forall_app in V. destruct V as [V _]. rewrite Forall_forall in *. auto.
  - intros H0. eexists. split; [apply string_decoded; rewrite Forall_forall in *; intros c Hc; split; [auto|congruence]|]. reflexivity.
Qed.

Lemma bad_control_reread c : bad_control c -> reread c <> [c].
Proof. intros H. rewrite reread_bad by exact H. discriminate. Qed.

End More.

(** ** The two encoders *)

Lemma same_json fl pf src t l v n buf buf' : small t -> layout_new t = Ret l -> marshallable pf l -> presents src t [] v -> typed t v ->
  encoding_size_with_source src l = Ret n -> (n <= List.length buf)%nat -> encode_with_source pf src l buf = Ret (buf', n) ->
  json_encode fl t (marshaller_source pf l buf') = json_encode fl t src.
Proof.
  intros H1 H2 H3 H4 H5 H6 H7 H8. apply emit_same with (v := v); [|exact H4].
  exact (proj1 (reencode pf src t l v n buf buf' H1 H2 H3 H4 H5 H6 H7 H8)).
Qed.

