(** * Reading back the texts of tokens *)

From Coq Require Import Strings.String ZifyBool ZifyNat ZifyN.
From Verif Require Import Base BaseFacts StrModel StrFacts Utf8Model Utf8Facts TypesModel MarshalModel MarshalSpec JsonModel JsonSpec JsonLex JsonNum JsonTok.
Local Open Scope list_scope.
Local Open Scope Z_scope.
Ltac Zify.zify_post_hook ::= Z.div_mod_to_equations.

(** ** Characters in strings *)

Lemma hex_char_digit d : 0 <= d < 10 -> hex_char (48 + d).
Proof. unfold hex_char. lia. Qed.

Lemma sloop_control c x buf : 0 < c < 0x20 ->
  sloop (92 :: 117 :: 48 :: 48 :: 48 + c / 16 :: 48 + c mod 16 :: x) buf =
  if 10 <=? c mod 16 then sloop x ((buf ++ [c / 16]) ++ [48 + c mod 16]) else sloop x (buf ++ [c]).
Proof.
  intros Hc. rewrite sloop_eq, control_char_eq. change (92 =? 34) with false. change (92 =? 92) with true. cbv iota.
  change (simple_escape 117) with (@None Z). change (117 =? 117) with true. cbv iota.
  destruct (Z.leb_spec 10 (c mod 16)) as [H|H].
  - change (48 :: 48 :: 48 + c / 16 :: 48 + c mod 16 :: x) with ([48; 48; 48 + c / 16] ++ 48 + c mod 16 :: x).
    rewrite hex_loop_complete.
    + assert (E : hex_fold 0 [48; 48; 48 + c / 16] = c / 16).
      { unfold hex_fold. cbn [fold_left]. unfold hex_value. replace (48 + c / 16 <=? 57) with true by lia. change (48 <=? 57) with true. cbv iota. lia. }
      rewrite E. replace (is_char (c / 16)) with true by (unfold is_char; lia). cbn [bind]. rewrite sloop_eq.
      replace (48 + c mod 16 =? 34) with false by lia. replace (48 + c mod 16 =? 92) with false by lia.
      replace (48 + c mod 16 <=? 31) with false by lia. reflexivity.
    + repeat (apply Forall_cons; [unfold hex_char; lia|]); constructor.
    + cbn; lia.
    + intros _. exists (48 + c mod 16), x. split; [reflexivity|]. unfold hex_char. lia.
  - change (48 :: 48 :: 48 + c / 16 :: 48 + c mod 16 :: x) with ([48; 48; 48 + c / 16; 48 + c mod 16] ++ x).
    rewrite hex_loop_complete.
    + assert (E : hex_fold 0 [48; 48; 48 + c / 16; 48 + c mod 16] = c).
      { unfold hex_fold. cbn [fold_left]. unfold hex_value. replace (48 + c / 16 <=? 57) with true by lia.
        replace (48 + c mod 16 <=? 57) with true by lia. change (48 <=? 57) with true. cbv iota. lia. }
      rewrite E. replace (is_char c) with true by (unfold is_char; lia). reflexivity.
    + repeat (apply Forall_cons; [unfold hex_char; lia|]); constructor.
    + cbn; lia.
    + cbn; lia.
Qed.

Lemma sloop_char c x buf : is_char c = true -> c <> 0 -> sloop (char_text c ++ x) buf = sloop x (buf ++ reread c).
Proof.
  intros Hc H0. unfold char_text, reread. assert (Hn : 0 < c) by (unfold is_char in Hc; lia).
  destruct (Z.eqb_spec c 0); [lia|].
  assert (Esc : forall e y, simple_escape e = Some y -> sloop ([92; e] ++ x) buf = sloop x (buf ++ [y])).
  { intros e y He. rewrite sloop_eq. cbn [app]. change (92 =? 34) with false. change (92 =? 92) with true. cbv iota.
    rewrite control_char_eq, He. reflexivity. }
  destruct (Z.eqb_spec c 92) as [->|N1]; [apply (Esc 92); reflexivity|].
  destruct (Z.eqb_spec c 47) as [->|N2]; [apply (Esc 47); reflexivity|].
  destruct (Z.eqb_spec c 34) as [->|N3]; [apply (Esc 34); reflexivity|].
  destruct (Z.eqb_spec c 8) as [->|N4]; [apply (Esc 98); reflexivity|].
  destruct (Z.eqb_spec c 12) as [->|N5]; [apply (Esc 102); reflexivity|].
  destruct (Z.eqb_spec c 10) as [->|N6]; [apply (Esc 110); reflexivity|].
  destruct (Z.eqb_spec c 13) as [->|N7]; [apply (Esc 114); reflexivity|].
  destruct (Z.eqb_spec c 9) as [->|N8]; [apply (Esc 116); reflexivity|].
  clear Esc. destruct (Z.ltb_spec c 0x20) as [L|L].
  - change (lit "\u00" ++ [48 + c / 16; 48 + c mod 16]) with [92; 117; 48; 48; 48 + c / 16; 48 + c mod 16].
    cbn [app]. rewrite sloop_control by lia. cbn [andb negb]. rewrite !andb_true_r.
    destruct (10 <=? c mod 16); [rewrite <- app_assoc|]; reflexivity.
  - cbn [andb app]. rewrite sloop_eq. destruct (Z.eqb_spec c 34); [lia|]. destruct (Z.eqb_spec c 92); [lia|]. destruct (Z.leb_spec c 31); [lia|].
    reflexivity.
Qed.

Lemma sloop_string s : Forall (fun c => is_char c = true /\ c <> 0) s -> forall k buf,
  sloop (flat_map char_text s ++ 34 :: k) buf = Ret (k, buf ++ flat_map reread s, Ok tt).
Proof.
  induction 1 as [|c s [Hc H0] F IH]; intros k buf; cbn [flat_map app].
  - rewrite sloop_eq. rewrite app_nil_r. reflexivity.
  - rewrite <- app_assoc, sloop_char by assumption. rewrite IH, <- app_assoc. reflexivity.
Qed.

Lemma reread_good c : ~ bad_control c -> 0 <= c -> reread c = [c].
Proof.
  unfold bad_control, reread. intros H H0.
  destruct ((c <? 32) && (10 <=? c mod 16) && negb (c =? 10) && negb (c =? 12) && negb (c =? 13)) eqn:E; [|reflexivity]. exfalso. apply H. lia.
Qed.

Lemma reread_bad c : bad_control c -> reread c = [c / 16; 48 + c mod 16].
Proof. unfold bad_control, reread. intros H. replace ((c <? 32) && (10 <=? c mod 16) && negb (c =? 10) && negb (c =? 12) && negb (c =? 13)) with true by lia. reflexivity. Qed.

Lemma is_char_nonneg c : is_char c = true -> 0 <= c.
Proof. unfold is_char. lia. Qed.

Lemma reread_json s : Forall json_char s -> flat_map reread s = s.
Proof.
  induction 1 as [|c s (Hc & _ & Hb & _) F IH]; [reflexivity|]. cbn [flat_map]. rewrite IH, reread_good by (auto using is_char_nonneg). reflexivity.
Qed.

Lemma json_char_nonzero s : Forall json_char s -> Forall (fun c => is_char c = true /\ c <> 0) s.
Proof. apply Forall_impl. intros c (A & B & _). auto. Qed.

Lemma number_head p : number_lexeme p -> exists c x, p = c :: x /\ (c = 45 \/ 48 <= c <= 57).
Proof.
  intros (sg & i & f & e & -> & [->| ->] & Hi & _); cbn [app].
  - destruct Hi as [->|(c & ds & -> & Hc & _)]; cbn [app]; eexists; eexists; (split; [reflexivity|lia]).
  - eexists; eexists; (split; [reflexivity|lia]).
Qed.

Lemma no_digit_exp e x : exp_part e -> no_digit x -> no_digit (e ++ x).
Proof. intros He Hx. destruct (exp_head e He) as [->|(c & r & -> & Hc)]; [exact Hx|]. cbn. lia. Qed.

Lemma no_dot_exp e x : exp_part e -> no_dot x -> no_dot (e ++ x).
Proof. intros He Hx. destruct (exp_head e He) as [->|(c & r & -> & Hc)]; [exact Hx|]. cbn. lia. Qed.

Lemma all_digits_of ds : forallb is_digit ds = true -> all_digits ds.
Proof. intros H. rewrite forallb_forall in H. apply Forall_forall. intros c Hc. apply is_digit_iff. apply H. exact Hc. Qed.

Lemma show_int_lexeme z : number_lexeme (show_int z).
Proof.
  assert (G : forall y, 0 <= y -> int_part (show_int y)).
  { intros y Hy. destruct (show_int_digits y Hy) as (D & _ & c & r & E & H1 & H2). apply all_digits_of in D. rewrite E in *.
    inversion D as [|? ? Hc Hr]; subst. destruct (Z.lt_ge_cases y 10) as [L|L].
    - destruct (H1 L) as [-> ->]. destruct (Z.eq_dec y 0) as [->|]; [left; reflexivity|]. right. exists (48 + y), []. repeat split; try lia. constructor.
    - specialize (H2 L). right. exists c, r. repeat split; try lia. exact Hr. }
  destruct (Z.lt_ge_cases z 0) as [Hn|Hp].
  - rewrite show_int_neg by exact Hn. exists [45], (show_int (- z)), [], []. rewrite !app_nil_r. repeat split; try (left; reflexivity); [right; reflexivity|].
    apply G. lia.
  - exists [], (show_int z), [], []. rewrite !app_nil_r. repeat split; try (left; reflexivity). apply G. lia.
Qed.

(** ** Steps *)

Section Step.
Context (alnum : Z -> bool).
Notation step := (step alnum).
Notation next := (next alnum).

(** [reads st k v r]: the next token is [k] with value [v] (of a string or number), and [r] remains. *)
Definition reads (st : tstate) (k : token) (v r : str) : Prop :=
  exists st', next st = Ret (st', Ok tt) /\ t_token st' = k /\ t_rest st' = r /\ (k = KString \/ k = KNumber -> tok_value st' = v).

Lemma reads_string st s k : Forall (fun c => is_char c = true /\ c <> 0) s -> t_rest st = string_text s ++ k -> reads st KString (flat_map reread s) k.
Proof.
  intros F E. unfold reads, JsonModel.next. rewrite E. unfold string_text. cbn [app skip_whitespace]. change (is_whitespace 34) with false. cbv iota.
  rewrite <- app_assoc. cbn [app].
  change (exists st', match_string st (34 :: flat_map char_text s ++ 34 :: k) = Ret (st', Ok tt) /\
    t_token st' = KString /\ t_rest st' = k /\ (KString = KString \/ KString = KNumber -> tok_value st' = flat_map reread s)).
  rewrite match_string_eq, sloop_string by exact F. cbn [bind]. eexists. split; [reflexivity|]. cbn. auto.
Qed.

Lemma reads_single st c k r : t_rest st = c :: r ->
  In (c, k) [(91, KBeginArray); (93, KEndArray); (123, KBeginObject); (125, KEndObject); (44, KComma); (58, KColon)] ->
  reads st k [] r.
Proof.
  intros E H. unfold reads, JsonModel.next. rewrite E. cbn [In] in H.
  repeat (destruct H as [H|H]; [injection H as <- <-; eexists; split; [reflexivity|]; cbn; repeat split; intros [X|X]; discriminate|]). destruct H.
Qed.

Lemma reads_keyword st w k r : t_rest st = w ++ r -> separator alnum r ->
  In (w, k) [(lit "null", KNull); (lit "true", KTrue); (lit "false", KFalse)] -> reads st k [] r.
Proof.
  intros E S H.
  assert (X : exists st', match_keyword alnum st w k (w ++ r) = Ret (st', Ok tt) /\ t_token st' = k /\ t_rest st' = r).
  { unfold match_keyword. rewrite keyword_loop_app. destruct r as [|c r]; [eexists; split; [reflexivity|]; auto|].
    destruct S as [S _]. rewrite S. eexists; split; [reflexivity|]; auto. }
  destruct X as (st' & X & Hk & Hr). exists st'. split; [|split; [exact Hk|split; [exact Hr|]]].
  - unfold JsonModel.next. rewrite E. cbn [In] in H.
    destruct H as [H|H]; [injection H as <- <-; exact X|]. destruct H as [H|H]; [injection H as <- <-; exact X|]. destruct H as [H|H]; [injection H as <- <-; exact X|]. destruct H.
  - cbn [In] in H. intros Y. exfalso. destruct H as [H|[H|[H|[]]]]; injection H as _ <-; destruct Y; discriminate.
Qed.

Lemma separator_no_digit r : separator alnum r -> no_digit r.
Proof.
  destruct r as [|c r]; [intros _; exact I|]. cbn. intros [H _] X. unfold is_alphanumeric in H.
  replace (c <? 128) with true in H by lia. lia.
Qed.

Lemma separator_no_exp r : separator alnum r -> no_exp r.
Proof.
  destruct r as [|c r]; [intros _; exact I|]. cbn. intros [H _]. split; intros ->; discriminate H.
Qed.

Lemma separator_no_dot r : separator alnum r -> no_dot r.
Proof. destruct r as [|c r]; [intros _; exact I|]. cbn. tauto. Qed.

Lemma number_body_lexeme p r : number_lexeme p -> separator alnum r -> number_body (p ++ r) = (r, Ok tt).
Proof.
  intros (sg & i & f & e & -> & Hsg & Hi & Hf & He) S. rewrite <- !app_assoc.
  pose proof (separator_no_digit r S) as D. pose proof (separator_no_dot r S) as Dt. pose proof (separator_no_exp r S) as Ex.
  rewrite number_body_parts; try assumption.
  - destruct He as [->|(c & g & ds & -> & Hc & Hg & Hne & F)]; cbn [app].
    + destruct r as [|c r]; [reflexivity|]. cbn in Ex. replace ((c =? 101) || (c =? 69)) with false by lia. reflexivity.
    + replace ((c =? 101) || (c =? 69)) with true by lia. cbv zeta. rewrite <- app_assoc. destruct ds as [|d ds]; [congruence|].
      inversion F as [|? ? Hd F']; subst.
      assert (E : match g ++ (d :: ds) ++ r with c' :: s'' => if (c' =? 43) || (c' =? 45) then s'' else g ++ (d :: ds) ++ r | [] => g ++ (d :: ds) ++ r end = (d :: ds) ++ r).
      { destruct Hg as [->|[->| ->]]; cbn [app]; try reflexivity. replace ((d =? 43) || (d =? 45)) with false by lia. reflexivity. }
      rewrite E. rewrite digits_app by assumption. cbn [app]. replace (is_digit d) with true by (symmetry; apply is_digit_iff; lia). reflexivity.
  - right. destruct Hf as [->|(ds & -> & _)]; [cbn [app]; apply no_digit_exp; assumption|cbn; lia].
  - intros _. apply no_dot_exp; assumption.
  - intros _. apply no_digit_exp; assumption.
Qed.

Lemma next_number st c s : t_rest st = c :: s -> c = 45 \/ 48 <= c <= 57 -> next st = match_number st (c :: s).
Proof.
  intros E Hc. unfold JsonModel.next. rewrite E. cbn [skip_whitespace].
  assert (W : is_whitespace c = false).
  { unfold is_whitespace. lia. }
  rewrite W.
  repeat (match goal with |- (if c =? ?n then _ else _) = _ => destruct (Z.eqb_spec c n); [try lia; try reflexivity|] end).
  replace (is_digit c) with true by (symmetry; apply is_digit_iff; lia). reflexivity.
Qed.

Lemma reads_number st p r : t_rest st = p ++ r -> number_lexeme p -> separator alnum r -> reads st KNumber p r.
Proof.
  intros E N S. destruct (number_head p N) as (c & x & -> & Hc). pose proof (number_body_lexeme _ r N S) as B.
  unfold reads. rewrite (next_number st c (x ++ r)) by (assumption || exact E). unfold match_number.
  change (c :: x ++ r) with ((c :: x) ++ r). rewrite B, (text_between_app (c :: x) r).
  eexists; split; [reflexivity|]. auto.
Qed.

End Step.
