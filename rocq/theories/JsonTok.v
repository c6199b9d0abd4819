(** * Single steps of the JSON tokenizer *)

From Coq Require Import ZifyBool ZifyNat ZifyN.
From Verif Require Import Base BaseFacts StrModel StrFacts Utf8Model Utf8Facts TypesModel MarshalModel MarshalSpec JsonModel JsonSpec JsonLex JsonNum.
Local Open Scope Z_scope.
Ltac Zify.zify_post_hook ::= Z.div_mod_to_equations.

Section Tok.
Context (alnum : Z -> bool).

Lemma keyword_loop_suffix target : forall s, exists pre, s = pre ++ fst (keyword_loop target s).
Proof.
  induction target as [|c target IH]; intros s; [exists []; reflexivity|]. cbn [keyword_loop].
  destruct s as [|c' s]; [exists []; reflexivity|]. destruct (c' =? c); [|exists []; reflexivity].
  destruct (IH s) as (pre & E). exists (c' :: pre). cbn [app]. f_equal. exact E.
Qed.

Lemma keyword_loop_true target : forall s r, keyword_loop target s = (r, true) -> s = target ++ r.
Proof.
  induction target as [|c target IH]; intros s r H; [injection H as ->; reflexivity|]. cbn [keyword_loop] in H.
  destruct s as [|c' s]; [discriminate|]. destruct (Z.eqb_spec c' c) as [->|]; [|discriminate]. cbn [app]. f_equal. apply IH. exact H.
Qed.

Lemma keyword_loop_app target : forall r, keyword_loop target (target ++ r) = (r, true).
Proof. induction target as [|c target IH]; intros r; [reflexivity|]. cbn [keyword_loop app]. rewrite Z.eqb_refl. apply IH. Qed.

(** What [match_keyword] returns. *)
Lemma match_keyword_shape st target k s :
  exists st' r, match_keyword alnum st target k s = Ret (st', r) /\ (exists pre, s = pre ++ t_rest st' /\ (r = Ok tt -> pre = target)) /\
    (r = Ok tt -> t_token st' = k).
Proof.
  unfold match_keyword. destruct (keyword_loop_suffix target s) as (pre & E). destruct (keyword_loop target s) as [s' b] eqn:K. cbn [fst] in E.
  destruct b.
  - apply keyword_loop_true in K. destruct s' as [|c s'].
    + eexists; eexists; split; [reflexivity|]. cbn. split; [exists target; split; [exact K|reflexivity]|reflexivity].
    + destruct (is_alphanumeric alnum c).
      * eexists; eexists; split; [reflexivity|]. cbn. split; [exists pre; split; [exact E|discriminate]|discriminate].
      * eexists; eexists; split; [reflexivity|]. cbn. split; [exists target; split; [exact K|reflexivity]|reflexivity].
  - eexists; eexists; split; [reflexivity|]. cbn. split; [exists pre; split; [exact E|discriminate]|discriminate].
Qed.

Lemma match_string_shape st s st' r : match_string st (34 :: s) = Ret (st', r) ->
  (exists pre, 34 :: s = pre ++ t_rest st' /\ pre <> []) /\ (r = Ok tt -> t_token st' = KString).
Proof.
  rewrite match_string_eq. destruct (sloop s []) as [[[s' buf] r']| |] eqn:E; try discriminate. cbn [bind].
  destruct (sloop_suffix _ _ _ _ _ _ (le_n _) E) as (pre & ->).
  destruct r' as [[]|e].
  - intros H; injection H as <- <-. cbn. split; [exists (34 :: pre); split; [reflexivity|discriminate]|reflexivity].
  - destruct e; intros H; injection H as <- <-; cbn; (split; [exists (34 :: pre); split; [reflexivity|discriminate]|discriminate]).
Qed.

Lemma number_body_suffix s : exists pre, s = pre ++ fst (number_body s).
Proof.
  unfold number_body.
  set (s1 := match s with c :: s' => if c =? 45 then s' else s | [] => s end).
  assert (H1 : exists pre, s = pre ++ s1).
  { unfold s1. destruct s as [|c s]; [exists []; reflexivity|]. destruct (c =? 45); [exists [c]|exists []]; reflexivity. }
  destruct H1 as (p1 & E1).
  assert (HD : forall x, exists pre, x = pre ++ digits x) by (intros x; destruct (digits_split x) as (ds & E & _); eauto).
  destruct (match s1 with c :: s' => if c =? 48 then Some s' else if is_digit c then Some (digits s') else None | [] => None end) as [s2|] eqn:E2.
  2:{ exists p1. exact E1. }
  assert (H2 : exists pre, s1 = pre ++ s2).
  { destruct s1 as [|c x]; [discriminate|]. destruct (c =? 48); [injection E2 as <-; exists [c]; reflexivity|].
    destruct (is_digit c); [|discriminate]. injection E2 as <-. destruct (HD x) as (pre & E). exists (c :: pre). cbn [app]. f_equal; exact E. }
  destruct H2 as (p2 & E2'). cbv zeta.
  set (s3 := match s2 with c :: s' => if c =? 46 then digits s' else s2 | [] => s2 end).
  assert (H3 : exists pre, s2 = pre ++ s3).
  { unfold s3. destruct s2 as [|c x]; [exists []; reflexivity|]. destruct (c =? 46); [|exists []; reflexivity].
    destruct (HD x) as (pre & E). exists (c :: pre). cbn [app]. f_equal; exact E. }
  destruct H3 as (p3 & E3). clearbody s3.
  assert (H13 : s = (p1 ++ p2 ++ p3) ++ s3) by (rewrite E1, E2', E3, <- !app_assoc; reflexivity).
  clear - H13 HD. destruct s3 as [|c x]; [eexists; exact H13|]. destruct ((c =? 101) || (c =? 69)); [|eexists; exact H13].
  set (s4 := match x with c' :: s'' => if (c' =? 43) || (c' =? 45) then s'' else x | [] => x end).
  assert (H4 : exists pre, x = pre ++ s4).
  { unfold s4. destruct x as [|c' x]; [exists []; reflexivity|]. destruct ((c' =? 43) || (c' =? 45)); [exists [c']|exists []]; reflexivity. }
  destruct H4 as (p4 & E4). clearbody s4.
  assert (H14 : s = ((p1 ++ p2 ++ p3) ++ c :: p4) ++ s4) by (rewrite H13, E4, <- !app_assoc; reflexivity).
  destruct s4 as [|c4 y]; [eexists; exact H14|]. destruct (is_digit c4); [|eexists; exact H14].
  destruct (HD (c4 :: y)) as (p5 & E5). eexists. cbn [fst]. rewrite H14. rewrite E5 at 1. rewrite app_assoc. reflexivity.
Qed.

Lemma match_number_shape st c s : c = 45 \/ is_digit c = true -> exists st' r, match_number st (c :: s) = Ret (st', r) /\
  (exists pre, c :: s = pre ++ t_rest st' /\ (r = Ok tt -> pre <> [])) /\ (r = Ok tt -> t_token st' = KNumber).
Proof.
  intros Hc. unfold match_number. destruct (number_body_suffix (c :: s)) as (pre & E). pose proof (number_ok (c :: s)) as N.
  destruct (number_body (c :: s)) as [s' [[]|e]]; cbn [fst] in E; eexists; eexists; (split; [reflexivity|]); cbn.
  - split; [|reflexivity]. exists pre. split; [exact E|]. intros _ ->. cbn [app] in E. subst s'.
    destruct (N (c :: s) eq_refl) as (p & Ep & (L & _) & _). destruct p; [|apply (f_equal (@length _)) in Ep; rewrite app_length in Ep; cbn in Ep; lia].
    destruct L as (sg & i & f & e & X & _ & Hi & _). symmetry in X. apply app_eq_nil in X. destruct X as [_ X]. apply app_eq_nil in X. destruct X as [-> _].
    destruct Hi as [Hi|(? & ? & Hi & _)]; discriminate.
  - split; [|discriminate]. exists pre. split; [exact E|discriminate].
Qed.

(** Every way [next] can go. *)
Ltac next_cases :=
  match goal with |- context [if ?b then _ else _] => match b with (_ =? _) => destruct b eqn:?Ek end end.

Lemma next_shape st :
  (next alnum st = Panic /\ exists s, skip_whitespace (t_rest st) = 34 :: s /\ sloop s [] = Panic) \/
  exists st' r, next alnum st = Ret (st', r) /\
    (exists pre, skip_whitespace (t_rest st) = pre ++ t_rest st' /\ (r = Ok tt -> t_token st' <> KEof -> pre <> [])) /\
    (r = Ok tt -> t_token st' = KEof -> skip_whitespace (t_rest st) = []).
Proof.
  unfold next. destruct (skip_whitespace (t_rest st)) as [|c s] eqn:W.
  { right. eexists; eexists; split; [reflexivity|]. cbn. split; [exists []; split; [reflexivity|congruence]|reflexivity]. }
  assert (SC : forall k s', s' = s -> k <> KEof -> exists st' r, single_char_token st k s' = Ret (st', r) /\
    (exists pre, c :: s = pre ++ t_rest st' /\ (r = Ok tt -> t_token st' <> KEof -> pre <> [])) /\ (r = Ok tt -> t_token st' = KEof -> c :: s = [])).
  { intros k s' -> Hk. eexists; eexists; split; [reflexivity|]. cbn. split; [exists [c]; split; [reflexivity|discriminate]|congruence]. }
  assert (KW : forall x target k, k <> KEof -> exists st' r, match_keyword alnum st (x :: target) k (c :: s) = Ret (st', r) /\
    (exists pre, c :: s = pre ++ t_rest st' /\ (r = Ok tt -> t_token st' <> KEof -> pre <> [])) /\ (r = Ok tt -> t_token st' = KEof -> c :: s = [])).
  { intros x target k Hk. destruct (match_keyword_shape st (x :: target) k (c :: s)) as (st' & r & E & (pre & Ep & Hp) & Ht).
    exists st', r. split; [exact E|]. split; [exists pre; split; [exact Ep|]|].
    - intros Hr _. rewrite Hp by exact Hr. discriminate.
    - intros Hr Hke. rewrite Ht in Hke by exact Hr. contradiction. }
  assert (NU : c = 45 \/ is_digit c = true -> exists st' r, match_number st (c :: s) = Ret (st', r) /\
    (exists pre, c :: s = pre ++ t_rest st' /\ (r = Ok tt -> t_token st' <> KEof -> pre <> [])) /\ (r = Ok tt -> t_token st' = KEof -> c :: s = [])).
  { intros Hc. destruct (match_number_shape st c s Hc) as (st' & r & E & (pre & Ep & Hp) & Ht).
    exists st', r. split; [exact E|]. split; [exists pre; split; [exact Ep|]|].
    - intros Hr _. apply Hp. exact Hr.
    - intros Hr Hke. rewrite Ht in Hke by exact Hr. discriminate. }
  next_cases; [right; apply SC; congruence|]. next_cases; [right; apply SC; congruence|]. next_cases; [right; apply SC; congruence|].
  next_cases; [right; apply SC; congruence|]. next_cases; [right; apply SC; congruence|]. next_cases; [right; apply SC; congruence|].
  next_cases; [right; apply KW; congruence|]. next_cases; [right; apply KW; congruence|]. next_cases; [right; apply KW; congruence|].
  next_cases.
  { apply Z.eqb_eq in Ek8. subst c. rewrite match_string_eq. destruct (sloop s []) as [[[s' buf] r']| |] eqn:E.
    - right. rewrite <- E. assert (X : exists st' r, match_string st (34 :: s) = Ret (st', r)).
      { rewrite match_string_eq, E. cbn [bind]. destruct r' as [|[]]; eauto. }
      destruct X as (st' & r & X). exists st', r. rewrite <- match_string_eq. split; [exact X|].
      apply match_string_shape in X. destruct X as ((pre & Ep & Hp) & Ht). split; [exists pre; auto|].
      intros Hr Hke. rewrite Ht in Hke by exact Hr. discriminate.
    - left. split; [reflexivity|]. exists s. auto.
    - exfalso. exact (sloop_total _ _ _ (le_n _) E). }
  next_cases; [right; apply NU; lia|]. destruct (is_digit c) eqn:D; [right; apply NU; auto|].
  right. eexists; eexists; split; [reflexivity|]. cbn. split; [exists []; split; [reflexivity|discriminate]|discriminate].
Qed.

Lemma next_total st : next alnum st <> Undef.
Proof. destruct (next_shape st) as [(E & _)|(st' & r & E & _)]; rewrite E; discriminate. Qed.

Lemma next_consumes st st' r : next alnum st = Ret (st', r) -> exists pre, t_rest st = pre ++ t_rest st' /\
  (r = Ok tt -> t_token st' <> KEof -> pre <> []).
Proof.
  intros E. destruct (next_shape st) as [(E' & _)|(st2 & r2 & E' & (pre & Ep & Hp) & _)]; rewrite E in E'; [discriminate|].
  injection E' as <- <-. destruct (skip_whitespace_split (t_rest st)) as (w & Ew & _). exists (w ++ pre).
  split; [rewrite <- app_assoc, <- Ep; exact Ew|]. intros Hr Hk X. apply app_eq_nil in X. destruct X as [_ X]. exact (Hp Hr Hk X).
Qed.

Lemma next_eof st st' : next alnum st = Ret (st', Ok tt) ->
  (t_token st' = KEof <-> Forall (fun c => is_whitespace c = true) (t_rest st)).
Proof.
  intros E. destruct (next_shape st) as [(E' & _)|(st2 & r2 & E' & (pre & Ep & Hp) & He)]; rewrite E in E'; [discriminate|].
  injection E' as <- <-. destruct (skip_whitespace_split (t_rest st)) as (w & Ew & Fw). split.
  - intros Hk. rewrite (He eq_refl Hk) in Ew. rewrite app_nil_r in Ew. rewrite Ew. exact Fw.
  - intros F. assert (X : skip_whitespace (t_rest st) = []).
    { rewrite <- (app_nil_r (t_rest st)). apply skip_whitespace_app; [exact F|exact I]. }
    unfold next in E. rewrite X in E. injection E as <-. reflexivity.
Qed.

Lemma next_panic st : next alnum st = Panic <->
  exists w s h1 h2 h3 h4 r, t_rest st = w ++ 34 :: s /\ Forall (fun c => is_whitespace c = true) w /\
    string_chars s (92 :: 117 :: h1 :: h2 :: h3 :: h4 :: r) /\
    Forall hex_char [h1; h2; h3; h4] /\ surrogate (hex_code [h1; h2; h3; h4]).
Proof.
  split.
  - intros E. destruct (next_shape st) as [(_ & s & W & Hp)|(st2 & r2 & E' & _)]; [|congruence].
    destruct (sloop_panic _ _ _ (le_n _) Hp) as (h1 & h2 & h3 & h4 & r & SC & F & Su).
    destruct (skip_whitespace_split (t_rest st)) as (w & Ew & Fw). rewrite W in Ew. exists w, s, h1, h2, h3, h4, r. auto 10.
  - intros (w & s & h1 & h2 & h3 & h4 & r & Ew & Fw & SC & F & Su). unfold next.
    rewrite Ew, skip_whitespace_app by (assumption || reflexivity). 
    change (match_string st (34 :: s) = Panic). rewrite match_string_eq, (sloop_surrogate _ _ _ _ _ _ _ SC F Su). reflexivity.
Qed.

End Tok.
