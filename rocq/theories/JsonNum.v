(** * JSON number tokens *)

From Coq Require Import ZifyBool ZifyNat ZifyN.
From Verif Require Import Base BaseFacts StrModel StrFacts Utf8Model TypesModel MarshalModel MarshalSpec JsonModel JsonSpec JsonLex.
Local Open Scope Z_scope.
Ltac Zify.zify_post_hook ::= Z.div_mod_to_equations.

Definition no_digit (s : str) : Prop := match s with [] => True | c :: _ => ~ 48 <= c <= 57 end.
Definition no_dot (s : str) : Prop := match s with [] => True | c :: _ => c <> 46 end.
Definition no_exp (s : str) : Prop := match s with [] => True | c :: _ => c <> 101 /\ c <> 69 end.

(** What [number_body] finds: the parts and what stops each of them. *)
Lemma number_body_cases s :
  match number_body s with
  | (r, Ok _) =>
      exists sg i f e, s = sg ++ i ++ f ++ e ++ r /\ sign_part sg /\ int_part i /\ frac_part f /\ exp_part e /\
        (i = [48] \/ no_digit (f ++ e ++ r)) /\
        (f = [] -> no_dot (e ++ r)) /\ (f <> [] -> no_digit (e ++ r)) /\
        (e = [] -> no_exp r) /\ (e <> [] -> no_digit r)
  | (r, Err ENumber) => exists sg, s = sg ++ r /\ sign_part sg /\ no_digit r /\ (sg = [] -> match r with [] => True | c :: _ => c <> 45 end)
  | (_, Err EExponent) =>
      exists sg i f r, s = sg ++ i ++ f ++ r /\ sign_part sg /\ int_part i /\ frac_part f /\ dangling_exponent r
  | (_, Err _) => False
  end.
Proof.
  unfold number_body.
  assert (Hs : exists sg s1, s = sg ++ s1 /\ sign_part sg /\ match s with c :: s' => if c =? 45 then s' else s | [] => s end = s1 /\
    (sg = [] -> match s1 with [] => True | c :: _ => c <> 45 end)).
  { destruct s as [|c s]; [exists [], []; repeat split; left; reflexivity|]. destruct (Z.eqb_spec c 45) as [->|N].
    - exists [45], s. repeat split; [right; reflexivity|discriminate].
    - exists [], (c :: s). repeat split; [left; reflexivity|]. intros _; exact N. }
  destruct Hs as (sg & s1 & -> & Hsg & -> & Hsg1).
  assert (Hi : (exists i s2, s1 = i ++ s2 /\ int_part i /\ (i = [48] \/ no_digit s2) /\
      match s1 with c :: s' => if c =? 48 then Some s' else if is_digit c then Some (digits s') else None | [] => None end = Some s2) \/
      (no_digit s1 /\ match s1 with c :: s' => if c =? 48 then Some s' else if is_digit c then Some (digits s') else None | [] => None end = None)).
  { destruct s1 as [|c s1]; [right; split; [exact I|reflexivity]|]. destruct (Z.eqb_spec c 48) as [->|N].
    - left. exists [48], s1. repeat split; left; reflexivity.
    - destruct (is_digit c) eqn:D.
      + left. destruct (digits_split s1) as (ds & E & F & St). exists (c :: ds), (digits s1). apply is_digit_iff in D.
        repeat split; [cbn [app]; f_equal; exact E|right; exists c, ds; repeat split; [lia|lia|exact F]|right; exact St].
      + right. split; [|reflexivity]. cbn. intros X. apply is_digit_iff in X. congruence. }
  destruct Hi as [(i & s2 & -> & Hi & Hi2 & ->)|(Hn & ->)].
  2:{ exists sg. repeat split; assumption. }
  cbv zeta.
  assert (Hf : exists f s3, s2 = f ++ s3 /\ frac_part f /\ match s2 with c :: s' => if c =? 46 then digits s' else s2 | [] => s2 end = s3 /\
     (f = [] -> no_dot s3) /\ (f <> [] -> no_digit s3)).
  { destruct s2 as [|c s2]; [exists [], []; repeat split; left; reflexivity|]. destruct (Z.eqb_spec c 46) as [->|N].
    - destruct (digits_split s2) as (ds & E & F & St). exists (46 :: ds), (digits s2).
      repeat split; [cbn [app]; f_equal; exact E|right; exists ds; split; [reflexivity|exact F]|discriminate|intros _; exact St].
    - exists [], (c :: s2). repeat split; [left; reflexivity|intros _; exact N|tauto]. }
  destruct Hf as (f & s3 & -> & Hf & -> & Hf1 & Hf2).
  destruct s3 as [|c s3].
  { exists sg, i, f, []. cbn [app]. repeat split; try assumption; try (left; reflexivity); tauto. }
  destruct ((c =? 101) || (c =? 69)) eqn:Ec.
  2:{ exists sg, i, f, []. cbn [app]. repeat split; try assumption; try (left; reflexivity); try lia; tauto. }
  assert (He : c = 101 \/ c = 69) by lia. clear Ec.
  assert (Hg : exists g s4, s3 = g ++ s4 /\ (g = [] \/ g = [43] \/ g = [45]) /\
     match s3 with c' :: s'' => if (c' =? 43) || (c' =? 45) then s'' else s3 | [] => s3 end = s4 /\
     (g = [] -> match s4 with [] => True | c :: _ => c <> 43 /\ c <> 45 end)).
  { destruct s3 as [|c' s3]; [exists [], []; repeat split; left; reflexivity|]. destruct ((c' =? 43) || (c' =? 45)) eqn:E.
    - exists [c'], s3. assert (c' = 43 \/ c' = 45) as [->| ->] by lia; repeat split; try discriminate; tauto.
    - exists [], (c' :: s3). repeat split; [left; reflexivity|lia|lia]. }
  destruct Hg as (g & s4 & -> & Hg & -> & Hg1).
  destruct s4 as [|c4 s4].
  { exists sg, i, f, (c :: g ++ []). repeat split; try assumption. exists c, g, []. repeat split; try assumption. }
  destruct (is_digit c4) eqn:D.
  - destruct (digits_split (c4 :: s4)) as (ds & E & F & St).
    exists sg, i, f, (c :: g ++ ds). split; [|split; [exact Hsg|split; [exact Hi|split; [exact Hf|split; [|split; [|split; [|split; [|split]]]]]]]].
    + rewrite E at 1. cbn [app]. rewrite <- !app_assoc. reflexivity.
    + right. exists c, g, ds. repeat split; try assumption. intros ->. cbn [app] in E. rewrite <- E in St.
      apply is_digit_iff in D. tauto.
    + destruct Hi2 as [->|Hi2]; [left; reflexivity|right]. revert Hi2. destruct f; cbn [app no_digit]; auto.
    + intros ->. cbn [app no_dot] in *. lia.
    + intros _. cbn [app no_digit]. lia.
    + discriminate.
    + intros _. exact St.
  - exists sg, i, f, (c :: g ++ c4 :: s4). repeat split; try assumption. exists c, g, (c4 :: s4).
    split; [reflexivity|]. split; [exact He|]. split; [exact Hg|]. split; [|exact Hg1].
    intros X. apply is_digit_iff in X. congruence.
Qed.

(** ** Comparing two ways to split a text *)

Lemma app_inj_length {A} (a b x y : list A) : a ++ x = b ++ y -> length a = length b -> a = b /\ x = y.
Proof.
  revert b; induction a as [|c a IH]; intros [|d b] E L; try discriminate; [auto|].
  injection E as <- E. injection L as L. destruct (IH b E L) as [-> ->]. auto.
Qed.

Lemma digit_run ds : forall ds' x x', all_digits ds -> all_digits ds' -> ds ++ x = ds' ++ x' -> no_digit x ->
  exists d2, ds = ds' ++ d2 /\ x' = d2 ++ x.
Proof.
  induction ds as [|c ds IH]; intros ds' x x' F F' E Hx.
  - destruct ds' as [|c' ds']; [exists []; split; [reflexivity|cbn in *; congruence]|]. cbn [app] in E. subst x.
    inversion F'; subst. cbn in Hx. tauto.
  - destruct ds' as [|c' ds']; [exists (c :: ds); split; [reflexivity|cbn in *; congruence]|].
    cbn [app] in E. injection E as <- E. inversion F; subst. inversion F'; subst.
    destruct (IH ds' x x') as (d2 & -> & ->); try assumption. exists d2. split; reflexivity.
Qed.

Lemma sign_unique sg sg' i i' x x' : sign_part sg -> sign_part sg' -> int_part i -> int_part i' ->
  sg ++ i ++ x = sg' ++ i' ++ x' -> sg = sg' /\ i ++ x = i' ++ x'.
Proof.
  intros [-> | ->] [-> | ->] Hi Hi' E; cbn [app] in *; auto.
  - destruct Hi as [->|(c & ds & -> & Hc & _)]; cbn [app] in E; injection E as E1 E2; lia.
  - destruct Hi' as [->|(c & ds & -> & Hc & _)]; cbn [app] in E; injection E as E1 E2; lia.
  - injection E as E. auto.
Qed.

Lemma frac_exp_head f e : frac_part f -> exp_part e -> f ++ e = [] \/ exists c r, f ++ e = c :: r /\ ~ 48 <= c <= 57.
Proof.
  intros [-> |(ds & -> & _)] [-> |(x & sg & ds' & -> & Hx & _)]; cbn [app]; auto; right; eexists; eexists; (split; [reflexivity|lia]).
Qed.

Lemma exp_head e : exp_part e -> e = [] \/ exists c r, e = c :: r /\ (c = 101 \/ c = 69).
Proof. intros [-> |(x & sg & ds' & -> & Hx & _)]; auto. right. eexists; eexists; split; [reflexivity|exact Hx]. Qed.

(** The lexeme found is the longest. *)
Lemma parts_longest sg i f e r sg' i' f' e' r' :
  sg ++ i ++ f ++ e ++ r = sg' ++ i' ++ f' ++ e' ++ r' ->
  sign_part sg -> int_part i -> frac_part f -> exp_part e ->
  sign_part sg' -> int_part i' -> frac_part f' -> exp_part e' ->
  (i = [48] \/ no_digit (f ++ e ++ r)) ->
  (f = [] -> no_dot (e ++ r)) -> (f <> [] -> no_digit (e ++ r)) ->
  (e = [] -> no_exp r) -> (e <> [] -> no_digit r) ->
  (length (sg' ++ i' ++ f' ++ e') <= length (sg ++ i ++ f ++ e))%nat.
Proof.
  intros E Hsg Hi Hf He Hsg' Hi' Hf' He' S1 S2 S3 S4 S5.
  apply sign_unique in E; try assumption. destruct E as [-> E]. rewrite !app_length.
  (* integer part *)
  assert (Ei : i = i' /\ f ++ e ++ r = f' ++ e' ++ r' \/ ((length i' <= length i)%nat /\ f' = [] /\ e' = [])).
  { destruct Hi as [->|(c & ds & -> & Hc & F)], Hi' as [->|(c' & ds' & -> & Hc' & F')]; cbn [app] in E.
    - injection E as E. left; auto.
    - injection E as E1 E2; lia.
    - injection E as E1 E2; lia.
    - injection E as <- E. destruct S1 as [S1|S1]; [injection S1 as -> ->; lia|].
      destruct (digit_run ds ds' _ _ F F' E S1) as (d2 & -> & E2). destruct d2 as [|d d2].
      + left. rewrite app_nil_r. split; [reflexivity|symmetry; exact E2].
      + right. split; [cbn; rewrite app_length; cbn; lia|].
        apply Forall_app in F. destruct F as [_ F]. inversion F as [|? ? Hd]; subst.
        destruct (frac_exp_head f' e' Hf' He') as [X|(c0 & r0 & X & Hc0)]; [apply app_eq_nil in X; exact X|].
        rewrite app_assoc, X in E2. cbn [app] in E2. injection E2 as -> _. lia. }
  destruct Ei as [[-> E']|(L & -> & ->)]; [clear E|cbn [length]; lia].
  (* fraction *)
  assert (Ef : f = f' /\ e ++ r = e' ++ r' \/ ((length f' <= length f)%nat /\ e' = [])).
  { destruct Hf as [->|(ds & -> & F)], Hf' as [->|(ds' & -> & F')]; cbn [app] in E'.
    - left; auto.
    - specialize (S2 eq_refl). rewrite E' in S2. cbn in S2. congruence.
    - right. split; [cbn; lia|]. destruct (exp_head e' He') as [->|(c & r0 & -> & Hc)]; [reflexivity|]. cbn [app] in E'. injection E' as <- _. lia.
    - injection E' as E'. destruct (digit_run ds ds' _ _ F F' E') as (d2 & -> & E2); [apply S3; discriminate|]. destruct d2 as [|d d2].
      + left. rewrite app_nil_r. split; [reflexivity|symmetry; exact E2].
      + right. split; [cbn; rewrite app_length; cbn; lia|].
        apply Forall_app in F. destruct F as [_ F]. inversion F as [|? ? Hd]; subst.
        destruct (exp_head e' He') as [->|(c & r0 & -> & Hc)]; [reflexivity|]. cbn [app] in E2. injection E2 as -> _. lia. }
  destruct Ef as [[-> E2]|(L & ->)]; [clear E'|cbn [length]; lia].
  (* exponent *)
  destruct He as [->|(x & g & ds & -> & Hx & Hg & Hne & F)], He' as [->|(x' & g' & ds' & -> & Hx' & Hg' & Hne' & F')]; cbn [app length] in *; try lia.
  - specialize (S4 eq_refl). rewrite E2 in S4. cbn in S4. lia.
  - injection E2 as <- E2. specialize (S5 ltac:(discriminate)). rewrite <- !app_assoc in E2.
    assert (Eg : g = g' /\ ds ++ r = ds' ++ r').
    { destruct ds as [|d ds]; [congruence|]. destruct ds' as [|d' ds']; [congruence|].
      inversion F; subst. inversion F'; subst.
      destruct Hg as [->|[->| ->]], Hg' as [->|[->| ->]]; cbn [app] in E2; injection E2 as; subst; try lia; split; cbn [app]; congruence. }
    destruct Eg as [-> E3]. destruct (digit_run ds ds' _ _ F F' E3 S5) as (d2 & -> & _). rewrite !app_length. lia.
Qed.

Lemma number_body_parts sg i f x : sign_part sg -> int_part i -> frac_part f ->
  (i = [48] \/ no_digit (f ++ x)) -> (f = [] -> no_dot x) -> (f <> [] -> no_digit x) ->
  number_body (sg ++ i ++ f ++ x) =
      match x with
      | c :: s' =>
          if (c =? 101) || (c =? 69) then
            let s4 := match s' with c' :: s'' => if (c' =? 43) || (c' =? 45) then s'' else s' | [] => s' end in
            match s4 with
            | c' :: _ => if is_digit c' then (digits s4, Ok tt) else (s4, Err EExponent)
            | [] => (s4, Err EExponent)
            end
          else (x, Ok tt)
      | [] => (x, Ok tt)
      end.
Proof.
  intros Hsg Hi Hf S1 S2 S3. unfold number_body.
  assert (E1 : match sg ++ i ++ f ++ x with c :: s' => if c =? 45 then s' else sg ++ i ++ f ++ x | [] => sg ++ i ++ f ++ x end = i ++ f ++ x).
  { destruct Hsg as [->| ->]; cbn [app]; [|reflexivity]. destruct Hi as [->|(c & ds & -> & Hc & _)]; cbn [app]; [reflexivity|].
    destruct (Z.eqb_spec c 45); [lia|reflexivity]. }
  rewrite E1. cbv zeta. clear E1.
  assert (E2 : match i ++ f ++ x with c :: s' => if c =? 48 then Some s' else if is_digit c then Some (digits s') else None | [] => None end = Some (f ++ x)).
  { destruct Hi as [->|(c & ds & -> & Hc & F)]; cbn [app]; [reflexivity|].
    destruct (Z.eqb_spec c 48); [lia|]. replace (is_digit c) with true by (symmetry; apply is_digit_iff; lia).
    f_equal. apply digits_app; [exact F|]. destruct S1 as [S1|S1]; [injection S1 as -> ->; lia|exact S1]. }
  rewrite E2. clear E2.
  assert (E3 : match f ++ x with c :: s' => if c =? 46 then digits s' else f ++ x | [] => f ++ x end = x).
  { destruct Hf as [->|(ds & -> & F)]; cbn [app].
    - destruct x as [|c x]; [reflexivity|]. specialize (S2 eq_refl). cbn in S2. destruct (Z.eqb_spec c 46); [congruence|reflexivity].
    - change (46 =? 46) with true. cbv iota. apply digits_app; [exact F|]. apply S3. discriminate. }
  rewrite E3. reflexivity.
Qed.

Lemma incomplete_is_error s : incomplete_exponent s -> snd (number_body s) = Err EExponent.
Proof.
  intros (sg & i & f & r & -> & Hsg & Hi & Hf & c & g & r0 & -> & Hc & Hg & Hr & Hg1).
  rewrite number_body_parts; try assumption.
  - replace ((c =? 101) || (c =? 69)) with true by lia. cbv zeta.
    assert (E : match g ++ r0 with c' :: s'' => if (c' =? 43) || (c' =? 45) then s'' else g ++ r0 | [] => g ++ r0 end = r0).
    { destruct Hg as [->|[->| ->]]; cbn [app]; try reflexivity. destruct r0 as [|d r0]; [reflexivity|].
      specialize (Hg1 eq_refl). cbn in Hg1. replace ((d =? 43) || (d =? 45)) with false by lia. reflexivity. }
    rewrite E. destruct r0 as [|d r0]; [reflexivity|]. destruct (is_digit d) eqn:D; [apply is_digit_iff in D; tauto|reflexivity].
  - destruct Hf as [->|(ds & -> & _)]; right; cbn; lia.
  - intros _. cbn. lia.
  - intros _. cbn. lia.
Qed.

Lemma number_ok s r : number_body s = (r, Ok tt) ->
  exists p, s = p ++ r /\ longest_number s p /\ ~ incomplete_exponent s.
Proof.
  intros H. pose proof (number_body_cases s) as C. rewrite H in C.
  destruct C as (sg & i & f & e & E & Hsg & Hi & Hf & He & S1 & S2 & S3 & S4 & S5).
  exists (sg ++ i ++ f ++ e). split; [rewrite E, <- !app_assoc; reflexivity|]. split; [split; [|split]|].
  - exists sg, i, f, e. repeat split; assumption.
  - exists r. rewrite E, <- !app_assoc. reflexivity.
  - intros p' r' E' (sg' & i' & f' & e' & -> & Hsg' & Hi' & Hf' & He').
    eapply (parts_longest sg i f e r sg' i' f' e' r'); try eassumption. rewrite <- E, E', <- !app_assoc. reflexivity.
  - intros X. apply incomplete_is_error in X. rewrite H in X. discriminate.
Qed.

Lemma number_err s r e : number_body s = (r, Err e) ->
  e = ENumber /\ (forall p r', s = p ++ r' -> ~ number_lexeme p) \/ e = EExponent /\ incomplete_exponent s.
Proof.
  intros H. pose proof (number_body_cases s) as C. rewrite H in C. destruct e; try contradiction.
  - left. split; [reflexivity|]. destruct C as (sg & -> & Hsg & Hr & Hd).
    intros p r' E (sg' & i' & f' & e' & -> & Hsg' & Hi' & _). rewrite <- !app_assoc in E.
    assert (Hx : exists c x, i' ++ f' ++ e' ++ r' = c :: x /\ 48 <= c <= 57).
    { destruct Hi' as [->|(c & ds & -> & Hc & _)]; cbn [app]; eexists; eexists; (split; [reflexivity|lia]). }
    destruct Hx as (c & x & Ex & Hc). rewrite Ex in E.
    destruct Hsg as [->| ->], Hsg' as [->| ->]; cbn [app] in E.
    + subst r. cbn in Hr. tauto.
    + subst r. specialize (Hd eq_refl). cbn in Hd. congruence.
    + injection E as <- _. lia.
    + injection E as ->. cbn in Hr. tauto.
  - right. split; [reflexivity|]. exact C.
Qed.

Lemma number_iff s r : number_body s = (r, Ok tt) <-> exists p, s = p ++ r /\ longest_number s p /\ ~ incomplete_exponent s.
Proof.
  split; [apply number_ok|]. intros (p & E & Hp & Hi).
  destruct (number_body s) as [r0 [[]|e]] eqn:H.
  - apply number_ok in H. destruct H as (p0 & E0 & Hp0 & _).
    assert (L : length p = length p0).
    { apply Nat.le_antisymm; [apply Hp0 with r|apply Hp with r0]; try assumption; [apply Hp|apply Hp0]. }
    rewrite E0 in E. apply app_inj_length in E; [|lia]. destruct E as [_ ->]. reflexivity.
  - apply number_err in H. destruct H as [(-> & H)|(-> & H)]; [|contradiction]. exfalso. apply (H p r E). apply Hp.
Qed.

Lemma number_error_iff s : (exists r e, number_body s = (r, Err e)) <->
  (forall p r, s = p ++ r -> ~ number_lexeme p) \/ incomplete_exponent s.
Proof.
  split.
  - intros (r & e & H). apply number_err in H. tauto.
  - destruct (number_body s) as [r0 [[]|e]] eqn:H; [|eauto]. apply number_ok in H. destruct H as (p & -> & Hp & Hi).
    intros [X|X]; [exfalso; apply (X p r0 eq_refl); apply Hp|contradiction].
Qed.
