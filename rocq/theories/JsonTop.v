(** * The JSON statements in the form used by the property files *)

From Coq Require Import Strings.String Permutation ZifyBool ZifyNat ZifyN.
From Verif Require Import Base BaseFacts StrModel StrFacts Utf8Model Utf8Facts TypesModel MarshalModel MarshalSpec LayoutProofs PresentsFacts JsonModel JsonSpec JsonData JsonBits JsonLex JsonNum JsonTok JsonRead JsonEmit JsonParse JsonSound JsonReject.
Ltac Zify.zify_post_hook ::= Z.div_mod_to_equations.
Local Open Scope list_scope.
Local Open Scope Z_scope.

(** ** The encoder sees only the value *)

Lemma emit_same fl t : forall src src' q v, presents src t q v -> presents src' t q v -> emit fl src t q = emit fl src' t q.
Proof.
  assert (G : forall A (g : A -> ty) (h h' : A -> path -> outcome (list byte)) l src src',
     Forall (fun a => forall q v, presents src (g a) q v -> presents src' (g a) q v -> h a q = h' a q) l ->
     forall q k vs, presents_list src (map g l) q k vs -> presents_list src' (map g l) q k vs -> emit_members h l q k = emit_members h' l q k).
  { intros A g h h' l src src' HF. induction HF as [|a l Ha Hl IH]; intros q k vs H1 H2; cbn [map emit_members] in *; [reflexivity|].
    inversion H1; subst. inversion H2; subst. unfold with_component. rewrite (Ha (q ++ [k]) v) by assumption. rewrite (IH q (S k) vs0) by assumption. reflexivity. }
  induction t using ty_ind'; intros src src' q v H1 H2; cbn [emit].
  - reflexivity.
  - inversion H1; subst. inversion H2; subst. unfold emit_prim. congruence.
  - inversion H1; subst. inversion H2; subst. congruence.
  - inversion H1; subst. inversion H2; subst.
    rewrite (G _ (fun t => t) (emit fl src) (emit fl src') ts src src') with (vs := vs); rewrite ?map_id; auto.
    revert H. apply Forall_impl. intros t Ht q' v' A B. apply (Ht _ _ _ v'); assumption.
  - inversion H1; subst. inversion H2; subst.
    erewrite (G _ snd _ _ fs src src') with (vs := vs); auto. revert H. apply Forall_impl. intros [l t] Ht q' v' A B. cbn [fst snd] in *.
    rewrite (Ht _ _ _ v' A B). reflexivity.
  - inversion H1 as [| | | | |? ? k l t v' Hk Hn Hv]; subst. inversion H2 as [| | | | |? ? ? l' t' ? Hk' Hn' Hv']; subst.
    rewrite Hk, Hk'. cbn [bind]. rewrite Hn in Hn'. injection Hn' as <- <-. rewrite Forall_forall in H.
    pose proof (H _ (nth_error_In _ _ Hn) src src' (q ++ [k]) v' Hv Hv') as X. cbn [snd] in X.
    clear - Hn X. assert (C : forall (h : str * ty -> outcome (list byte)) cs j c, nth_error cs j = Some c -> emit_case h cs j = h c).
    { intros h cs0. induction cs0 as [|a cs0 IH]; intros [|j] c Hc; try discriminate; cbn in *; [injection Hc as ->; reflexivity|apply IH; exact Hc]. }
    rewrite !(C _ _ _ _ Hn). cbn [fst snd]. unfold with_component. rewrite X. reflexivity.
Qed.

Lemma emit_decoded fl t : forall src q v, presents src t q v -> decoded t v -> exists bs, emit fl src t q = Ret bs.
Proof.
  assert (G : forall A (g : A -> ty) (h : A -> path -> outcome (list byte)) l src,
     Forall (fun a => forall q v, presents src (g a) q v -> decoded (g a) v -> exists bs, h a q = Ret bs) l ->
     forall q k vs, presents_list src (map g l) q k vs -> decoded_list (map g l) vs -> exists bs, emit_members h l q k = Ret bs).
  { intros A g h l src HF. induction HF as [|a l Ha Hl IH]; intros q k vs H1 H2; cbn [map emit_members] in *; [eexists; reflexivity|].
    inversion H1; subst. inversion H2; subst. unfold with_component. destruct (Ha (q ++ [k]) v) as (b & ->); try assumption. cbn [bind].
    destruct (IH q (S k) vs0) as (b' & ->); try assumption. cbn [bind]. eexists. reflexivity. }
  induction t using ty_ind'; intros src q v H1 H2; cbn [emit].
  - eexists; reflexivity.
  - inversion H1 as [|? ? ? E| | | |]; subst. unfold emit_prim. rewrite E. eexists; reflexivity.
  - inversion H1 as [| |? bs E1 E| | |]; subst. inversion H2 as [| |s Hs E2 E3| | |]; subst. rewrite E. cbn [bind].
    rewrite utf8_decode_encode by exact Hs. eexists; reflexivity.
  - inversion H1; subst. inversion H2; subst.
    destruct (G _ (fun t => t) (emit fl src) ts src) with (q := q) (k := 0%nat) (vs := vs) as (b & ->); rewrite ?map_id; auto.
    + revert H. apply Forall_impl. intros t Ht q' v' A B. eapply Ht; eassumption.
    + cbn [bind]. eexists; reflexivity.
  - inversion H1; subst. inversion H2; subst.
    destruct (G _ snd (fun f q' => b <- emit fl src (snd f) q' ;; Ret (emit_utf8_string (fst f) ++ utf8_encode (lit ":") ++ b)) fs src) with (q := q) (k := 0%nat) (vs := vs) as (b & ->); auto.
    + revert H. apply Forall_impl. intros [l t] Ht q' v' A B. cbn [fst snd] in *. destruct (Ht _ _ _ A B) as (b & ->). eexists; reflexivity.
    + cbn [bind]. eexists; reflexivity.
  - inversion H1 as [| | | | |? ? k l t v' Hk Hn Hv]; subst. inversion H2 as [| | | | |? ? l' t' ? Hn' Hv']; subst.
    rewrite Hk. cbn [bind]. rewrite Hn in Hn'. injection Hn' as <- <-. rewrite Forall_forall in H.
    destruct (H _ (nth_error_In _ _ Hn) src (q ++ [k]) v' Hv Hv') as (b & X). cbn [snd] in X.
    assert (C : forall (h : str * ty -> outcome (list byte)) cs j c, nth_error cs j = Some c -> emit_case h cs j = h c).
    { intros h cs0. induction cs0 as [|a cs0 IH]; intros [|j] c Hc; try discriminate; cbn in *; [injection Hc as ->; reflexivity|apply IH; exact Hc]. }
    rewrite !(C _ _ _ _ Hn). cbn [fst snd]. unfold with_component. rewrite X. eexists; reflexivity.
Qed.

(** ** From the decoder to its parser *)

Section Top.
Context (alnum : Z -> bool) (fl : floats) (pf : profile).

Notation step := (JsonModel.step alnum).
Notation parse := (JsonModel.parse alnum fl pf).
Notation decode := (json_decode alnum fl pf).

(** The next token only depends on the remaining input. *)
Lemma next_rest st st0 : t_rest st = t_rest st0 ->
  match next alnum st, next alnum st0 with
  | Ret (a, Ok _), Ret (b, Ok _) => t_token a = t_token b /\ t_rest a = t_rest b
  | Ret (_, Err e), Ret (_, Err e') => e = e'
  | Panic, Panic => True
  | Undef, Undef => True
  | _, _ => False
  end.
Proof.
  intros E. unfold next. rewrite E. destruct (skip_whitespace (t_rest st0)) as [|c s]; [split; reflexivity|].
  assert (KW : forall w k, match match_keyword alnum st w k (c :: s), match_keyword alnum st0 w k (c :: s) with
    | Ret (a, Ok _), Ret (b, Ok _) => t_token a = t_token b /\ t_rest a = t_rest b
    | Ret (_, Err e), Ret (_, Err e') => e = e' | Panic, Panic => True | Undef, Undef => True | _, _ => False end).
  { intros w k. unfold match_keyword. destruct (keyword_loop w (c :: s)) as [s' [|]]; [|reflexivity].
    destruct s' as [|x s']; [split; reflexivity|]. destruct (is_alphanumeric alnum x); [reflexivity|split; reflexivity]. }
  assert (NU : match match_number st (c :: s), match_number st0 (c :: s) with
    | Ret (a, Ok _), Ret (b, Ok _) => t_token a = t_token b /\ t_rest a = t_rest b
    | Ret (_, Err e), Ret (_, Err e') => e = e' | Panic, Panic => True | Undef, Undef => True | _, _ => False end).
  { unfold match_number. destruct (number_body (c :: s)) as [s' [|]]; [split; reflexivity|reflexivity]. }
  repeat (match goal with |- context [if c =? ?n then _ else _] => destruct (Z.eqb_spec c n) as [->|] end);
    try (split; reflexivity); try apply KW; try apply NU.
  - rewrite !match_string_eq. destruct (sloop s []) as [[[s' buf] [[]|e]]| |]; cbn [bind]; auto. destruct e; reflexivity.
  - destruct (is_digit c); [apply NU|reflexivity].
Qed.

(** Forgetting the tokenizer. *)
Definition finish (x : outcome parsed) : outcome (ds * result unit jerr) :=
  '(d, r) <- x ;; Ret (d, match r with Ok _ => Ok tt | Err e => Err e end).

Lemma decode_step t input old :
  decode t input old =
  match next alnum (tok_init input) with
  | Ret (_, Err e) => Ret (old, Err e)
  | _ => finish (andthen (step (tok_init input) []) (parse t []))
  end.
Proof.
  unfold json_decode, tok_new, JsonModel.step, finish. destruct (next alnum (tok_init input)) as [[st [[]|e]]| |]; reflexivity.
Qed.

Lemma finish_step st d : finish (step st d) =
  match next alnum st with Ret (_, Ok _) => Ret (d, Ok tt) | Ret (_, Err e) => Ret (d, Err e) | Panic => Panic | Undef => Undef end.
Proof. unfold finish, JsonModel.step. destruct (next alnum st) as [[st' [[]|e]]| |]; reflexivity. Qed.

Lemma finish_step_rest st st0 d : t_rest st = t_rest st0 -> finish (step st d) = finish (step st0 d).
Proof.
  intros E. rewrite !finish_step. pose proof (next_rest st st0 E) as H.
  destruct (next alnum st) as [[a [|e]]| |], (next alnum st0) as [[b [|e']]| |]; try contradiction; congruence.
Qed.

(** The first token of a value is valid. *)
Lemma first_token t v x k st : jsonable fl t v -> value_text fl t v x -> boundary alnum t k -> t_rest st = x ++ k ->
  exists st', next alnum st = Ret (st', Ok tt).
Proof.
  intros Hj Hx B E.
  assert (R : exists kk vv r, reads alnum st kk vv r).
  { destruct Hx as [|p z|s Vs|ts vs xs Hxs|fs vs xs Hxs|cs i l t v x Hn Hx].
    - exists KNull, [], k. eapply reads_keyword; [exact E|exact B|cbn; auto].
    - inversion Hj as [|? ? Hr Hc Hf| | | |]; subst.
      destruct (prim_eqb p PBool) eqn:Eb; [apply prim_eqb_eq in Eb; subst p|destruct (prim_eqb p PChar) eqn:Ec; [apply prim_eqb_eq in Ec; subst p|]].
      + cbn [prim_text] in E. destruct (z =? 0); eexists _, [], k; (eapply reads_keyword; [exact E|exact B|cbn; auto]).
      + eexists _, _, k. eapply reads_string; [|exact E]. apply json_char_nonzero. constructor; [apply Hc; reflexivity|constructor].
      + assert (N1 : p <> PBool) by (intros ->; discriminate). assert (N2 : p <> PChar) by (intros ->; discriminate).
        eexists _, _, k. eapply reads_number; [exact E| |destruct p; try congruence; exact B].
        destruct p; try congruence; cbn [prim_text]; try apply show_int_lexeme; destruct Hf as [Hf _]; auto.
    - inversion Hj as [| |s' Hs E0 Es| | |]. clear E0. assert (X : s' = s).
      { apply (f_equal utf8_decode) in Es. rewrite !utf8_decode_encode in Es by (exact Vs || apply json_char_valid; exact Hs). congruence. }
      subst s'. eexists _, _, k. eapply reads_string; [apply json_char_nonzero; exact Hs|exact E].
    - eexists _, _, _. eapply reads_single; [exact E|cbn; auto 10].
    - eexists _, _, _. eapply reads_single; [exact E|cbn; auto 10].
    - eexists _, _, _. eapply reads_single; [exact E|cbn; auto 10]. }
  destruct R as (kk & vv & r & st' & N & _). exists st'. exact N.
Qed.

(** What [decode] does with the text of a value followed by [k]. *)
Lemma decode_text t v x k old : jsonable fl t v -> value_text fl t v x -> boundary alnum t k ->
  exists d, (forall p, ds_get d p = entry p t v) /\ presents (ds_source d) t [] v /\
    decode t (x ++ k) old = finish (step (tok_init k) d).
Proof.
  intros Hj Hx B. destruct (parse_text alnum fl pf t v x Hj Hx [] k (tok_init (x ++ k)) [] eq_refl B) as (st1 & d & E & R & O).
  exists d. split; [|split].
  - intros p. rewrite O. unfold over. cbn [strip ds_get]. destruct (entry p t v); reflexivity.
  - eapply jsonable_presents; [exact Hj|]. eapply over_holds. exact O.
  - destruct (first_token t v x k (tok_init (x ++ k)) Hj Hx B eq_refl) as (st' & N).
    rewrite decode_step, N, E. apply (finish_step_rest st1 (tok_init k) d R).
Qed.

Lemma next_nil : next alnum (tok_init []) = Ret (tok_init [], Ok tt).
Proof. reflexivity. Qed.

(** ** C17 and C24 *)

Lemma json_round_trip_lemma t v src old : presents src t [] v -> jsonable fl t v ->
  exists bs text d, json_encode fl t src = Ret bs /\ utf8_decode bs = Some text /\
    decode t text old = Ret (d, Ok tt) /\ presents (ds_source d) t [] v.
Proof.
  intros Hp Hj. destruct (emit_text fl src t [] v Hp Hj) as (x & Hx & Vx & E).
  destruct (decode_text t v x [] old Hj Hx) as (d & _ & Hd & Ed).
  { destruct t as [|p| | | |]; try exact I. destruct p; exact I. }
  exists (utf8_encode x), x, d. split; [exact E|]. split; [apply utf8_decode_encode; exact Vx|]. split; [|exact Hd].
  rewrite app_nil_r in Ed. rewrite Ed. reflexivity.
Qed.

Lemma boundary_nil t : boundary alnum t [].
Proof. destruct t as [|p| | | |]; try exact I. destruct p; exact I. Qed.

Lemma trailing_lemma t v x k old : jsonable fl t v -> value_text fl t v x -> boundary alnum t k ->
  exists d, presents (ds_source d) t [] v /\ decode t x old = Ret (d, Ok tt) /\
    ((exists st, next alnum (tok_init k) = Ret (st, Ok tt)) ->
       exists d', decode t (x ++ k) old = Ret (d', Ok tt) /\ forall p, ds_get d' p = ds_get d p) /\
    (forall d', decode t (x ++ k) old = Ret (d', Ok tt) -> exists st, next alnum (tok_init k) = Ret (st, Ok tt)).
Proof.
  intros Hj Hx B. destruct (decode_text t v x [] old Hj Hx (boundary_nil t)) as (d & Gd & Pd & Ed).
  destruct (decode_text t v x k old Hj Hx B) as (d' & Gd' & Pd' & Ed'). rewrite app_nil_r in Ed.
  exists d. split; [exact Pd|]. split; [rewrite Ed; reflexivity|]. split.
  - intros (st & N). exists d'. split; [rewrite Ed', finish_step, N; reflexivity|]. intros p. rewrite Gd, Gd'. reflexivity.
  - intros d2 E. rewrite Ed', finish_step in E. destruct (next alnum (tok_init k)) as [[st [[]|e]]| |]; try discriminate. exists st. reflexivity.
Qed.

(** ** C23 *)

Lemma value_first_token_struct ms k st : t_rest st = object_text ms ++ k -> exists st', next alnum st = Ret (st', Ok tt).
Proof.
  intros E. assert (R : reads alnum st KBeginObject [] (comma_sep (map (fun m => string_text (fst m) ++ 58 :: snd m) ms) ++ [125] ++ k)).
  { eapply reads_single; [|cbn; auto 10]. rewrite E. unfold object_text. cbn [app]. rewrite <- app_assoc. reflexivity. }
  destruct R as (st' & N & _). exists st'. exact N.
Qed.

Lemma members_any_order fs vs xs ms old :
  jsonable fl (TStruct fs) (VStruct vs) -> values_text fl (map snd fs) vs xs ->
  Permutation ms (combine (map fst fs) xs) ->
  exists d, decode (TStruct fs) (object_text ms) old = Ret (d, Ok tt) /\ presents (ds_source d) (TStruct fs) [] (VStruct vs) /\
    (forall p, ds_get d p = entry p (TStruct fs) (VStruct vs)).
Proof.
  intros Hj Hxs HP. inversion Hj as [| | | |? ? Hlen Hnd Hch Hjs|]; subst.
  destruct (values_text_length _ _ _ _ Hxs) as [L1 L2]. rewrite map_length in L1, L2.
  set (M := combine (map fst fs) xs) in *. set (D := ([] : str, [] : str)).
  assert (LM : List.length M = List.length fs) by (unfold M; rewrite combine_length, map_length, L2; lia).
  assert (EM : M = map (fun i => nth i M D) (seq 0 (List.length fs))).
  { rewrite <- LM. clear. generalize M as l. clear. induction l as [|a l IH]; [reflexivity|]. cbn [List.length seq map nth]. f_equal.
    rewrite <- seq_shift, map_map. exact IH. }
  rewrite EM in HP. apply Permutation_map_inv in HP. destruct HP as (order & -> & HO).
  assert (ND : NoDup order) by (eapply Permutation_NoDup; [exact HO|apply seq_NoDup]).
  assert (IO : forall i, In i order <-> (i < List.length fs)%nat).
  { intros i. split; intros H.
    - apply Permutation_sym in HO. apply (Permutation_in i HO) in H. apply in_seq in H. lia.
    - apply (Permutation_in i HO). apply in_seq. lia. }
  assert (TX : map (fun m => string_text (fst m) ++ 58 :: snd m) (map (fun i => nth i M D) order) = map (member_text fs xs) order).
  { rewrite map_map. apply map_ext_in. intros i Hi. apply IO in Hi. unfold member_text.
    destruct (nth_error fs i) as [[l t]|] eqn:Hf; [|apply nth_error_None in Hf; lia].
    destruct (nth_error xs i) as [x|] eqn:Hx; [|apply nth_error_None in Hx; lia].
    replace (nth i M D) with (l, x); [reflexivity|]. symmetry. unfold M, D. rewrite combine_nth by (rewrite map_length; lia). f_equal.
    - apply nth_error_nth. rewrite nth_error_map, Hf. reflexivity.
    - apply nth_error_nth. exact Hx. }
  assert (good : forall i l t, nth_error fs i = Some (l, t) -> exists v x, nth_error vs i = Some v /\ nth_error xs i = Some x /\
     Forall json_char l /\ reads_value alnum fl pf t v x).
  { intros i l t Hn. destruct (values_nth _ fs vs xs Hxs Hjs i l t Hn) as (v & x & Hv & Hx' & Ht & Hjv). exists v, x.
    split; [exact Hv|]. split; [exact Hx'|]. split; [|apply parse_text; assumption].
    rewrite Forall_forall in Hch. apply Hch. apply in_map_iff. exists (l, t). split; [reflexivity|]. eapply nth_error_In; exact Hn. }
  set (text := object_text (map (fun i => nth i M D) order)).
  destruct (reads_struct_perm alnum fl pf fs [] Hlen Hnd vs xs good order [] (tok_init text) []) as (st1 & d & E & R & O); auto.
  { unfold text, object_text. cbn [t_rest tok_init]. rewrite TX. reflexivity. }
  exists d. split; [|split].
  - rewrite decode_step. destruct (value_first_token_struct (map (fun i => nth i M D) order) [] (tok_init text)) as (st' & N); [rewrite app_nil_r; reflexivity|].
    rewrite N, E, finish_step. pose proof (next_rest st1 (tok_init []) R) as X. rewrite next_nil in X.
    destruct (next alnum st1) as [[? [|]]| |]; try contradiction. reflexivity.
  - eapply jsonable_presents; [exact Hj|]. eapply over_holds. exact O.
  - intros p. rewrite O. unfold over. cbn [strip ds_get]. destruct (entry p (TStruct fs) (VStruct vs)); reflexivity.
Qed.

Lemma wrong_members_lemma fs ms k old :
  (List.length fs < 64)%nat -> NoDup (map fst fs) ->
  Forall (fun m => Forall json_char (fst m) /\ forall t, In (fst m, t) fs -> exists v, jsonable fl t v /\ value_text fl t v (snd m)) ms ->
  ~ Permutation (map fst ms) (map fst fs) ->
  exists d e, decode (TStruct fs) (object_text ms ++ k) old = Ret (d, Err e).
Proof.
  intros few ND F HP.
  destruct (parse_reject alnum fl pf fs [] few ND ms k (tok_init (object_text ms ++ k)) []) as (d & e & E); [|exact HP|reflexivity|].
  { revert F. apply Forall_impl. intros m [H1 H2]. split; [exact H1|]. intros t Ht. destruct (H2 t Ht) as (v & Hj & Hx). exists v. apply parse_text; assumption. }
  destruct (value_first_token_struct ms k (tok_init (object_text ms ++ k)) eq_refl) as (st' & N).
  exists d, e. rewrite decode_step, N, E. reflexivity.
Qed.

(** ** C22 *)

Lemma tok_init_good input : good input (tok_init input).
Proof. split; [exists []; reflexivity|discriminate]. Qed.

Lemma decode_sound t input old d :
  valid_text input -> floats_in_range fl ->
  all_structs (fun n => pf = Debug \/ n <> 64%nat) t ->
  decode t input old = Ret (d, Ok tt) -> exists v, presents (ds_source d) t [] v /\ decoded t v.
Proof.
  intros V Fr HA E. rewrite decode_step in E.
  assert (HA' : all_structs (width_ok pf True) t).
  { clear - HA. induction t using ty_ind'; inversion HA; subst; constructor; try (rewrite Forall_forall in *; intros; auto; fail).
    unfold width_ok. destruct (Nat.lt_ge_cases (List.length fs) 64); [left; assumption|right]. split; [exact I|]. intros [-> X]. destruct H1 as [H1|H1]; congruence. }
  assert (P : post input True (result_at t [] []) (andthen (step (tok_init input) []) (parse t []))).
  { eapply post_andthen with (Q := fun d' _ => d' = []); [apply post_step; auto; apply tok_init_good|].
    intros ? st G ->. apply parse_post; assumption. }
  destruct (next alnum (tok_init input)) as [[st [[]|e]]| |]; try discriminate;
    destruct (andthen (step (tok_init input) []) (parse t [])) as [[d' [st'|e']]| |]; try discriminate; cbn in E; injection E as ->;
    destruct P as [_ [_ P]]; exact P.
Qed.

Lemma decode_total t input old :
  valid_text input -> floats_in_range fl -> all_structs (fun n => (n < 64)%nat) t ->
  (exists r, decode t input old = Ret r) \/ (decode t input old = Panic /\ has_surrogate_escape input).
Proof.
  intros V Fr HA. rewrite decode_step.
  assert (HA' : all_structs (width_ok pf False) t).
  { clear - HA. induction t using ty_ind'; inversion HA; subst; constructor; try (rewrite Forall_forall in *; intros; auto; fail). left. assumption. }
  assert (P : post input False (result_at t [] []) (andthen (step (tok_init input) []) (parse t []))).
  { eapply post_andthen with (Q := fun d' _ => d' = []); [apply post_step; auto; apply tok_init_good|].
    intros ? st G ->. apply parse_post; assumption. }
  destruct (andthen (step (tok_init input) []) (parse t [])) as [[d' r]| |].
  - left. destruct (next alnum (tok_init input)) as [[st [[]|e]]| |]; eexists; reflexivity.
  - destruct P as [[]|P]. destruct (next alnum (tok_init input)) as [[st [[]|e]]| |]; auto. left. eexists. reflexivity.
  - destruct P.
Qed.

End Top.
