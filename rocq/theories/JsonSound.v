(** * What a successful decode produces; when decoding panics *)

From Coq Require Import Strings.String ZifyBool ZifyNat ZifyN.
From Verif Require Import Base BaseFacts StrModel StrFacts Utf8Model Utf8Facts TypesModel TypesSpec MarshalModel MarshalSpec LayoutProofs PresentsFacts JsonModel JsonSpec JsonData JsonBits JsonLex JsonNum JsonTok JsonRead JsonEmit.
Ltac Zify.zify_post_hook ::= Z.div_mod_to_equations.
Local Open Scope list_scope.
Local Open Scope Z_scope.

(** ** String buffers hold characters *)

Lemma sloop_valid n : forall s buf s' buf' r, (List.length s <= n)%nat -> valid_text s -> valid_text buf -> sloop s buf = Ret (s', buf', r) -> valid_text buf'.
Proof.
  induction n as [|n IH]; intros s buf s' buf' r L Vs Vb H; rewrite sloop_eq in H.
  - destruct s; [|cbn in L; lia]. injection H as <- <- <-. exact Vb.
  - destruct s as [|c s]; [injection H as <- <- <-; exact Vb|]. inversion Vs as [|? ? Vc Vs']; subst. cbn [List.length] in L.
    destruct (c =? 34); [injection H as <- <- <-; exact Vb|].
    destruct (c =? 92).
    + rewrite control_char_eq in H. destruct s as [|e s]; [cbn in H; injection H as <- <- <-; exact Vb|].
      inversion Vs' as [|? ? Ve Vs2]; subst. destruct (simple_escape e) as [y|] eqn:Ee.
      * cbn [bind] in H. eapply IH in H; [exact H|cbn in L; lia|exact Vs2|]. apply Forall_app. split; [exact Vb|]. constructor; [|constructor].
        unfold simple_escape in Ee. repeat match type of Ee with (if ?b then _ else _) = _ => destruct b; [injection Ee as <-; reflexivity|] end. discriminate.
      * destruct (e =? 117); [|cbn in H; injection H as <- <- <-; exact Vb].
        destruct (hex_loop 4 0 s) as [s2 [code|]] eqn:Eh; [|cbn in H; injection H as <- <- <-; exact Vb].
        destruct (is_char code) eqn:Ec; [|discriminate]. cbn [bind] in H.
        apply hex_loop_some in Eh. destruct Eh as (ds & -> & _). apply Forall_app in Vs2. destruct Vs2 as [_ Vs2].
        eapply IH in H; [exact H|cbn in L; rewrite app_length in L; lia|exact Vs2|]. apply Forall_app. split; [exact Vb|]. constructor; [exact Ec|constructor].
    + destruct (c <=? 31); [injection H as <- <- <-; exact Vb|]. eapply IH in H; [exact H|lia|exact Vs'|].
      apply Forall_app. split; [exact Vb|]. constructor; [exact Vc|constructor].
Qed.

Lemma string_chars_suffix s r : string_chars s r -> exists pre, s = pre ++ r.
Proof.
  induction 1 as [r|c s r ? ? ? H IH|c s r ? H IH|ds s r ? ? H IH].
  - exists []. reflexivity.
  - destruct IH as (pre & ->). exists (c :: pre). reflexivity.
  - destruct IH as (pre & ->). exists (92 :: c :: pre). reflexivity.
  - destruct IH as (pre & ->). exists (92 :: 117 :: ds ++ pre). cbn [app]. rewrite <- app_assoc. reflexivity.
Qed.

(** The string token comes from [match_string]. *)
Lemma next_string alnum st st' : next alnum st = Ret (st', Ok tt) -> t_token st' = KString ->
  exists s, skip_whitespace (t_rest st) = 34 :: s /\ sloop s [] = Ret (t_rest st', t_buf st', Ok tt).
Proof.
  unfold next. destruct (skip_whitespace (t_rest st)) as [|c s]; [intros H; injection H as <-; discriminate|].
  repeat (match goal with |- (if c =? ?n then _ else _) = _ -> _ => destruct (Z.eqb_spec c n) as [->|] end);
    try (intros H; injection H as <-; discriminate).
  - unfold match_keyword. destruct (keyword_loop (lit "null") (110 :: s)) as [s' [|]]; [|discriminate].
    destruct s' as [|x s']; [|destruct (is_alphanumeric alnum x)]; intros H; try discriminate; injection H as <-; discriminate.
  - unfold match_keyword. destruct (keyword_loop (lit "true") (116 :: s)) as [s' [|]]; [|discriminate].
    destruct s' as [|x s']; [|destruct (is_alphanumeric alnum x)]; intros H; try discriminate; injection H as <-; discriminate.
  - unfold match_keyword. destruct (keyword_loop (lit "false") (102 :: s)) as [s' [|]]; [|discriminate].
    destruct s' as [|x s']; [|destruct (is_alphanumeric alnum x)]; intros H; try discriminate; injection H as <-; discriminate.
  - rewrite match_string_eq. intros H _. exists s. split; [reflexivity|]. destruct (sloop s []) as [[[s' buf] [[]|e]]| |]; try discriminate.
    + cbn [bind] in H. injection H as <-. reflexivity.
    + destruct e; discriminate.
  - unfold match_number. destruct (number_body (45 :: s)) as [s' [|]]; [|discriminate]. intros H; injection H as <-; discriminate.
  - destruct (is_digit c); [|discriminate]. unfold match_number. destruct (number_body (c :: s)) as [s' [|]]; [|discriminate]. intros H; injection H as <-; discriminate.
Qed.

(** ** Post-conditions *)

Section Sound.
Context (alnum : Z -> bool) (fl : floats) (pf : profile) (input : str) (W : Prop).
Hypothesis valid_input : valid_text input.
Hypothesis float_range : floats_in_range fl.

Notation step := (JsonModel.step alnum).
Notation must_be := (JsonModel.must_be alnum).
Notation parse := (JsonModel.parse alnum fl pf).

Definition good (st : tstate) : Prop := (exists pre, input = pre ++ t_rest st) /\ (t_token st = KString -> valid_text (t_buf st)).

Definition post (Q : ds -> tstate -> Prop) (x : outcome parsed) : Prop :=
  match x with
  | Ret (d, Ok st) => good st /\ Q d st
  | Ret (_, Err _) => True
  | Panic => W \/ has_surrogate_escape input
  | Undef => False
  end.

Lemma post_andthen Q R x k : post Q x -> (forall d st, good st -> Q d st -> post R (k st d)) -> post R (andthen x k).
Proof. intros H K. destruct x as [[d [st|e]]| |]; cbn in *; auto. destruct H; auto. Qed.

Lemma post_weaken (Q R : ds -> tstate -> Prop) x : post Q x -> (forall d st, Q d st -> R d st) -> post R x.
Proof. intros H K. destruct x as [[d [st|e]]| |]; cbn in *; auto. destruct H; auto. Qed.

Lemma rest_valid st : good st -> valid_text (t_rest st).
Proof. intros [[pre E] _]. pose proof valid_input as V. rewrite E in V. apply Forall_app in V. tauto. Qed.

Lemma post_step (Q : ds -> tstate -> Prop) st d : good st -> (forall st', Q d st') -> post Q (step st d).
Proof.
  intros G HQ. unfold JsonModel.step. destruct (next alnum st) as [[st' [[]|e]]| |] eqn:E; cbn [bind post]; auto.
  - split; [|apply HQ]. split.
    + destruct (next_consumes alnum st st' _ E) as (pre & Ep & _). destruct G as [[p E'] _]. exists (p ++ pre). rewrite <- app_assoc, <- Ep. exact E'.
    + intros Hk. destruct (next_string alnum st st' E Hk) as (s & Ew & Es). destruct (skip_whitespace_split (t_rest st)) as (w & Ew' & _).
      apply (sloop_valid (List.length s) s [] _ _ _ (le_n _)) in Es; [exact Es| |constructor].
      pose proof (rest_valid st G) as V. rewrite Ew', Ew in V. apply Forall_app in V. destruct V as [_ V]. inversion V; assumption.
  - right. apply next_panic in E. destruct E as (w & s & h1 & h2 & h3 & h4 & r & Es & _ & Hc & F & Hs).
    apply string_chars_suffix in Hc. destruct Hc as (pre & ->). destruct G as [[p E'] _].
    exists (p ++ w ++ 34 :: pre), h1, h2, h3, h4, r. rewrite <- !app_assoc. cbn [app]. rewrite E', Es. split; [reflexivity|]. split; assumption.
  - exact (next_total alnum st E).
Qed.

Lemma post_must (Q : ds -> tstate -> Prop) k w st d : good st -> (forall st', Q d st') -> post Q (must_be k w st d).
Proof. intros G HQ. unfold JsonModel.must_be. destruct (negb _); [exact I|apply post_step; assumption]. Qed.

Lemma post_named (Q : ds -> tstate -> Prop) k w st d : good st -> (forall st', Q d st') -> post Q (named_field alnum k w st d).
Proof. intros G HQ. unfold named_field. destruct (_ || _); [exact I|apply post_step; assumption]. Qed.

(** Nothing outside [q] is touched. *)
Definition frame (d d' : ds) (inside : path -> Prop) : Prop := forall p, ~ inside p -> ds_get d' p = ds_get d p.

Lemma frame_refl d i : frame d d i.
Proof. intros p _. reflexivity. Qed.

Lemma frame_trans d1 d2 d3 (i j k : path -> Prop) : frame d1 d2 i -> frame d2 d3 j -> (forall p, i p -> k p) -> (forall p, j p -> k p) -> frame d1 d3 k.
Proof. intros H1 H2 Hi Hj p Hp. rewrite H2, H1; auto. Qed.

Lemma frame_add d q v : frame d (ds_add d q v) (extends q).
Proof.
  intros p Hp. unfold ds_add. cbn [ds_get]. destruct (path_eqb q p) eqn:E; [|reflexivity]. apply path_eqb_eq in E. subst. exfalso. apply Hp, extends_refl.
Qed.

Lemma frame_same d d' i q : frame d d' i -> (forall p, extends q p -> ~ i p) -> same_below (ds_source d) (ds_source d') q.
Proof. intros F H p Hp. cbn [ds_source src_prim src_tag src_len src_bytes]. rewrite (F p (H p Hp)). auto. Qed.

Lemma extends_snoc_inj q i j p : extends (q ++ [i]) p -> extends (q ++ [j]) p -> i = j.
Proof. intros [r ->] [r' E]. rewrite <- !app_assoc in E. apply app_inv_head in E. injection E as -> _. reflexivity. Qed.

Lemma extends_below q i p : extends (q ++ [i]) p -> extends q p.
Proof. intros H. eapply extends_trans; [apply extends_snoc|exact H]. Qed.

(** The result of parsing type [t] at [q]. *)
Definition result_at (t : ty) (q : path) (d : ds) (d' : ds) (_ : tstate) : Prop :=
  frame d d' (extends q) /\ exists v, presents (ds_source d') t q v /\ decoded t v.

Lemma result_keep t q d v j d' : presents (ds_source d) t (q ++ [j]) v -> frame d d' (fun p => exists i, i <> j /\ extends (q ++ [i]) p) ->
  presents (ds_source d') t (q ++ [j]) v.
Proof.
  intros Hp F. eapply presents_ext; [exact Hp|]. eapply frame_same; [exact F|].
  intros p He (i & N & Hi). apply N. eapply extends_snoc_inj; eassumption.
Qed.

Lemma parse_number_range p s z : p <> PBool -> p <> PChar -> parse_number fl p s = Some z -> in_range p z.
Proof.
  intros N1 N2 H. destruct p; try congruence; cbn [parse_number] in H;
    try (apply parse_int_sound in H; destruct H as [H _]; cbn in *; unfold umax in *; lia);
    (eapply float_range; [|exact H]; auto).
Qed.

Lemma result_add t q d j v : presents (ds_source (ds_add d q j)) t q v -> decoded t v -> forall st, result_at t q d (ds_add d q j) st.
Proof. intros Hp Hd st. split; [apply frame_add|]. exists v. auto. Qed.

Lemma ds_get_add d q v : ds_get (ds_add d q v) q = Some v.
Proof. unfold ds_add. cbn [ds_get]. replace (path_eqb q q) with true by (symmetry; apply path_eqb_eq; reflexivity). reflexivity. Qed.

Lemma prim_added p q d z : in_range p z -> forall st, result_at (TPrim p) q d (ds_add d q (JPrim p z)) st.
Proof.
  intros H. apply (result_add _ _ _ _ (VPrim z)); constructor; [|exact H].
  cbn [ds_source src_prim]. rewrite ds_get_add, prim_eqb_refl. reflexivity.
Qed.

Lemma parse_prim_post p q st d : good st -> post (result_at (TPrim p) q d) (parse_prim alnum fl p q st d).
Proof.
  intros G.
  assert (N : p <> PBool -> p <> PChar ->
    post (result_at (TPrim p) q d) (if negb (token_eqb (t_token st) KString) && negb (token_eqb (t_token st) KNumber)
      then Ret (d, Err (EExpected WNumber))
      else match parse_number fl p (tok_value st) with
           | Some z => step st (ds_add d q (JPrim p z))
           | None => Ret (d, Err (ERefused p (tok_value st)))
           end)).
  { intros N1 N2. destruct (_ && _); [exact I|]. destruct (parse_number fl p (tok_value st)) as [z|] eqn:E; [|exact I].
    apply post_step; [exact G|]. apply prim_added. eapply parse_number_range; eassumption. }
  destruct p; try (apply N; discriminate).
  - unfold parse_prim. destruct (t_token st); try exact I; (apply post_step; [exact G|]; apply prim_added; cbn; auto).
  - unfold parse_prim. destruct (token_eqb (t_token st) KString) eqn:Ek; [|exact I].
    assert (Hk : t_token st = KString) by (destruct (t_token st); try discriminate; reflexivity).
    unfold tok_value. rewrite Hk. destruct G as [G1 G2]. specialize (G2 Hk).
    assert (G : good st) by (split; auto).
    assert (Bad : post (result_at (TPrim PChar) q d) (andthen (step st d) (fun _ d => Ret (d, Err (EExpected WChar))))).
    { eapply post_andthen; [apply (post_step (fun _ _ => True)); auto|]. intros; exact I. }
    destruct (t_buf st) as [|c [|c' b]]; try exact Bad.
    apply post_step; [exact G|]. apply prim_added. inversion G2; subst. assumption.
Qed.

Lemma presents_list_build d ts : forall q k, (forall i t, nth_error ts i = Some t -> exists v, presents (ds_source d) t (q ++ [k + i])%nat v /\ decoded t v) ->
  exists vs, presents_list (ds_source d) ts q k vs /\ decoded_list ts vs.
Proof.
  induction ts as [|t ts IH]; intros q k H; [exists []; split; constructor|].
  destruct (H 0%nat t eq_refl) as (v & Hv & Dv). rewrite Nat.add_0_r in Hv.
  destruct (IH q (S k)) as (vs & Hvs & Dvs).
  { intros i t' Hi. destruct (H (S i) t' Hi) as (v' & Hv' & Dv'). exists v'. rewrite Nat.add_succ_r in Hv'. auto. }
  exists (v :: vs). split; constructor; assumption.
Qed.

(** Tuples. *)
Lemma tuple_post ts : Forall (fun t => forall q st d, good st -> post (result_at t q d) (parse t q st d)) ts ->
  forall q k st d, good st ->
  post (fun d' _ => frame d d' (fun p => exists i, (k <= i)%nat /\ extends (q ++ [i]) p) /\
          forall i t, nth_error ts i = Some t -> exists v, presents (ds_source d') t (q ++ [k + i])%nat v /\ decoded t v)
       (tuple_loop alnum parse ts q k st d).
Proof.
  induction 1 as [|t ts Ht F IH]; intros q k st d G; cbn [tuple_loop].
  - split; [exact G|]. split; [apply frame_refl|]. intros [|i] t H; discriminate.
  - eapply post_andthen with (Q := fun d' _ => d' = d).
    { destruct (k =? 0)%nat; [split; auto|apply post_must; auto]. }
    intros ? st1 G1 ->. unfold with_component. eapply post_andthen; [apply Ht; exact G1|].
    intros d2 st2 G2 (Fr & v & Hv & Dv). eapply post_weaken; [apply IH; exact G2|].
    intros d3 _ (Fr3 & H3). cbn beta. split.
    + eapply frame_trans; [exact Fr|exact Fr3| |].
      * intros p Hp. exists k. split; [lia|exact Hp].
      * intros p (i & Li & Hi). exists i. split; [lia|exact Hi].
    + intros [|i] t' Hn; cbn [nth_error] in Hn.
      * injection Hn as <-. exists v. split; [|exact Dv]. rewrite Nat.add_0_r. eapply result_keep; [exact Hv|].
        eapply frame_trans; [apply frame_refl with (i := fun _ => False)|exact Fr3|intros ? []|]. intros p (i & Li & Hi). exists i. split; [lia|exact Hi].
      * destruct (H3 i t' Hn) as (v' & Hv' & Dv'). exists v'. rewrite Nat.add_succ_r. auto.
Qed.

(** Structs. *)
Lemma struct_post fs q : (List.length fs < 64)%nat ->
  Forall (fun f => forall q st d, good st -> post (result_at (snd f) q d) (parse (snd f) q st d)) fs ->
  forall f s v b st d, is_set v s -> NoDup s -> Forall (fun i => (i < List.length fs)%nat) s -> (List.length s <= f)%nat -> good st ->
  post (fun d' _ => frame d d' (fun p => exists i, In i s /\ extends (q ++ [i]) p) /\
          forall i t, In i s -> option_map snd (nth_error fs i) = Some t -> exists v, presents (ds_source d') t (q ++ [i]) v /\ decoded t v)
       (struct_loop alnum pf (last_index fs 0) (fun i st d => select (fun f : str * ty => parse (snd f) (with_component q i) st d) fs i) f v b st d).
Proof.
  intros few HF f. induction f as [|f IH]; intros s v b st d Hs ND HL Hf G; cbn [struct_loop];
    pose proof (is_set_empty _ _ Hs) as Z0; rewrite Z0; (destruct s as [|i0 s0]; [split; [exact G|]; split; [apply frame_refl|intros ? ? []]|]).
  { cbn in Hf. lia. }
  set (s := i0 :: s0) in *. clearbody s. clear Z0.
  eapply post_andthen with (Q := fun d' _ => d' = d).
  { destruct b; [split; auto|apply post_must; auto]. }
  intros ? st1 G1 ->. destruct (token_eqb (t_token st1) KString); [|exact I].
  destruct (last_index fs 0 (tok_value st1)) as [i|] eqn:Ei; [|exact I].
  destruct (last_index_some fs _ _ _ Ei) as (_ & t & Hn). rewrite Nat.sub_0_r in Hn.
  assert (Li : (i < List.length fs)%nat) by (apply nth_error_Some; rewrite Hn; discriminate).
  rewrite bits_has_small by lia. cbn [bind]. destruct (Z.testbit v (Z.of_nat i)) eqn:B; [|exact I].
  assert (Hi : In i s). { destruct Hs as (_ & _ & Hs). apply Hs; [lia|exact B]. }
  destruct (in_split _ _ Hi) as (s1 & s2 & ->). apply NoDup_remove in ND. destruct ND as [ND Ni].
  destruct (is_set_clear pf v i s1 s2 Hs Ni) as (v' & Ec & Hv'). rewrite Ec. cbn [bind].
  eapply post_andthen with (Q := fun d' _ => d' = d); [apply post_step; auto|]. intros ? st2 G2 ->.
  eapply post_andthen with (Q := fun d' _ => d' = d); [apply post_must; auto|]. intros ? st3 G3 ->.
  rewrite (select_nth _ _ _ _ Hn). unfold with_component.
  eapply post_andthen.
  { rewrite Forall_forall in HF. apply (HF _ (nth_error_In _ _ Hn)). exact G3. }
  intros d2 st4 G4 (Fr & w & Hw & Dw). eapply post_weaken; [apply (IH (s1 ++ s2)); [exact Hv'|exact ND| |rewrite app_length in *; cbn in Hf; lia|exact G4]|].
  { apply Forall_app in HL. destruct HL as [HL1 HL2]. inversion HL2; subst. apply Forall_app. split; assumption. }
  intros d3 _ (Fr3 & H3). cbn beta. split.
  - eapply frame_trans; [exact Fr|exact Fr3| |].
    + intros p Hp. exists i. split; [exact Hi|exact Hp].
    + intros p (j & Lj & Hj). exists j. split; [|exact Hj]. apply in_app_or in Lj. apply in_or_app. cbn [In]. tauto.
  - intros j t' Hj Hnj. destruct (Nat.eq_dec j i) as [->|N].
    + rewrite Hn in Hnj. injection Hnj as <-. exists w. split; [|exact Dw]. eapply result_keep; [exact Hw|].
      eapply frame_trans; [apply frame_refl with (i := fun _ => False)|exact Fr3|intros ? []|]. intros p (j & Lj & Hp). exists j. split; [congruence|exact Hp].
    + apply H3; [|exact Hnj]. apply in_app_or in Hj. apply in_or_app. cbn [In] in Hj. destruct Hj as [|[|]]; auto. congruence.
Qed.

Definition width_ok (n : nat) : Prop := (n < 64)%nat \/ (W /\ ~ (pf = Release /\ n = 64%nat)).

Lemma bits_new_wide n : (64 <= n)%nat -> ~ (pf = Release /\ n = 64%nat) -> bits_new pf n = Panic.
Proof.
  intros H N. unfold bits_new. destruct (Nat.leb_spec n 64) as [L|L]; [|reflexivity]. assert (n = 64%nat) by lia. subst n.
  destruct pf; [reflexivity|exfalso; apply N; auto].
Qed.

Lemma parse_post t : all_structs width_ok t -> forall q st d, good st -> post (result_at t q d) (parse t q st d).
Proof.
  induction t using ty_ind'; intros HA q st d G; cbn [JsonModel.parse].
  - destruct (token_eqb (t_token st) KNull); [|exact I]. apply post_step; [exact G|]. intros st'. split; [apply frame_refl|]. exists VUnit. split; constructor.
  - apply parse_prim_post. exact G.
  - destruct (token_eqb (t_token st) KString) eqn:Ek; [|exact I].
    assert (Hk : t_token st = KString) by (destruct (t_token st); try discriminate; reflexivity).
    unfold tok_value. rewrite Hk. apply post_step; [exact G|]. destruct G as [_ G2]. specialize (G2 Hk).
    apply (result_add _ _ _ _ (VStr (utf8_encode (t_buf st)))); constructor; try exact G2; cbn [ds_source src_len src_bytes]; rewrite ds_get_add; reflexivity.
  - inversion HA as [| | |? HA'| |]; subst.
    assert (F : Forall (fun t => forall q st d, good st -> post (result_at t q d) (parse t q st d)) ts).
    { rewrite Forall_forall in *. auto. }
    eapply post_andthen with (Q := fun d' _ => d' = d); [apply post_must; auto|]. intros ? st1 G1 ->.
    eapply post_andthen; [apply tuple_post; [exact F|exact G1]|]. intros d2 st2 G2 (Fr & Hm).
    apply post_must; [exact G2|]. intros st9. split.
    + eapply frame_trans; [apply frame_refl with (i := fun _ => False)|exact Fr|intros ? []|]. intros p (i & _ & Hi). eapply extends_below; exact Hi.
    + destruct (presents_list_build d2 ts q 0 Hm) as (vs & Hvs & Dvs). exists (VTuple vs). split; constructor; assumption.
  - inversion HA as [| | | |? HW HA'|]; subst.
    assert (F : Forall (fun f => forall q st d, good st -> post (result_at (snd f) q d) (parse (snd f) q st d)) fs).
    { rewrite Forall_forall in *. auto. }
    eapply post_andthen with (Q := fun d' _ => d' = d); [apply post_must; auto|]. intros ? st1 G1 ->.
    destruct (Nat.lt_ge_cases (List.length fs) 64) as [few|many].
    + rewrite bits_new_small by exact few. cbn [bind].
      eapply post_andthen.
      { apply (struct_post fs q few F 65 (seq 0 (List.length fs))); [apply is_set_new; exact few|apply seq_NoDup| |rewrite seq_length; lia|exact G1].
        apply Forall_forall. intros i Hi. apply in_seq in Hi. lia. }
      intros d2 st2 G2 (Fr & Hm). apply post_must; [exact G2|]. intros st9. split.
      * eapply frame_trans; [apply frame_refl with (i := fun _ => False)|exact Fr|intros ? []|]. intros p (i & _ & Hi). eapply extends_below; exact Hi.
      * destruct (presents_list_build d2 (map snd fs) q 0) as (vs & Hvs & Dvs).
        { intros i t Hn. rewrite nth_error_map in Hn. apply Hm; [|exact Hn]. apply in_seq. split; [lia|]. cbn.
          apply nth_error_Some. destruct (nth_error fs i); [discriminate|discriminate Hn]. }
        exists (VStruct vs). split; constructor; assumption.
    + destruct HW as [HW|[HW HN]]; [lia|]. rewrite bits_new_wide by assumption. left. exact HW.
  - inversion HA as [| | | | |? HA']; subst.
    eapply post_andthen with (Q := fun d' _ => d' = d); [apply post_must; auto|]. intros ? st1 G1 ->.
    eapply post_andthen with (Q := fun d' _ => d' = d); [apply post_named; auto|]. intros ? st2 G2 ->.
    eapply post_andthen with (Q := fun d' _ => d' = d); [apply post_must; auto|]. intros ? st3 G3 ->.
    destruct (negb (token_eqb (t_token st3) KString)); [exact I|].
    destruct (last_index cs 0 (tok_value st3)) as [i|] eqn:Ei; [|exact I].
    destruct (last_index_some cs _ _ _ Ei) as (_ & t & Hn). rewrite Nat.sub_0_r in Hn. set (d1 := ds_add d q (JTag i)).
    eapply post_andthen with (Q := fun d' _ => d' = d1); [apply post_step; auto|]. intros ? st4 G4 ->.
    eapply post_andthen with (Q := fun d' _ => d' = d1); [apply post_must; auto|]. intros ? st5 G5 ->.
    eapply post_andthen with (Q := fun d' _ => d' = d1); [apply post_named; auto|]. intros ? st6 G6 ->.
    eapply post_andthen with (Q := fun d' _ => d' = d1); [apply post_must; auto|]. intros ? st7 G7 ->.
    eapply post_andthen with (Q := fun d' st' => result_at t (q ++ [i]) d1 d' st').
    { rewrite (select_nth _ _ _ _ Hn). unfold with_component. rewrite Forall_forall in *. apply (H _ (nth_error_In _ _ Hn)); [|exact G7].
      apply (HA' _ (nth_error_In _ _ Hn)). }
    intros d2 st8 G8 (Fr & v & Hv & Dv). apply post_must; [exact G8|]. intros st9. split.
    + eapply frame_trans; [apply (frame_add d q (JTag i))|exact Fr|auto|]. intros p Hp. eapply extends_below; exact Hp.
    + exists (VCase i v). split; [|econstructor; eassumption]. econstructor; [|exact Hn|exact Hv].
      cbn [ds_source src_tag]. rewrite (Fr q).
      * unfold d1. rewrite ds_get_add. reflexivity.
      * intros [r E]. apply (f_equal (@List.length _)) in E. rewrite !app_length in E. cbn in E. lia.
Qed.

End Sound.
