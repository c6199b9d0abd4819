(** * JSON texts read and written again (C102) *)

From Coq Require Import Strings.String Sorting.Permutation ZifyBool ZifyNat ZifyN.
From Verif Require Import Base BaseFacts StrModel StrFacts Utf8Model Utf8Facts TypesModel MarshalModel MarshalSpec LayoutProofs PresentsFacts JsonModel JsonSpec JsonData JsonLex JsonTok JsonRead JsonEmit JsonBits JsonParse JsonSound JsonReject JsonTop JsonMore.
From Verif Require Import WhiteSpec JsonDocSpec JsonDocProofs JsonRfcSpec JsonRfcProofs JsonRfcTop JsonRewriteSpec.
Ltac Zify.zify_post_hook ::= Z.div_mod_to_equations.
Local Open Scope list_scope.
Local Open Scope Z_scope.

Lemma fits_jsonable fl t : plain_labels t -> forall v, decoded t v -> floats_fit fl t v -> characters json_char t v -> jsonable fl t v.
Proof.
  assert (L : forall ts, Forall (fun t => plain_labels t -> forall v, decoded t v -> floats_fit fl t v -> characters json_char t v -> jsonable fl t v) ts ->
    Forall plain_labels ts -> forall vs, decoded_list ts vs ->
    (forall i t v, nth_error ts i = Some t -> nth_error vs i = Some v -> floats_fit fl t v /\ characters json_char t v) -> jsonables fl ts vs).
  { induction 1 as [|t0 ts H F IH]; intros P vs D A; inversion D; subst; constructor.
    - destruct (A 0%nat t0 v eq_refl eq_refl). apply H; try assumption. exact (Forall_inv P).
    - apply IH; [exact (Forall_inv_tail P)|assumption|]. intros i. exact (A (S i)). }
  induction t using ty_ind'; intros P v D A C; inversion D; subst.
  - constructor.
  - constructor; [assumption| |].
    + intros ->. apply C. apply wi_here.
    + intros E. apply (A p z E). apply wi_here.
  - constructor. apply C; [assumption|apply wi_here].
  - constructor. inversion P; subst. apply L; try assumption. intros i t v Hi Hv. split.
    + intros p z E W. apply (A p z E). exact (wi_tuple _ _ _ _ _ _ _ Hi Hv W).
    + destruct C as [C1 C2]. split; [intros c W; apply C1|intros x Hx W; apply C2; [exact Hx|]]; exact (wi_tuple _ _ _ _ _ _ _ Hi Hv W).
  - inversion P as [| | | |? H64 ND PL|]; subst. constructor; try assumption.
    + apply Forall_map. eapply Forall_impl; [|exact PL]. intros f X. apply X.
    + apply L; try assumption; [apply Forall_map; exact H|apply Forall_map; eapply Forall_impl; [|exact PL]; intros f X; apply X|].
      intros i t v Hi Hv. rewrite nth_error_map in Hi. destruct (nth_error fs i) as [f|] eqn:Hf; [|discriminate Hi]. injection Hi as <-. split.
      * intros p z E W. apply (A p z E). exact (wi_struct _ _ _ _ _ _ _ Hf Hv W).
      * destruct C as [C1 C2]. split; [intros c W; apply C1|intros x Hx W; apply C2; [exact Hx|]]; exact (wi_struct _ _ _ _ _ _ _ Hf Hv W).
  - inversion P as [| | | | |? ND PL]; subst. rewrite Forall_forall in H, PL.
    match goal with N : nth_error cs k = Some (l, t) |- _ => pose proof N as Hn; pose proof (nth_error_In _ _ N) as I end.
    econstructor; [exact ND|exact Hn|apply (PL _ I)|]. apply (H _ I); try assumption; [apply (PL _ I)| |].
    + intros p z E W. apply (A p z E). exact (wi_enum _ _ _ _ _ _ Hn W).
    + destruct C as [C1 C2]. split; [intros c W; apply C1|intros x Hx W; apply C2; [exact Hx|]]; exact (wi_enum _ _ _ _ _ _ Hn W).
Qed.

(** ** Parts of a value *)

Lemma nth_decoded ts vs : decoded_list ts vs -> forall i t v, nth_error ts i = Some t -> nth_error vs i = Some v -> decoded t v.
Proof. induction 1 as [|t0 ts v0 vs D DL IH]; intros [|i] t v Ht Hv; try discriminate; cbn in *; [congruence|eauto]. Qed.

Lemma nth_jsonable fl ts vs : jsonables fl ts vs -> forall i t v, nth_error ts i = Some t -> nth_error vs i = Some v -> jsonable fl t v.
Proof. induction 1 as [|t0 ts v0 vs D DL IH]; intros [|i] t v Ht Hv; try discriminate; cbn in *; [congruence|eauto]. Qed.

Lemma jsonable_within fl t v u w : within t v u w -> jsonable fl t v -> jsonable fl u w.
Proof.
  induction 1 as [t v|ts vs i t v u w Ht Hv W IH|fs vs i f v u w Hf Hv W IH|cs k c v u w Hc W IH]; intros J; [exact J|..].
  - inversion J; subst. apply IH. eapply nth_jsonable; eassumption.
  - inversion J; subst. apply IH. eapply nth_jsonable; [eassumption| |exact Hv]. rewrite nth_error_map, Hf. reflexivity.
  - inversion J as [| | | | |? ? ? ? ? ND N F J']; subst. rewrite Hc in N. injection N as ->. exact (IH J').
Qed.

Lemma encode_inj s s' : Forall (fun c => is_char c = true) s -> Forall (fun c => is_char c = true) s' -> utf8_encode s = utf8_encode s' -> s = s'.
Proof. intros F F' E. apply utf8_decode_encode in F, F'. rewrite E in F. congruence. Qed.

Lemma jsonable_fits fl t v : jsonable fl t v -> characters json_char t v.
Proof.
  intros J. split.
  - intros c W. apply (jsonable_within fl _ _ _ _ W) in J. inversion J; subst. auto.
  - intros s V W. apply (jsonable_within fl _ _ _ _ W) in J. inversion J as [| |s' F E E'| | |]; subst.
    rewrite (encode_inj s s'); auto. apply json_char_valid. exact F.
Qed.

Lemma char_in_range z : in_range PChar z -> is_char z = true.
Proof. exact (fun H => H). Qed.

(** ** Strings read back *)

Lemma reread_valid c : is_char c = true -> Forall (fun c => is_char c = true) (reread c).
Proof.
  intros H. unfold reread. destruct (_ && _) eqn:B; [|repeat constructor; exact H].
  pose proof (is_char_nonneg c H). repeat constructor; unfold is_char; lia.
Qed.

Section Rewrite.
Context (alnum : Z -> bool) (fl : floats) (pf : profile).
Notation reads := (JsonDocSpec.reads alnum).
Notation document := (document alnum fl).
Notation elements := (elements alnum fl).
Notation members := (members alnum fl).

Lemma string_zero pre post r : Forall (fun c => is_char c = true /\ c <> 0) pre ->
  exists st, next alnum (tok_init (string_text (pre ++ 0 :: post) ++ r)) = Ret (st, Err EEscape).
Proof.
  intros F. unfold next. cbn [t_rest tok_init]. unfold string_text. cbn [app skip_whitespace]. change (is_whitespace 34) with false. cbv iota.
  change (exists st, match_string (tok_init (34 :: (flat_map char_text (pre ++ 0 :: post) ++ [34]) ++ r)) (34 :: (flat_map char_text (pre ++ 0 :: post) ++ [34]) ++ r) = Ret (st, Err EEscape)).
  rewrite match_string_eq, flat_map_app. cbn [flat_map]. rewrite <- !app_assoc.
  assert (X : forall l buf k, Forall (fun c => is_char c = true /\ c <> 0) l -> sloop (flat_map char_text l ++ k) buf = sloop k (buf ++ flat_map reread l)).
  { intros l. induction l as [|c l IH]; intros buf k Fl; cbn [flat_map app]; [rewrite app_nil_r; reflexivity|]. inversion Fl as [|? ? [Hc H0] Fl']; subst.
    rewrite <- app_assoc, sloop_char by assumption. rewrite IH by exact Fl'. rewrite <- app_assoc. reflexivity. }
  rewrite X by exact F. rewrite sloop_eq. cbn [char_text Z.eqb lit map Strings.String.list_ascii_of_string app]. eexists. reflexivity.
Qed.

Lemma string_back s r y r' : Forall (fun c => is_char c = true) s -> ~ In 0 s -> reads (string_text s ++ r) (SText y) r' -> y = flat_map reread s.
Proof.
  intros F Z0 R. apply token_symbol_iff in R. destruct R as (st & N & _ & _ & E).
  destruct (reads_string alnum (tok_init (string_text s ++ r)) s r) as (st' & N' & K' & _ & V).
  - rewrite Forall_forall in *. intros c Hc. split; [auto|]. intros ->. auto.
  - reflexivity.
  - rewrite N in N'. injection N' as <-. rewrite V in E by auto. congruence.
Qed.

Lemma string_exact s r y r' : Forall utf8_safe s -> reads (string_text s ++ r) (SText y) r' -> utf8_encode y = utf8_encode s -> Forall json_char s.
Proof.
  intros SF R E. assert (V : Forall (fun c => is_char c = true) s) by (eapply Forall_impl; [|exact SF]; intros c H; apply H).
  destruct (first_such (fun c => c = 0) ltac:(intros c; destruct (Z.eq_dec c 0); auto) s) as [F0|(pre & c & post & -> & F & ->)].
  - assert (Z0 : ~ In 0 s) by (intros I; rewrite Forall_forall in F0; exact (F0 0 I eq_refl)).
    pose proof (string_back s r y r' V Z0 R) as Y. subst y.
    assert (X : flat_map reread s = s).
    { apply encode_inj; [|exact V|exact E]. clear -V. induction V as [|c s Hc V IH]; [constructor|]. cbn [flat_map]. apply Forall_app. split; [apply reread_valid; exact Hc|exact IH]. }
    assert (NN : Forall (fun c => 0 <= c) s) by (revert V; apply Forall_impl; apply is_char_nonneg).
    assert (B : Forall (fun c => ~ bad_control c) s) by (eapply reread_same; eassumption). rewrite Forall_forall in *. intros c Hc. destruct (SF c Hc). repeat split; auto.
  - exfalso. apply token_symbol_iff in R. destruct R as (st & N & _).
    destruct (string_zero pre post r) as (st' & N').
    + apply Forall_app in V. destruct V as [V _]. rewrite Forall_forall in *. auto.
    + rewrite N in N'. discriminate N'.
Qed.

Lemma string_reads s r : Forall json_char s -> reads (string_text s ++ r) (SText s) r.
Proof. intros F. apply (text_value alnum fl _ [] r s (chars_rfc false s F) (Forall_nil _)). Qed.

(** ** Bytes that are UTF-8 *)

Lemma long_char_rest pre c post rest : Forall (fun c => is_char c = true) pre -> Forall (fun c => ~ 0x8000 <= c <= 0xFFFF) pre -> 0x8000 <= c <= 0xFFFF ->
  utf8_decode (emit_utf8_string (pre ++ c :: post) ++ rest) = None.
Proof.
  intros V S Hc. unfold emit_utf8_string. rewrite flat_map_app. cbn [flat_map].
  rewrite write_chars.
  - rewrite <- !app_assoc. rewrite (app_assoc (utf8_encode (lit """"))), <- utf8_app. apply utf8_decode_invalid_suffix.
    + apply Forall_app. split; [repeat constructor|]. clear - V. induction V as [|x l Hx V IH]; [constructor|]. cbn [flat_map].
      apply Forall_app. split; [apply char_text_valid; exact Hx|exact IH].
    + apply write_ch_invalid. exact Hc.
  - rewrite Forall_forall in *. intros x Hx. split; [apply V; exact Hx|apply S; exact Hx].
Qed.

Lemma string_safe s rest : Forall (fun c => is_char c = true) s -> utf8_decode (emit_utf8_string s ++ rest) <> None -> Forall utf8_safe s.
Proof.
  intros V H. destruct (first_such (fun c => 0x8000 <= c <= 0xFFFF)) with (s := s) as [F|(pre & c & post & -> & F & Hc)].
  - intros c. destruct (Z.leb_spec 0x8000 c); [|right; lia]. destruct (Z.leb_spec c 0xFFFF); [left; lia|right; lia].
  - rewrite Forall_forall in *. intros c Hc. split; auto.
  - exfalso. apply H. apply long_char_rest; [|exact F|exact Hc]. apply Forall_app in V. tauto.
Qed.

Lemma decode_rest x bs : Forall (fun c => is_char c = true) x -> utf8_decode (utf8_encode x ++ bs) <> None -> utf8_decode bs <> None.
Proof. intros V H E. apply H. apply utf8_decode_invalid_suffix; assumption. Qed.

Lemma fl_tuple ts vs i t v : floats_fit fl (TTuple ts) (VTuple vs) -> nth_error ts i = Some t -> nth_error vs i = Some v -> floats_fit fl t v.
Proof. intros A Ht Hv p z E W. apply (A p z E). exact (wi_tuple _ _ _ _ _ _ _ Ht Hv W). Qed.
Lemma fl_struct fs vs i t v : floats_fit fl (TStruct fs) (VStruct vs) -> nth_error (map snd fs) i = Some t -> nth_error vs i = Some v -> floats_fit fl t v.
Proof.
  intros A Ht Hv p z E W. apply (A p z E). rewrite nth_error_map in Ht. destruct (nth_error fs i) as [f|] eqn:Hf; [|discriminate Ht]. injection Ht as <-.
  exact (wi_struct _ _ _ _ _ _ _ Hf Hv W).
Qed.
Lemma fl_enum cs k l t v : floats_fit fl (TEnum cs) (VCase k v) -> nth_error cs k = Some (l, t) -> floats_fit fl t v.
Proof. intros A Hn p z E W. apply (A p z E). exact (wi_enum _ _ _ _ _ _ Hn W). Qed.

Lemma ch_tuple P ts vs i t v : characters P (TTuple ts) (VTuple vs) -> nth_error ts i = Some t -> nth_error vs i = Some v -> characters P t v.
Proof. intros [A B] Ht Hv. split; [intros c W; apply A|intros x V W; apply B; [exact V|]]; exact (wi_tuple _ _ _ _ _ _ _ Ht Hv W). Qed.
Lemma ch_struct P fs vs i t v : characters P (TStruct fs) (VStruct vs) -> nth_error (map snd fs) i = Some t -> nth_error vs i = Some v -> characters P t v.
Proof.
  intros [A B] Ht Hv. rewrite nth_error_map in Ht. destruct (nth_error fs i) as [f|] eqn:Hf; [|discriminate Ht]. injection Ht as <-.
  split; [intros c W; apply A|intros x V W; apply B; [exact V|]]; exact (wi_struct _ _ _ _ _ _ _ Hf Hv W).
Qed.
Lemma ch_enum P cs k l t v : characters P (TEnum cs) (VCase k v) -> nth_error cs k = Some (l, t) -> characters P t v.
Proof. intros [A B] Hn. split; [intros c W; apply A|intros x V W; apply B; [exact V|]]; exact (wi_enum _ _ _ _ _ _ Hn W). Qed.

Lemma ch_tuple_of P ts vs : (forall i t v, nth_error ts i = Some t -> nth_error vs i = Some v -> characters P t v) -> characters P (TTuple ts) (VTuple vs).
Proof. intros H. split; [intros c W|intros x V W]; inversion W as [|? ? i t v ? ? Ht Hv W'| |]; subst; destruct (H i t v Ht Hv) as [A B]; eauto. Qed.
Lemma ch_struct_of P fs vs : (forall i t v, nth_error (map snd fs) i = Some t -> nth_error vs i = Some v -> characters P t v) -> characters P (TStruct fs) (VStruct vs).
Proof.
  intros H. split; [intros c W|intros x V W]; inversion W as [| |? ? i f v ? ? Hf Hv W'|]; subst;
    (destruct (H i (snd f) v) as [A B]; [rewrite nth_error_map, Hf; reflexivity|exact Hv|]); eauto.
Qed.
Lemma ch_enum_of P cs k l t v : nth_error cs k = Some (l, t) -> characters P t v -> characters P (TEnum cs) (VCase k v).
Proof. intros Hn [A B]. split; [intros c W|intros x V W]; inversion W as [| | |? ? f ? ? ? Hf W']; subst; rewrite Hn in Hf; injection Hf as <-; eauto. Qed.

Lemma char_string z : write_ch z = flat_map write_ch [z].
Proof. cbn. rewrite app_nil_r. reflexivity. Qed.

Lemma prim_emitted src p q z bs rest : src_prim src p q = Ret z -> in_range p z -> (p = PF32 \/ p = PF64 -> float_ok fl p z) ->
  emit_prim fl src p q = Ret bs -> utf8_decode (bs ++ rest) <> None ->
  valid_text (prim_text fl p z) /\ bs = utf8_encode (prim_text fl p z) /\ (p = PChar -> utf8_safe z).
Proof.
  intros E Hr Hf H U. unfold emit_prim in H. rewrite E in H. cbn [bind] in H. injection H as H.
  destruct p; try (subst bs; split; [cbn [prim_text]; first [apply number_ascii; apply show_int_lexeme|destruct Hf as [Hf _]; [auto; fail|apply number_ascii; exact Hf]]|split; [reflexivity|discriminate]]).
  - subst bs. cbn [prim_text]. split; [destruct (z =? 0); apply ascii_ok; reflexivity|]. split; [destruct Hr as [->| ->]; reflexivity|discriminate].
  - assert (X : bs = emit_utf8_string [z]). { rewrite <- H. unfold emit_utf8_string. cbn [flat_map]. rewrite app_nil_r. reflexivity. }
    rewrite X in *. assert (S : Forall utf8_safe [z]) by (apply (string_safe [z] rest); [constructor; [exact Hr|constructor]|exact U]).
    cbn [prim_text]. split; [apply string_text_valid; constructor; [exact Hr|constructor]|]. split; [apply emit_string_text; exact S|]. intros _. exact (Forall_inv S).
Qed.

Lemma nth_cases {A} (t : A) ts v vs (P : A -> val -> Prop) : P t v -> (forall i u w, nth_error ts i = Some u -> nth_error vs i = Some w -> P u w) ->
  forall i u w, nth_error (t :: ts) i = Some u -> nth_error (v :: vs) i = Some w -> P u w.
Proof. intros H0 H [|i] u w Hu Hw; cbn in *; [congruence|eauto]. Qed.

Lemma emitted_text src t : plain_labels t -> forall q v bs rest, presents src t q v -> decoded t v -> floats_fit fl t v ->
  emit fl src t q = Ret bs -> utf8_decode (bs ++ rest) <> None ->
  exists x, value_text fl t v x /\ valid_text x /\ bs = utf8_encode x /\ characters utf8_safe t v.
Proof.
  assert (G : forall A (g : A -> ty) (pre : A -> list byte) (ptext : A -> str) l,
    Forall (fun a => plain_labels (g a) -> forall q v bs rest, presents src (g a) q v -> decoded (g a) v -> floats_fit fl (g a) v ->
       emit fl src (g a) q = Ret bs -> utf8_decode (bs ++ rest) <> None ->
       exists x, value_text fl (g a) v x /\ valid_text x /\ bs = utf8_encode x /\ characters utf8_safe (g a) v) l ->
    Forall (fun a => pre a = utf8_encode (ptext a) /\ valid_text (ptext a) /\ plain_labels (g a)) l ->
    forall q k vs bs rest, presents_list src (map g l) q k vs -> decoded_list (map g l) vs ->
    (forall i t v, nth_error (map g l) i = Some t -> nth_error vs i = Some v -> floats_fit fl t v) ->
    emit_members (fun a q' => b <- emit fl src (g a) q' ;; Ret (pre a ++ b)) l q k = Ret bs -> utf8_decode (bs ++ rest) <> None ->
    exists xs, values_text fl (map g l) vs xs /\ Forall valid_text xs /\
      bs = utf8_encode (comma_all k (map (fun m => ptext (fst m) ++ snd m) (combine l xs))) /\
      (forall i t v, nth_error (map g l) i = Some t -> nth_error vs i = Some v -> characters utf8_safe t v)).
  { intros A g pre ptext l HF. induction HF as [|a l Ha Hl IH]; intros HP q k vs bs rest Hp Hd Hf H U; cbn [map] in *.
    - inversion Hp; subst. cbn in H. injection H as <-. exists []. split; [constructor|]. split; [constructor|]. split; [reflexivity|]. intros [|i] u w Ht Hv; discriminate Hv.
    - inversion Hp; subst. inversion Hd; subst. inversion HP as [|? ? (Ea & Va & La) HP']; subst. cbn [emit_members] in H. unfold with_component in H.
      destruct (emit fl src (g a) (q ++ [k])) as [b| |] eqn:Eb; try discriminate H. cbn [bind] in H.
      destruct (emit_members _ l q (S k)) as [b'| |] eqn:Eb'; try discriminate H. cbn [bind] in H. injection H as <-.
      assert (U1 : utf8_decode (b ++ b' ++ rest) <> None).
      { apply (decode_rest ((if (k =? 0)%nat then [] else [44]) ++ ptext a)).
        - apply Forall_app. split; [destruct (k =? 0)%nat; repeat constructor|exact Va].
        - rewrite utf8_app. intros E. apply U. rewrite <- E, Ea, <- !app_assoc. destruct (k =? 0)%nat; reflexivity. }
      destruct (Ha La (q ++ [k]) v b (b' ++ rest)) as (x & Hx & Vx & Ex & Cx); try assumption. { exact (Hf 0%nat _ _ eq_refl eq_refl). }
      assert (U2 : utf8_decode (b' ++ rest) <> None) by (rewrite Ex in U1; exact (decode_rest x _ Vx U1)).
      destruct (IH HP' q (S k) vs0 b' rest) as (xs & Hxs & Vxs & Exs & Cxs); try assumption. { intros i. exact (Hf (S i)). }
      exists (x :: xs). split; [constructor; assumption|]. split; [constructor; assumption|]. split.
      + cbn [combine map comma_all fst snd]. rewrite Ex, Exs, Ea, !utf8_app, <- !app_assoc. f_equal. destruct (k =? 0)%nat; reflexivity.
      + apply (nth_cases (g a) (map g l) v vs0 (characters utf8_safe)); assumption. }
  induction t using ty_ind'; intros PL q v bs rest Hp Hd Hf E U; cbn [emit] in E.
  - inversion Hp; subst. injection E as <-. exists (lit "null"). split; [constructor|]. split; [apply ascii_ok; reflexivity|]. split; [reflexivity|].
    split; [intros c W|intros x V W]; inversion W.
  - inversion Hp as [|? ? ? Ep| | | |]; subst. inversion Hd; subst. exists (prim_text fl p z). split; [constructor|].
    destruct (prim_emitted src p q z bs rest Ep) as (V & B & C); try assumption. { intros F. apply (Hf p z F). apply wi_here. }
    split; [exact V|]. split; [exact B|]. split; [intros c W|intros x Vx W]; inversion W; subst; auto.
  - inversion Hp as [| |? bs0 Hlen Hbs| | |]; subst. inversion Hd as [| |s Hs| | |]; subst. rewrite Hbs in E. cbn [bind] in E. rewrite utf8_decode_encode in E by exact Hs.
    injection E as <-. pose proof (string_safe s rest Hs U) as S. exists (string_text s). split; [constructor; exact Hs|]. split; [apply string_text_valid, Hs|].
    split; [apply emit_string_text; exact S|]. split; [intros c W; inversion W|intros x Vx W]. inversion W as [? ? A1 A2 E1 E2| | |].
    rewrite (encode_inj x s); auto.
  - inversion Hp as [| | |? ? vs Hpl| |]; subst. inversion Hd as [| | |? ? Hjl| |]; subst. inversion PL as [| | |? PLs| |]; subst.
    destruct (emit_members (emit fl src) ts q 0) as [b| |] eqn:Eb; try discriminate E. cbn [bind] in E. injection E as <-.
    destruct (G _ (fun t => t) (fun _ => []) (fun _ => []) _ H) with (q := q) (k := 0%nat) (vs := vs) (bs := b) (rest := utf8_encode (lit "]") ++ rest) as (xs & Hxs & Vxs & Exs & Cxs).
    { eapply Forall_impl; [|exact PLs]. intros t Ht. split; [reflexivity|]. split; [constructor|exact Ht]. }
    { rewrite map_id. exact Hpl. } { rewrite map_id. exact Hjl. } { rewrite map_id. intros i t v Ht Hv. eapply fl_tuple; eassumption. }
    { rewrite <- Eb. clear. generalize 0%nat. induction ts as [|t ts IH]; intros k; [reflexivity|]. cbn [emit_members]. rewrite IH.
      destruct (emit fl src t (with_component q k)); reflexivity. }
    { apply (decode_rest (lit "[")); [apply ascii_ok; reflexivity|]. change (utf8_decode ((utf8_encode (lit "[") ++ b ++ utf8_encode (lit "]")) ++ rest) <> None) in U. rewrite <- !app_assoc in U. exact U. }
    rewrite map_id in Hxs, Cxs. exists (91 :: comma_sep xs ++ [93]). split; [constructor; exact Hxs|].
    split; [constructor; [reflexivity|]; apply Forall_app; split; [apply comma_sep_valid; exact Vxs|repeat constructor]|].
    split; [|apply ch_tuple_of; exact Cxs]. rewrite utf8_cons, utf8_app.
    assert (X : b = utf8_encode (comma_sep xs)).
    { rewrite Exs, comma_all_0. f_equal. f_equal.
      assert (L : List.length ts = List.length xs). { clear - Hxs. induction Hxs using values_text_mind with (P := fun _ _ _ => True); cbn; auto. }
      clear - L. revert xs L; induction ts as [|t ts IH]; intros [|x xs] L; try discriminate; [reflexivity|]. cbn. f_equal. apply IH. cbn in L; lia. }
    rewrite X. reflexivity.
  - inversion Hp as [| | | |? ? vs Hpl|]; subst. inversion Hd as [| | | |? ? Hjl|]; subst. inversion PL as [| | | |? H64 ND PLs|]; subst.
    destruct (emit_members _ fs q 0) as [b| |] eqn:Eb; try discriminate E. cbn [bind] in E. injection E as <-.
    destruct (G _ snd (fun f => emit_utf8_string (fst f) ++ utf8_encode (lit ":")) (fun f => string_text (fst f) ++ [58]) _ H) with (q := q) (k := 0%nat) (vs := vs) (bs := b) (rest := utf8_encode (lit "}") ++ rest) as (xs & Hxs & Vxs & Exs & Cxs).
    { eapply Forall_impl; [|exact PLs]. intros f [Hl Ht]. split; [rewrite utf8_app, emit_string_text by (apply json_char_safe; exact Hl); reflexivity|].
      split; [apply Forall_app; split; [apply string_text_valid, json_char_valid, Hl|repeat constructor]|exact Ht]. }
    { exact Hpl. } { exact Hjl. } { intros i t v Ht Hv. eapply fl_struct; eassumption. }
    { rewrite <- Eb. clear. generalize 0%nat. induction fs as [|t ts IH]; intros k; [reflexivity|]. cbn [emit_members]. rewrite IH.
      destruct (emit fl src (snd t) (with_component q k)); cbn [bind]; rewrite <- ?app_assoc; reflexivity. }
    { apply (decode_rest (lit "{")); [apply ascii_ok; reflexivity|]. change (utf8_decode ((utf8_encode (lit "{") ++ b ++ utf8_encode (lit "}")) ++ rest) <> None) in U. rewrite <- !app_assoc in U. exact U. }
    exists (123 :: comma_sep (map (fun m => string_text (fst m) ++ 58 :: snd m) (combine (map fst fs) xs)) ++ [125]).
    assert (M : map (fun m => string_text (fst m) ++ 58 :: snd m) (combine (map fst fs) xs) =
                map (fun m : (str * ty) * str => (string_text (fst (fst m)) ++ [58]) ++ snd m) (combine fs xs)).
    { clear. revert xs; induction fs as [|f fs IH]; intros [|x xs]; try reflexivity. cbn [map combine fst snd]. rewrite IH, <- app_assoc. reflexivity. }
    split; [constructor; exact Hxs|]. split; [|split; [|apply ch_struct_of; exact Cxs]].
    + constructor; [reflexivity|]. apply Forall_app; split; [|repeat constructor]. apply comma_sep_valid.
      clear - PLs Vxs. revert xs Vxs; induction fs as [|f fs IH]; intros [|x xs] Vxs; cbn [map combine]; try constructor.
      * inversion PLs as [|? ? [P1 P2] P3]; subst. inversion Vxs; subst. apply Forall_app. split; [apply string_text_valid, json_char_valid; assumption|].
        constructor; [reflexivity|assumption].
      * inversion PLs; subst. inversion Vxs; subst. apply IH; assumption.
    + rewrite M, <- comma_all_0, utf8_cons, utf8_app, <- Exs. reflexivity.
  - inversion Hp as [| | | | |? ? k l t v' Hk Hn Hv]; subst. inversion Hd as [| | | | |? ? l' t' ? Hn' Hv']; subst. inversion PL as [| | | | |? ND PLs]; subst.
    rewrite Hn in Hn'. injection Hn' as <- <-. rewrite Hk in E. cbn [bind] in E. unfold with_component in E.
    assert (Hin := nth_error_In _ _ Hn). rewrite Forall_forall in H, PLs. destruct (PLs _ Hin) as [Hl Ht]. cbn [fst snd] in Hl, Ht.
    assert (C : forall (h : str * ty -> outcome (list byte)) cs j c, nth_error cs j = Some c -> emit_case h cs j = h c).
    { intros h cs0. induction cs0 as [|a cs0 IH]; intros [|j] c Hc; try discriminate; cbn in *; [injection Hc as ->; reflexivity|apply IH; exact Hc]. }
    rewrite (C _ _ _ _ Hn) in E. cbn [fst snd] in E. destruct (emit fl src t (q ++ [k])) as [b| |] eqn:Eb; try discriminate E. cbn [bind] in E. injection E as <-.
    destruct (H _ Hin Ht (q ++ [k]) v' b (utf8_encode (lit "}") ++ rest)) as (x & Hx & Vx & Ex & Cx); try assumption.
    { eapply fl_enum; eassumption. }
    { apply (decode_rest (lit "{""kind"":" ++ string_text l ++ lit ",""value"":")).
      - repeat (apply Forall_app; split); try (apply ascii_ok; reflexivity). apply string_text_valid, json_char_valid, Hl.
      - rewrite !utf8_app, <- !app_assoc.
        change (utf8_decode ((utf8_encode (lit "{""kind"":") ++ emit_utf8_string l ++ utf8_encode (lit ",""value"":") ++ b ++ utf8_encode (lit "}")) ++ rest) <> None) in U.
        rewrite emit_string_text in U by (apply json_char_safe; exact Hl). rewrite <- !app_assoc in U. exact U. }
    cbn [snd] in *. exists (lit "{""kind"":" ++ string_text l ++ lit ",""value"":" ++ x ++ [125]). split; [econstructor; eassumption|]. split; [|split; [|eapply ch_enum_of; eassumption]].
    + repeat (apply Forall_app; split); try assumption; try (apply ascii_ok; reflexivity). apply string_text_valid, json_char_valid, Hl.
    + change (utf8_encode (lit "{""kind"":") ++ emit_utf8_string l ++ utf8_encode (lit ",""value"":") ++ b ++ utf8_encode (lit "}") =
        utf8_encode (lit "{""kind"":" ++ string_text l ++ lit ",""value"":" ++ x ++ [125])).
      rewrite !utf8_app, emit_string_text by (apply json_char_safe; exact Hl). rewrite Ex. reflexivity.
Qed.

(** ** Texts read back *)

Notation readable := (JsonDocProofs.readable alnum).

Lemma labels_structs t : plain_labels t -> all_structs (fun n => (n < 64)%nat) t.
Proof.
  induction t using ty_ind'; intros P; inversion P as [| | |? F|? H64 ND F|? ND F]; subst; constructor; try assumption.
  - rewrite Forall_forall in *. auto.
  - rewrite Forall_forall in *. intros f I. apply (H f I). apply F. exact I.
  - rewrite Forall_forall in *. intros f I. apply (H f I). apply F. exact I.
Qed.

(** After the text of a value the document that was read goes on where the text ends. *)
Lemma after_text t v x c r s1 : plain_labels t -> value_text fl t v x -> jsonable fl t v -> In c [44; 93; 125] -> document t (x ++ c :: r) v s1 -> readable s1 ->
  reads s1 (SPunct c) r.
Proof.
  intros P T J I D R.
  assert (B : boundary alnum t (c :: r)).
  { assert (S : separator alnum (c :: r)) by (cbn in I; destruct I as [<-|[<-|[<-|[]]]]; (split; [reflexivity|discriminate])).
    destruct t as [|p| | | |]; try exact I; try exact S; [destruct p; try exact S; exact Logic.I| | | |]; exact Logic.I. }
  destruct (parse_text alnum fl pf t v x J T [] (c :: r) (tok_init (x ++ c :: r)) [] eq_refl B) as (st1 & d1 & E & R1 & _).
  destruct (step_runs alnum (tok_init (x ++ c :: r)) [] (x ++ c :: r) eq_refl (document_readable alnum fl _ _ _ _ D)) as (st & E1 & St).
  rewrite E1, andthen_ret in E.
  destruct (parse_complete alnum fl pf t _ v s1 D (labels_structs t P) R [] st [] St) as (d' & st' & E2 & St').
  rewrite E in E2. apply step_ok in E2. destruct E2 as [_ S2]. rewrite R1 in S2. unfold stands in S2, St'.
  assert (Pc : reads (c :: r) (SPunct c) r) by (apply rd_punct; cbn in I |- *; tauto).
  destruct (reads_det alnum _ _ _ _ _ S2 Pc) as [A1 A2]. rewrite A1, A2 in St'. exact St'.
Qed.

Lemma prim_back p z r r' : in_range p z -> floats_fit fl (TPrim p) (VPrim z) -> characters utf8_safe (TPrim p) (VPrim z) ->
  document (TPrim p) (prim_text fl p z ++ r) (VPrim z) r' -> jsonable fl (TPrim p) (VPrim z).
Proof.
  intros R F C D. constructor; [exact R| |intros E; apply (F p z E); apply wi_here]. intros ->. cbn [prim_text] in D.
  assert (S : Forall utf8_safe [z]) by (constructor; [apply C; apply wi_here|constructor]).
  inversion D as [| | |s c r0 Rd| | | | | |]; subst.
  - exact (Forall_inv (string_exact [z] r [z] r' S Rd eq_refl)).
  - exfalso. match goal with H : integer_prim PChar |- _ => unfold integer_prim in H; cbn in H; intuition discriminate end.
  - intuition discriminate.
Qed.

Definition back (t : ty) : Prop := plain_labels t -> forall v x r r', value_text fl t v x -> decoded t v -> floats_fit fl t v -> characters utf8_safe t v ->
  document t (x ++ r) v r' -> jsonable fl t v.

Lemma back_items ts : Forall back ts -> Forall plain_labels ts -> forall vs xs r r', values_text fl ts vs xs -> decoded_list ts vs ->
  (forall i t v, nth_error ts i = Some t -> nth_error vs i = Some v -> floats_fit fl t v /\ characters utf8_safe t v) ->
  readable r' -> elements true ts (comma_sep xs ++ r) vs r' -> jsonables fl ts vs.
Proof.
  induction 1 as [|t ts B _ IH]; intros P vs xs r r' T D A Rd E; inversion T as [|? ? v vs0 x xs0 Tx Txs]; subst; [constructor|].
  inversion D; subst. inversion P as [|? ? P0 P']; subst. inversion E as [|? ? ? ? ? ? s0 s1 ? Sep Dx El]; subst. cbn [separated] in Sep. subst s0.
  destruct (A 0%nat t v eq_refl eq_refl) as [Fl Ch].
  assert (N : exists r1, comma_sep (x :: xs0) ++ r = x ++ r1 /\ (xs0 = [] \/ r1 = 44 :: comma_sep xs0 ++ r)).
  { destruct xs0 as [|y ys]; [exists r; repeat split; auto|]. exists (44 :: comma_sep (y :: ys) ++ r).
    change (comma_sep (x :: y :: ys)) with (x ++ 44 :: comma_sep (y :: ys)). rewrite <- app_assoc. split; [reflexivity|]. right; reflexivity. }
  destruct N as (r1 & N1 & N3). rewrite N1 in Dx.
  assert (J : jsonable fl t v) by (eapply B; eassumption). constructor; [exact J|].
  destruct N3 as [->|N3]; [inversion Txs; subst; constructor|]. subst r1.
  pose proof (after_text t v x 44 _ s1 P0 Tx J ltac:(cbn; tauto) Dx (elements_readable alnum fl _ _ _ _ El Rd)) as Rc.
  assert (El' : ts = [] /\ vs0 = [] \/ elements true ts (comma_sep xs0 ++ r) vs0 r').
  { inversion El as [|? ? ? ? ? ? s0 ? ? Sep' D' E']; subst; [left; auto|right]. cbn [separated] in Sep'.
    destruct (reads_det alnum _ _ _ _ _ Sep' Rc) as [_ ->]. eapply el_cons; [reflexivity|exact D'|exact E']. }
  destruct El' as [[-> ->]|El']; [constructor|].
  eapply IH; try eassumption. intros i. exact (A (S i)).
Qed.

Lemma label_once (fs : list (str * ty)) (vs : list val) l t v t' v' : ~ In l (map fst fs) -> In (l, t', v') ((l, t, v) :: combine fs vs) -> t' = t /\ v' = v.
Proof.
  intros N [E|I]; [injection E as -> ->; auto|]. exfalso. apply N. apply in_combine_l in I. exact (in_map fst _ _ I).
Qed.

Lemma comma_sep_cons2 x y ys : comma_sep (x :: y :: ys) = x ++ 44 :: comma_sep (y :: ys).
Proof. reflexivity. Qed.

Lemma back_members fs : Forall (fun f => back (snd f)) fs -> NoDup (map fst fs) -> Forall (fun f => Forall json_char (fst f) /\ plain_labels (snd f)) fs ->
  forall vs xs ms r r', values_text fl (map snd fs) vs xs -> decoded_list (map snd fs) vs ->
  (forall i t v, nth_error (map snd fs) i = Some t -> nth_error vs i = Some v -> floats_fit fl t v /\ characters utf8_safe t v) ->
  readable r' -> Permutation ms (combine fs vs) ->
  members true ms (comma_sep (map (fun m => string_text (fst m) ++ 58 :: snd m) (combine (map fst fs) xs)) ++ r) r' -> jsonables fl (map snd fs) vs.
Proof.
  induction 1 as [|[l t] fs B _ IH]; intros ND P vs xs ms r r' T D A Rd Pm E; cbn [map fst snd] in *; inversion T as [|? ? v vs0 x xs0 Tx Txs]; subst; [constructor|].
  inversion D; subst. inversion P as [|? ? [Pl P0] P']; subst. cbn [fst snd] in Pl, P0. apply NoDup_cons_iff in ND. destruct ND as [N1 ND].
  destruct (A 0%nat t v eq_refl eq_refl) as [Fl Ch]. cbn [combine] in Pm.
  destruct ms as [|[[l' t'] v'] ms]; [apply Permutation_nil in Pm; discriminate Pm|].
  inversion E as [|? ? ? ? ? ? s0 s1 s2 s3 ? Sep R1 R2 Dx El]; subst. cbn [separated] in Sep. subst s0.
  assert (N : exists r1, comma_sep (map (fun m => string_text (fst m) ++ 58 :: snd m) (combine (l :: map fst fs) (x :: xs0))) ++ r = string_text l ++ 58 :: x ++ r1 /\
     (fs = [] \/ r1 = 44 :: comma_sep (map (fun m => string_text (fst m) ++ 58 :: snd m) (combine (map fst fs) xs0)) ++ r)).
  { destruct fs as [|[l2 t2] fs]; [exists r; cbn; rewrite <- app_assoc; repeat split; auto|]. inversion Txs as [|? ? v2 ? x2 xs2]; subst.
    exists (44 :: comma_sep (map (fun m => string_text (fst m) ++ 58 :: snd m) (combine (map fst ((l2, t2) :: fs)) (x2 :: xs2))) ++ r).
    split; [|right; reflexivity]. cbn [map fst combine].
    rewrite comma_sep_cons2. cbn [fst snd]. rewrite <- !app_assoc. reflexivity. }
  destruct N as (r1 & Nt & N3). rewrite Nt in R1.
  destruct (reads_det alnum _ _ _ _ _ R1 (string_reads l (58 :: x ++ r1) Pl)) as [E1 ->]. injection E1 as ->.
  destruct (reads_det alnum _ _ _ _ _ R2 (rd_punct alnum 58 (x ++ r1) ltac:(cbn; tauto))) as [_ ->].
  destruct (label_once fs vs0 l t v t' v' N1) as [-> ->]. { eapply Permutation_in; [exact Pm|left; reflexivity]. }
  apply Permutation_cons_inv in Pm.
  assert (J : jsonable fl t v) by (eapply B; eassumption). constructor; [exact J|].
  destruct N3 as [->|N3]; [inversion Txs; subst; constructor|]. subst r1.
  pose proof (after_text t v x 44 _ s3 P0 Tx J ltac:(cbn; tauto) Dx (members_readable alnum fl _ _ _ El Rd)) as Rc.
  assert (El' : ms = [] \/ members true ms (comma_sep (map (fun m => string_text (fst m) ++ 58 :: snd m) (combine (map fst fs) xs0)) ++ r) r').
  { inversion El as [|? ? ? ? ? ? s0 ? ? ? ? Sep' K1 K2 D' E']; subst; [left; auto|right]. cbn [separated] in Sep'.
    destruct (reads_det alnum _ _ _ _ _ Sep' Rc) as [_ ->]. eapply mb_cons; [reflexivity|exact K1|exact K2|exact D'|exact E']. }
  destruct El' as [->|El'].
  - apply Permutation_nil in Pm. destruct fs as [|f fs]; [inversion Txs; subst; constructor|]. destruct vs0; [inversion Txs|discriminate Pm].
  - eapply IH; try eassumption. intros i. exact (A (S i)).
Qed.

Lemma text_back t : back t.
Proof.
  induction t using ty_ind'; intros PL v x r r' T D Fl Ch Dc.
  - inversion D; subst. constructor.
  - inversion T; subst. inversion D; subst. eapply prim_back; eassumption.
  - inversion T as [| |s V| | |]; subst. constructor. inversion Dc as [| | | | | |s0 y r0 R E1 E2| | |]; subst.
    apply (string_exact s r y r'); [apply Ch; [exact V|apply wi_here]|exact R|congruence].
  - inversion T as [| | |? vs xs Txs| |]; subst. inversion D; subst. inversion PL; subst. constructor.
    inversion Dc as [| | | | | | |? ? ? s1 s2 ? R1 El R2| |]; subst. cbn [app] in R1.
    destruct (reads_det alnum _ _ _ _ _ R1 (rd_punct alnum 91 _ ltac:(cbn; tauto))) as [_ ->]. rewrite <- app_assoc in El.
    eapply back_items; [exact H|assumption|exact Txs|assumption| | |exact El]; [|eapply reads_readable; exact R2].
    intros i t v Ht Hv. split; [eapply fl_tuple|eapply ch_tuple]; eassumption.
  - inversion T as [| | | |? vs xs Txs|]; subst. inversion D; subst. inversion PL as [| | | |? H64 ND PLs|]; subst. constructor; try assumption.
    { apply Forall_map. eapply Forall_impl; [|exact PLs]. intros f X. apply X. }
    inversion Dc as [| | | | | | | |? ? ms ? s1 s2 ? ND' L Pm R1 El R2|]; subst. cbn [app] in R1.
    destruct (reads_det alnum _ _ _ _ _ R1 (rd_punct alnum 123 _ ltac:(cbn; tauto))) as [_ ->]. rewrite <- app_assoc in El.
    eapply back_members; [exact H|exact ND|exact PLs|exact Txs|assumption| | |exact Pm|exact El]; [|eapply reads_readable; exact R2].
    intros i t v Ht Hv. split; [eapply fl_struct|eapply ch_struct]; eassumption.
  - inversion T as [| | | | |? k l t v' x' Hn Tx]; subst. inversion D as [| | | | |? ? l' t' ? Hn' Dv]; subst. rewrite Hn in Hn'. injection Hn' as <- <-.
    inversion PL as [| | | | |? ND PLs]; subst. rewrite Forall_forall in H, PLs. pose proof (nth_error_In _ _ Hn) as I. destruct (PLs _ I) as [Pl Pt]. cbn [fst snd] in Pl, Pt.
    inversion Dc as [| | | | | | | | |? ? l2 t2 ? ? s1 s2 s3 s4 s5 s6 s7 s8 ? Hn2 _ R1 R2 R3 R4 R5 R6 R7 Dx R8]; subst. rewrite Hn in Hn2. injection Hn2 as <- <-.
    assert (K : forall w, In w [lit "kind"; lit "value"] -> Forall json_char w).
    { intros w [<-|[<-|[]]]; repeat constructor; unfold bad_control; cbn; lia. }
    change (lit "{""kind"":") with (123 :: string_text (lit "kind") ++ [58]) in R1. change (lit ",""value"":") with (44 :: string_text (lit "value") ++ [58]) in R1.
    repeat (rewrite <- !app_assoc in R1 || cbn [app] in R1). 
    destruct (reads_det alnum _ _ _ _ _ R1 (rd_punct alnum 123 _ ltac:(cbn; tauto))) as [_ ->].
    destruct (reads_det alnum _ _ _ _ _ R2 (string_reads (lit "kind") _ (K (lit "kind") (or_introl eq_refl)))) as [_ ->].
    destruct (reads_det alnum _ _ _ _ _ R3 (rd_punct alnum 58 _ ltac:(cbn; tauto))) as [_ ->].
    destruct (reads_det alnum _ _ _ _ _ R4 (string_reads l _ Pl)) as [_ ->].
    destruct (reads_det alnum _ _ _ _ _ R5 (rd_punct alnum 44 _ ltac:(cbn; tauto))) as [_ ->].
    destruct (reads_det alnum _ _ _ _ _ R6 (string_reads (lit "value") _ (K (lit "value") (or_intror (or_introl eq_refl))))) as [_ ->].
    destruct (reads_det alnum _ _ _ _ _ R7 (rd_punct alnum 58 _ ltac:(cbn; tauto))) as [_ ->].
    econstructor; [exact ND|exact Hn|exact Pl|]. eapply (H _ I Pt v' x' (125 :: r)); try eassumption; [eapply fl_enum; eassumption|eapply ch_enum; eassumption].
Qed.

(** ** The statements *)

Lemma rewrite_exact t v : plain_labels t -> decoded t v -> floats_fit fl t v ->
  forall src, presents src t [] v ->
  ((exists bs text, json_encode fl t src = Ret bs /\ utf8_decode bs = Some text /\ stands_for alnum fl pf t text v) <-> characters json_char t v).
Proof.
  intros P D F src S. split.
  - intros (bs & text & E & U & d & Ed & Pd).
    destruct (emitted_text src t P [] v bs [] S D F E) as (x & Tx & Vx & -> & Ch); [rewrite app_nil_r, U; discriminate|].
    rewrite utf8_decode_encode in U by exact Vx. injection U as <-.
    apply (jsonable_fits fl). destruct (proj1 (decode_exact alnum fl pf t x [] v (labels_structs t P)) (ex_intro _ d (conj Ed Pd))) as (s & y & r & Dc & R).
    apply (text_back t P v x [] s Tx D F Ch). rewrite app_nil_r. exact Dc.
  - intros C. apply (fits_jsonable fl t P v D F) in C. destruct (json_round_trip_lemma alnum fl pf t v src [] S C) as (bs & text & d & E & U & Ed & Pd).
    exists bs, text. split; [exact E|]. split; [exact U|]. exists d. split; assumption.
Qed.

Lemma all_structs_impl (Q Q' : nat -> Prop) t : (forall n, Q n -> Q' n) -> all_structs Q t -> all_structs Q' t.
Proof.
  intros I. induction t using ty_ind'; intros A; inversion A; subst; constructor; auto; rewrite Forall_forall in *; auto.
Qed.

Lemma text_decoded t text v : plain_labels t -> Forall (fun c => is_char c = true) text -> floats_in_range fl -> stands_for alnum fl pf t text v -> decoded t v.
Proof.
  intros P V R (d & E & S). assert (A : all_structs (fun n => pf = Debug \/ n <> 64%nat) t).
  { apply (all_structs_impl (fun n => (n < 64)%nat)); [intros n L; right; lia|exact (labels_structs t P)]. }
  destruct (decode_sound alnum fl pf t text [] d V R A E) as (w & S' & D). rewrite (presents_det _ _ _ _ _ S S'). exact D.
Qed.

Lemma rewrite_keeps t text v : plain_labels t -> Forall (fun c => is_char c = true) text -> floats_in_range fl ->
  stands_for alnum fl pf t text v -> floats_fit fl t v ->
  ((exists text', rewritten alnum fl pf t text text' /\ stands_for alnum fl pf t text' v) <-> characters json_char t v).
Proof.
  intros P V R S F. pose proof (text_decoded t text v P V R S) as D. destruct S as (d & E & S).
  rewrite <- (rewrite_exact t v P D F (ds_source d) S). split.
  - intros (text' & (d' & bs & E' & Eb & U) & S'). rewrite E in E'. injection E' as <-. exists bs, text'. auto.
  - intros (bs & text' & Eb & U & S'). exists text'. split; [|exact S']. exists d, bs. auto.
Qed.

Lemma rewrite_settles t text text' v : plain_labels t -> Forall (fun c => is_char c = true) text -> floats_in_range fl ->
  stands_for alnum fl pf t text v -> floats_fit fl t v -> characters json_char t v -> rewritten alnum fl pf t text text' ->
  stands_for alnum fl pf t text' v /\ forall text'', rewritten alnum fl pf t text' text'' <-> text'' = text'.
Proof.
  intros P V R S F C W. destruct (proj2 (rewrite_keeps t text v P V R S F) C) as (x & W' & Sx).
  assert (x = text').
  { destruct W as (d & bs & E & Eb & U), W' as (d' & bs' & E' & Eb' & U'). rewrite E in E'. injection E' as <-. rewrite Eb in Eb'. injection Eb' as <-. congruence. }
  subst x. split; [exact Sx|]. destruct Sx as (dx & Ex & Px), S as (d & E & S). destruct W as (d0 & bs & E0 & Eb & U). rewrite E in E0. injection E0 as <-.
  assert (Same : json_encode fl t (ds_source dx) = Ret bs) by (rewrite <- Eb; exact (emit_same fl t _ _ [] v Px S)).
  intros text''. split.
  - intros (d1 & bs1 & E1 & Eb1 & U1). rewrite Ex in E1. injection E1 as <-. rewrite Same in Eb1. injection Eb1 as <-. congruence.
  - intros ->. exists dx, bs. auto.
Qed.

Lemma rewrite_same t s1 s2 r1 r2 v1 v2 : plain_labels t -> Forall (fun c => is_char c = true) s1 -> Forall (fun c => is_char c = true) s2 -> floats_in_range fl ->
  stands_for alnum fl pf t s1 v1 -> stands_for alnum fl pf t s2 v2 -> floats_fit fl t v1 -> floats_fit fl t v2 ->
  characters json_char t v1 -> characters json_char t v2 -> rewritten alnum fl pf t s1 r1 -> rewritten alnum fl pf t s2 r2 -> (r1 = r2 <-> v1 = v2).
Proof.
  intros P V1 V2 R S1 S2 F1 F2 C1 C2 W1 W2.
  destruct (rewrite_settles t s1 r1 v1 P V1 R S1 F1 C1 W1) as [(d1 & E1 & P1) _]. destruct (rewrite_settles t s2 r2 v2 P V2 R S2 F2 C2 W2) as [(d2 & E2 & P2) _]. split.
  - intros <-. rewrite E1 in E2. injection E2 as <-. exact (presents_det _ _ _ _ _ P1 P2).
  - intros <-. destruct W1 as (a1 & b1 & A1 & B1 & U1), W2 as (a2 & b2 & A2 & B2 & U2), S1 as (c1 & X1 & Y1), S2 as (c2 & X2 & Y2).
    rewrite X1 in A1. injection A1 as <-. rewrite X2 in A2. injection A2 as <-. unfold json_encode in *. rewrite (emit_same fl t _ _ [] v1 Y1 Y2) in B1. rewrite B1 in B2. injection B2 as <-. congruence.
Qed.

End Rewrite.
