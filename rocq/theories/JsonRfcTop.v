(** * RFC 8259 texts: the decoder and the encoder *)

From Coq Require Import Strings.String Sorting.Permutation Lia ZifyBool.
From Verif Require Import Base StrModel StrFacts Utf8Model Utf8Facts TypesModel MarshalModel MarshalSpec LayoutProofs JsonModel JsonSpec JsonNum JsonRead JsonMore JsonEmit JsonParse WhiteSpec JsonDocSpec JsonDocProofs JsonRfcSpec JsonRfcProofs.
Local Open Scope list_scope.
Local Open Scope Z_scope.

Section Decoder.
Context (alnum : Z -> bool) (fl : floats) (pf : profile).

Lemma ws_end w : ws w -> JsonDocSpec.reads alnum w SEnd [].
Proof. intros H. rewrite <- (app_nil_r w). apply ws_white; [exact H|]. apply rd_end. Qed.

Lemma rfc_decoded t j s old v : all_structs (fun n => (n < 64)%nat) t -> rfc_text false j s ->
  ((exists d, json_decode alnum fl pf t s old = Ret (d, Ok tt) /\ presents (ds_source d) t [] v) <-> means fl t j v).
Proof.
  intros A (w & x & w' & -> & Hw & Hv & Hw'). rewrite decode_exact by exact A.
  assert (F : follow w') by (rewrite <- (app_nil_r w'); apply ws_follow; [exact Hw'|exact I]). split.
  - intros (r & y & r' & D & _). exact (proj1 (values_exact alnum fl j x Hv t v w w' r Hw F D)).
  - intros M. exists w', SEnd, []. split; [exact (values_good alnum fl j x Hv t v w w' M Hw F)|apply ws_end; exact Hw'].
Qed.

Lemma rfc_accepted t j s old d : all_structs (fun n => (n < 64)%nat) t -> rfc_text false j s ->
  json_decode alnum fl pf t s old = Ret (d, Ok tt) -> exists v, means fl t j v /\ presents (ds_source d) t [] v.
Proof.
  intros A H E. destruct (decode_document alnum fl pf t s old d A E) as (v & _ & _ & P). exists v. split; [|exact P].
  apply (rfc_decoded t j s old v A H). eauto.
Qed.
End Decoder.

(** ** The encoder *)

Lemma hex_control c : 0 <= c < 32 -> c mod 16 < 10 -> hex_code [48; 48; 48 + c / 16; 48 + c mod 16] = c.
Proof.
  intros H M. pose proof (Z.mod_pos_bound c 16). assert (Hd : 0 <= c / 16 < 2) by (split; [apply Z.div_pos|apply Z.div_lt_upper_bound]; lia).
  unfold hex_code, hex_value. cbn [fold_left]. replace (48 + c / 16 <=? 57) with true by lia. replace (48 + c mod 16 <=? 57) with true by lia.
  change (48 <=? 57) with true. cbv iota. pose proof (Z.div_mod c 16). lia.
Qed.

Lemma char_rfc pairs c s x : json_char c -> rfc_chars pairs s x -> rfc_chars pairs (char_text c ++ s) (c :: x).
Proof.
  intros (Hc & Hz & Hb & _) H. apply is_char_nonneg in Hc. unfold char_text.
  destruct (Z.eqb_spec c 0); [contradiction|].
  repeat match goal with |- context [c =? ?n] => destruct (Z.eqb_spec c n) as [->|]; [cbn [lit map list_ascii_of_string app]; apply (rc_escape _ _ _ s x); [cbn; tauto|exact H]|] end.
  destruct (Z.ltb_spec c 32).
  - change (lit "\u00") with [92; 117; 48; 48]. cbn [app].
    assert (Hm : 0 <= c mod 16 < 10). { unfold bad_control in Hb. pose proof (Z.mod_pos_bound c 16). lia. }
    assert (Hd : 0 <= c / 16 < 2) by (split; [apply Z.div_pos|apply Z.div_lt_upper_bound]; lia).
    rewrite <- (hex_control c) at 3 by lia.
    apply (rc_unicode _ [48; 48; 48 + c / 16; 48 + c mod 16]); [|rewrite hex_control by lia; unfold surrogate; lia|exact H].
    split; [|reflexivity]. repeat constructor; unfold hex_char; lia.
  - cbn [app]. apply rc_plain; auto.
Qed.

Lemma chars_rfc pairs s : Forall json_char s -> rfc_chars pairs (flat_map char_text s) s.
Proof. induction 1 as [|c s Hc F IH]; [constructor|]. cbn [flat_map]. apply char_rfc; assumption. Qed.

(** What one character leaves behind. *)
Lemma rfc_char pairs c s x : is_char c = true -> ~ 0x8000 <= c <= 0xFFFF -> rfc_chars pairs (char_text c ++ s) x ->
  json_char c /\ exists x', rfc_chars pairs s x'.
Proof.
  intros Hc Hl H. pose proof (is_char_nonneg c Hc) as Hn. unfold char_text in H.
  destruct (Z.eqb_spec c 0).
  { exfalso. change (lit "\0") with [92; 48] in H. cbn [app] in H. inversion H; subst; try congruence.
    match goal with I : In _ _ |- _ => cbn in I; intuition discriminate end. }
  repeat match type of H with context [c =? ?n] => destruct (Z.eqb_spec c n) as [->|];
    [split; [unfold json_char, bad_control; cbn; repeat split; try lia; auto|]; cbn [lit map list_ascii_of_string app] in H; inversion H; subst; try congruence; try discriminate; eauto|] end.
  destruct (Z.ltb_spec c 32).
  - change (lit "\u00") with [92; 117; 48; 48] in H. cbn [app] in H.
    assert (G : forall ds r, four_hex ds -> 48 :: 48 :: 48 + c / 16 :: 48 + c mod 16 :: s = ds ++ r -> c mod 16 < 10 /\ r = s /\ ds = [48; 48; 48 + c / 16; 48 + c mod 16]).
    { intros ds r [F L] E. do 5 (destruct ds as [|? ds]; try discriminate L). cbn [app] in E. pose proof (f_equal (firstn 4) E) as D. cbn [firstn] in D. rewrite <- D in F. split; [|split; [|auto]].
      2: exact (eq_sym (f_equal (skipn 4) E)).
      rewrite Forall_forall in F. specialize (F (48 + c mod 16)%Z ltac:(cbn; tauto)). unfold hex_char in F. pose proof (Z.mod_pos_bound c 16). lia. }
    assert (Q : c mod 16 < 10 -> json_char c).
    { intros M. unfold json_char, bad_control. split; [exact Hc|]. split; [assumption|]. split; lia. }
    inversion H; subst; try congruence; try (match goal with I : In _ _ |- _ => cbn in I; intuition discriminate end).
    + match goal with I : ?ds ++ ?r = _, F : four_hex ?ds |- _ => destruct (G ds r F (eq_sym I)) as (M & -> & _) end. eauto.
    + match goal with I : ?ds ++ ?r = _, F : four_hex ?ds |- _ => destruct (G ds r F (eq_sym I)) as (M & _ & D) end.
      match goal with X : 0xD800 <= hex_code ?ds < _ |- _ => exfalso; rewrite D, hex_control in X by lia; lia end.
  - cbn [app] in H. split; [unfold json_char, bad_control; repeat split; auto; lia|]. inversion H; subst; try congruence; eauto.
Qed.

Lemma rfc_all pairs s : Forall (fun c => is_char c = true /\ ~ 0x8000 <= c <= 0xFFFF) s -> forall x, rfc_chars pairs (flat_map char_text s) x -> Forall json_char s.
Proof.
  induction 1 as [|c s [Hc Hl] F IH]; intros x H; [constructor|]. cbn [flat_map] in H. destruct (rfc_char pairs c _ x Hc Hl H) as (J & x' & H'). constructor; eauto.
Qed.

Lemma string_rfc s : Forall (fun c => is_char c = true /\ ~ 0x8000 <= c <= 0xFFFF) s ->
  exists text, utf8_decode (emit_utf8_string s) = Some text /\ ((exists pairs j, rfc_text pairs j text) <-> Forall json_char s).
Proof.
  intros F. exists (string_text s). split.
  - rewrite emit_string_text by exact F. apply utf8_decode_encode, string_text_valid. eapply Forall_impl; [|exact F]. cbn. tauto.
  - split.
    + intros (pairs & j & w & x & w' & E & Hw & Hv & Hw'). unfold string_text in E.
      destruct Hw as [|c w Hc Hw]; [|exfalso; cbn in E; injection E as <- _; cbn in Hc; intuition discriminate].
      cbn [app] in E. inversion Hv; subst; cbn [lit map list_ascii_of_string app] in E; try discriminate E.
      * exfalso. match goal with N : rfc_number ?y |- _ => destruct N as (sg & i & f & e & -> & [->| ->] & Hi & _) end; [|discriminate E].
        destruct Hi as [->|(c & ds & -> & Hc & _)]; [discriminate E|]. cbn in E. injection E as <- _. lia.
      * injection E as E. rewrite <- app_assoc in E. cbn [app] in E.
        destruct w' as [|c w'] using rev_ind.
        -- apply app_inj_tail in E as [E _]. subst. eapply rfc_all; [exact F|eassumption].
        -- exfalso. clear IHw'. rewrite app_comm_cons, app_assoc in E. apply app_inj_tail in E as [_ <-].
           apply Forall_app in Hw' as [_ Hw']. inversion Hw' as [|? ? C _]. cbn in C. intuition discriminate.
    + intros J. exists false, (RText s), [], (string_text s), []. rewrite app_nil_r. split; [reflexivity|]. split; [constructor|]. split; [|constructor].
      apply rv_text, chars_rfc, J.
Qed.

Section Encoder.
Context (fl : floats).
(** A float that is written as a number is written as RFC 8259 wants it. *)
Hypothesis shown : forall p z, number_lexeme (show_float fl p z) -> rfc_number (show_float fl p z).

Lemma show_int_no_point z : ~ In 46 (show_int z).
Proof.
  assert (G : forall y, 0 <= y -> ~ In 46 (show_int y)).
  { intros y Hy I. destruct (show_int_digits y Hy) as (D & _). apply all_digits_of in D. unfold all_digits in D. rewrite Forall_forall in D. specialize (D 46 I). lia. }
  destruct (Z.lt_ge_cases z 0); [rewrite show_int_neg by assumption; intros [E|I]; [discriminate E|exact (G (- z) ltac:(lia) I)]|apply G; lia].
Qed.

Lemma items_text js xs : Forall2 (rfc_value false) js xs -> xs <> [] -> rfc_items false js (comma_sep xs).
Proof.
  induction 1 as [|j x js xs H F IH]; [congruence|]. intros _. destruct F as [|j' x' js xs H' F].
  - cbn [comma_sep]. replace x with ([] ++ x ++ []) by (cbn; apply app_nil_r). constructor; [constructor|exact H|constructor].
  - change (comma_sep (x :: x' :: xs)) with ([] ++ x ++ [] ++ 44 :: comma_sep (x' :: xs)). apply ri_more; [constructor|exact H|constructor|]. apply IH. discriminate.
Qed.

Lemma fields_text ks : forall js xs, Forall (Forall json_char) ks -> Forall2 (rfc_value false) js xs -> List.length ks = List.length xs -> xs <> [] ->
  rfc_fields false (combine ks js) (comma_sep (map (fun m => string_text (fst m) ++ 58 :: snd m) (combine ks xs))).
Proof.
  induction ks as [|k ks IH]; intros js xs Fk F L N; [destruct xs; [congruence|discriminate L]|].
  destruct F as [|j x js xs H F]; [congruence|]. inversion Fk as [|? ? Hk Fk']; subst. cbn [List.length] in L. injection L as L.
  destruct ks as [|k' ks], F as [|j' x' js xs H' F]; try discriminate L.
  - cbn [combine map comma_sep fst snd]. unfold string_text.
    replace ((34 :: flat_map char_text k ++ [34]) ++ 58 :: x) with ([] ++ 34 :: flat_map char_text k ++ 34 :: [] ++ 58 :: [] ++ x ++ [])
      by (cbn [app]; rewrite <- app_assoc, app_nil_r; reflexivity).
    apply rf_one; try constructor; [apply chars_rfc; exact Hk|exact H].
  - specialize (IH (j' :: js) (x' :: xs) Fk' (Forall2_cons _ _ H' F) L ltac:(discriminate)).
    cbn [combine map fst snd] in IH |- *. remember (map _ (combine ks xs)) as rest.
    change (comma_sep ((string_text k ++ 58 :: x) :: (string_text k' ++ 58 :: x') :: rest)) with ((string_text k ++ 58 :: x) ++ 44 :: comma_sep ((string_text k' ++ 58 :: x') :: rest)).
    remember (comma_sep ((string_text k' ++ 58 :: x') :: rest)) as r'.
    replace ((string_text k ++ 58 :: x) ++ 44 :: r') with ([] ++ 34 :: flat_map char_text k ++ 34 :: [] ++ 58 :: [] ++ x ++ [] ++ 44 :: r')
      by (unfold string_text; cbn [app]; rewrite <- !app_assoc; reflexivity).
    apply rf_more; try constructor; [apply chars_rfc; exact Hk|exact H|exact IH].
Qed.

Lemma prim_written p z : in_range p z -> (p = PChar -> json_char z) -> (p = PF32 \/ p = PF64 -> float_ok fl p z) ->
  exists j, rfc_value false j (prim_text fl p z) /\ means fl (TPrim p) j (VPrim z).
Proof.
  intros R C F.
  assert (I : integer_prim p -> prim_text fl p z = show_int z -> exists j, rfc_value false j (prim_text fl p z) /\ means fl (TPrim p) j (VPrim z)).
  { intros I E. rewrite E. exists (RNumber (show_int z)). split.
    - constructor. destruct (show_int_lexeme z) as (sg & i & f & e & E' & Hs & Hi & Hf & He). exists sg, i, f, e. repeat split; try assumption.
      destruct Hf as [->|(ds & -> & D)]; [left; reflexivity|]. exfalso.
      assert (X : In 46 (show_int z)) by (rewrite E'; rewrite !in_app_iff; cbn; tauto). exact (show_int_no_point z X).
    - apply me_integer with (x := show_int z); auto. apply (parse_number_iff fl p); [exact I|].
      rewrite <- E. apply (parse_number_show (fun _ => false) fl p z R); [intros ->; apply I; cbn; tauto|intros ->; apply I; cbn; tauto|exact F]. }
  assert (G : p = PF32 \/ p = PF64 -> prim_text fl p z = show_float fl p z -> exists j, rfc_value false j (prim_text fl p z) /\ means fl (TPrim p) j (VPrim z)).
  { intros Hp E. rewrite E. destruct (F Hp) as [L P]. exists (RNumber (show_float fl p z)). split; [constructor; apply shown, L|]. eapply me_float; eauto. }
  destruct p; try (apply I; [unfold integer_prim; cbn; intuition discriminate|reflexivity]); try (apply G; [auto|reflexivity]).
  - cbn [prim_text]. destruct R as [->| ->].
    + exists (RBool false). split; [constructor|apply (me_bool fl false)].
    + exists (RBool true). split; [constructor|apply (me_bool fl true)].
  - exists (RText [z]). split; [|constructor]. apply rv_text, chars_rfc. constructor; [apply C; reflexivity|constructor].
Qed.

Lemma means_lengths ts js vs : means_items fl ts js vs -> List.length ts = List.length js /\ List.length ts = List.length vs.
Proof. induction 1 as [|? ? ? ? ? ? _ H]; [auto|]. cbn. lia. Qed.

Lemma means_combined fs : forall js vs, means_items fl (map snd fs) js vs -> means_fields fl (combine fs vs) (combine (map fst fs) js).
Proof.
  induction fs as [|[l t] fs IH]; intros js vs H; cbn [map fst snd] in H; inversion H; subst; cbn [combine map fst]; constructor; auto.
Qed.

Lemma written t v x : value_text fl t v x -> jsonable fl t v -> exists j, rfc_value false j x /\ means fl t j v.
Proof.
  revert t v x.
  apply (value_text_mind fl (fun t v x => jsonable fl t v -> exists j, rfc_value false j x /\ means fl t j v)
    (fun ts vs xs => jsonables fl ts vs -> exists js, Forall2 (rfc_value false) js xs /\ means_items fl ts js vs)).
  - intros _. exists RNull. split; constructor.
  - intros p z J. inversion J; subst. apply prim_written; assumption.
  - intros s V J. inversion J as [| |s' F E| | |]; subst. exists (RText s'). split; [|constructor].
    apply rv_text. assert (s' = s); [|subst; apply chars_rfc, F].
    assert (V' : Forall (fun c => is_char c = true) s') by (eapply Forall_impl; [|exact F]; unfold json_char; tauto).
    apply utf8_decode_encode in V, V'. congruence.
  - intros ts vs xs _ IH J. inversion J as [| | |? ? Js| |]; subst. destruct (IH Js) as (js & F & M). exists (RArray js). split; [|constructor; exact M].
    destruct F as [|j x js xs H F]; [apply (rv_empty_array false []); constructor|]. apply rv_array, items_text; [constructor; assumption|discriminate].
  - intros fs vs xs _ IH J. inversion J as [| | | |? ? W Nd Fk Js|]; subst. destruct (IH Js) as (js & F & M). exists (RObject (combine (map fst fs) js)). split.
    + destruct (means_lengths _ _ _ M) as [L _]. rewrite map_length in L.
      assert (L' : List.length js = List.length xs) by (clear - F; induction F; cbn; congruence).
      destruct xs as [|x xs].
      * destruct js; [|discriminate L']. destruct fs; [|discriminate L]. apply (rv_empty_object false []). constructor.
      * apply rv_object, fields_text; [exact Fk|exact F|rewrite map_length; congruence|discriminate].
    + destruct (means_lengths _ _ _ M) as [_ L]. rewrite map_length in L. eapply me_struct; [exact Nd|congruence|apply Permutation_refl|apply means_combined, M].
  - intros cs k l t v x N _ IH J. inversion J as [| | | | |? ? l' t' ? Nd N' Fl Jv]; subst. rewrite N in N'. injection N' as <- <-.
    destruct (IH Jv) as (j & Hv & M). exists (RObject [(lit "kind", RText l); (lit "value", j)]). split.
    + unfold string_text.
      replace (lit "{""kind"":" ++ (34 :: flat_map char_text l ++ [34]) ++ lit ",""value"":" ++ x ++ [125]) with
        (123 :: ([] ++ 34 :: flat_map char_text (lit "kind") ++ 34 :: [] ++ 58 :: [] ++ (34 :: flat_map char_text l ++ [34]) ++ [] ++
          44 :: ([] ++ 34 :: flat_map char_text (lit "value") ++ 34 :: [] ++ 58 :: [] ++ x ++ [])) ++ [125]).
      * assert (K : forall a, In a [lit "kind"; lit "value"] -> rfc_chars false (flat_map char_text a) a).
        { intros a A. apply chars_rfc. apply Forall_forall. intros c Hc. unfold json_char, bad_control. destruct A as [<-|[<-|[]]]; cbn in Hc;
            repeat (destruct Hc as [<-|Hc]; [cbn; lia|]); destruct Hc. }
        apply rv_object. apply (rf_more false _ _ _ [] (flat_map char_text (lit "kind")) [] [] (34 :: flat_map char_text l ++ [34]) []);
          [constructor|apply K; cbn; tauto|constructor|constructor|apply rv_text, chars_rfc, Fl|constructor|].
        apply (rf_one false _ _ [] (flat_map char_text (lit "value")) [] [] x []); [constructor|apply K; cbn; tauto|constructor|constructor|exact Hv|constructor].
      * cbn [app]. cbn. rewrite <- !app_assoc. cbn. rewrite app_nil_r. reflexivity.
    + eapply me_enum; [exact N| |exact M]. intros k' t' N'. assert (k' = k); [|lia].
      rewrite NoDup_nth_error in Nd. apply Nd; [rewrite map_length; apply nth_error_Some; congruence|].
      rewrite (map_nth_error fst _ _ N'), (map_nth_error fst _ _ N). reflexivity.
  - intros _. exists []. split; constructor.
  - intros t ts v vs x xs _ IH _ IHs J. inversion J; subst. destruct IH as (j & Hv & M); [assumption|]. destruct IHs as (js & F & Ms); [assumption|].
    exists (j :: js). split; constructor; assumption.
Qed.

Lemma encoded_rfc t v src : presents src t [] v -> jsonable fl t v ->
  exists bs text j, json_encode fl t src = Ret bs /\ utf8_decode bs = Some text /\ rfc_value false j text /\ means fl t j v.
Proof.
  intros P J. destruct (emit_text fl src t [] v P J) as (x & Hx & Vx & E). destruct (written t v x Hx J) as (j & Hv & M).
  exists (utf8_encode x), x, j. split; [exact E|]. split; [apply utf8_decode_encode; exact Vx|]. auto.
Qed.
End Encoder.
