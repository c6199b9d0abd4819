(** * The JSON encoder writes the texts of the specification *)

From Coq Require Import Strings.String ZifyBool ZifyNat ZifyN.
From Verif Require Import Base BaseFacts StrModel StrFacts Utf8Model Utf8Facts TypesModel MarshalModel MarshalSpec LayoutProofs JsonModel JsonSpec JsonLex JsonNum JsonTok JsonRead.
Local Open Scope list_scope.
Local Open Scope Z_scope.
Ltac Zify.zify_post_hook ::= Z.div_mod_to_equations.

Lemma utf8_app a b : utf8_encode (a ++ b) = utf8_encode a ++ utf8_encode b.
Proof. unfold utf8_encode. apply flat_map_app. Qed.

Lemma utf8_cons c b : utf8_encode (c :: b) = utf8_char c ++ utf8_encode b.
Proof. reflexivity. Qed.

(** ** Bit operations of [write_ch] *)

Lemma land_ones_6 a : Z.land a 63 = a mod 64.
Proof. exact (Z.land_ones a 6 ltac:(lia)). Qed.
Lemma land_ones_5 a : Z.land a 31 = a mod 32.
Proof. exact (Z.land_ones a 5 ltac:(lia)). Qed.
Lemma land_ones_4 a : Z.land a 15 = a mod 16.
Proof. exact (Z.land_ones a 4 ltac:(lia)). Qed.
Lemma land_ones_3 a : Z.land a 7 = a mod 8.
Proof. exact (Z.land_ones a 3 ltac:(lia)). Qed.

Lemma lor_add a b k : 0 <= k -> 0 <= a < 2 ^ k -> b mod 2 ^ k = 0 -> Z.lor a b = a + b.
Proof.
  intros Hk Ha Hb. rewrite Z.add_nocarry_lxor; [rewrite Z.lxor_lor; [reflexivity|]|].
  all: apply Z.bits_inj'; intros n Hn; rewrite Z.land_spec, Z.bits_0; destruct (Z.lt_ge_cases n k) as [L|L].
  1,3: rewrite <- (Z.mod_pow2_bits_low b k n) by lia; rewrite Hb, Z.bits_0; apply andb_false_r.
  all: rewrite <- (Z.mod_small a (2 ^ k)) by lia; rewrite Z.mod_pow2_bits_high by lia; reflexivity.
Qed.

Lemma lor_80 a : 0 <= a < 64 -> Z.lor a 128 = 128 + a.
Proof. intros H. rewrite (lor_add a 128 6); [lia|lia|exact H|reflexivity]. Qed.
Lemma lor_c0 a : 0 <= a < 32 -> Z.lor a 192 = 192 + a.
Proof. intros H. rewrite (lor_add a 192 5); [lia|lia|exact H|reflexivity]. Qed.
Lemma lor_e0 a : 0 <= a < 16 -> Z.lor a 224 = 224 + a.
Proof. intros H. rewrite (lor_add a 224 4); [lia|lia|exact H|reflexivity]. Qed.
Lemma lor_f0 a : 0 <= a < 8 -> Z.lor a 240 = 240 + a.
Proof. intros H. rewrite (lor_add a 240 3); [lia|lia|exact H|reflexivity]. Qed.

Lemma shiftr_div a k : 0 <= k -> Z.shiftr a k = a / 2 ^ k.
Proof. apply Z.shiftr_div_pow2. Qed.

Ltac bytes_eq := repeat (apply f_equal2; [apply f_equal; lia|]); reflexivity.

(** The four-byte form. *)
Lemma write_ch_long c : 0x8000 <= c -> write_ch c =
  [z2b (240 + (c / 262144) mod 8); z2b (128 + (c / 4096) mod 64); z2b (128 + (c / 64) mod 64); z2b (128 + c mod 64)].
Proof.
  intros H. unfold write_ch.
  repeat match goal with |- (if c =? ?n then _ else _) = _ => destruct (Z.eqb_spec c n); [lia|] end.
  replace (c <=? 31) with false by lia. replace (c <=? 127) with false by lia.
  replace ((128 <=? c) && (c <=? 2047)) with false by lia. replace ((2048 <=? c) && (c <=? 32767)) with false by lia.
  unfold as_u8; rewrite ?shiftr_div by lia. change (2 ^ 18) with 262144. change (2 ^ 12) with 4096. change (2 ^ 6) with 64.
  rewrite ?land_ones_3, ?land_ones_6. rewrite ?lor_f0, ?lor_80 by (apply Z.mod_pos_bound; lia).
  bytes_eq.
Qed.

Lemma write_ch_text c : is_char c = true -> ~ 0x8000 <= c <= 0xFFFF -> write_ch c = utf8_encode (char_text c).
Proof.
  intros Hc Hn. destruct (Z.lt_ge_cases c 0x8000) as [L|L].
  - unfold write_ch, char_text. apply is_char_nonneg in Hc.
    repeat match goal with |- (if c =? ?n then _ else _) = _ => destruct (Z.eqb_spec c n); [reflexivity|] end.
    destruct (Z.leb_spec c 31) as [L1|L1].
    { replace (c <? 32) with true by lia. rewrite utf8_app. f_equal.
      unfold as_u8. rewrite Z.mod_small by lia. rewrite shiftr_div by lia. rewrite land_ones_4. change (2 ^ 4) with 16.
      unfold utf8_encode. cbn [flat_map]. unfold utf8_char. 
      replace (48 + c / 16 <? 128) with true by lia. replace (48 + c mod 16 <? 128) with true by lia. reflexivity. }
    replace (c <? 32) with false by lia. unfold utf8_encode. cbn [flat_map]. unfold utf8_char. rewrite app_nil_r.
    destruct (Z.leb_spec c 127); [replace (c <? 128) with true by lia; reflexivity|].
    replace (c <? 128) with false by lia.
    destruct (Z.leb_spec c 2047).
    { replace ((128 <=? c) && true) with true by lia. replace (c <? 2048) with true by lia.
      unfold as_u8; rewrite ?shiftr_div by lia. change (2 ^ 6) with 64. rewrite ?land_ones_5, ?land_ones_6.
      rewrite ?lor_c0, ?lor_80 by (apply Z.mod_pos_bound; lia). bytes_eq. }
    rewrite andb_false_r. replace ((2048 <=? c) && (c <=? 32767)) with true by lia. replace (c <? 2048) with false by lia.
    replace (c <? 65536) with true by lia.
    unfold as_u8; rewrite ?shiftr_div by lia. change (2 ^ 6) with 64. change (2 ^ 12) with 4096. rewrite ?land_ones_4, ?land_ones_6.
    rewrite ?lor_e0, ?lor_80 by (apply Z.mod_pos_bound; lia). bytes_eq.
  - rewrite write_ch_long by lia. unfold char_text.
    repeat match goal with |- context [c =? ?n] => destruct (Z.eqb_spec c n); [lia|] end. replace (c <? 32) with false by lia.
    unfold utf8_encode. cbn [flat_map]. rewrite app_nil_r. unfold utf8_char.
    replace (c <? 128) with false by lia. replace (c <? 2048) with false by lia. replace (c <? 65536) with false by lia.
    unfold is_char in Hc. bytes_eq.
Qed.

(** The overlong form is not UTF-8, wherever it stands. *)
Lemma write_ch_invalid c post : 0x8000 <= c <= 0xFFFF -> utf8_decode (write_ch c ++ post) = None.
Proof.
  intros H. rewrite write_ch_long by lia. cbn [app utf8_decode]. rewrite !b2z_z2b_small by lia.
  replace (240 + (c / 262144) mod 8) with 240 by lia. cbn [Z.leb andb Z.compare Pos.compare Pos.compare_cont Z.eqb Pos.eqb].
  replace (144 <=? 128 + (c / 4096) mod 64) with false by lia. reflexivity.
Qed.

Lemma utf8_decode_invalid_suffix pre bs : Forall (fun c => is_char c = true) pre -> utf8_decode bs = None ->
  utf8_decode (utf8_encode pre ++ bs) = None.
Proof. intros F E. rewrite utf8_decode_app by exact F. rewrite E. reflexivity. Qed.

(** ** Strings *)

Definition utf8_safe (c : Z) : Prop := is_char c = true /\ ~ 0x8000 <= c <= 0xFFFF.

Lemma write_chars s : Forall utf8_safe s -> flat_map write_ch s = utf8_encode (flat_map char_text s).
Proof.
  induction 1 as [|c s [Hc Hn] F IH]; [reflexivity|]. cbn [flat_map]. rewrite IH, utf8_app, write_ch_text by assumption. reflexivity.
Qed.

Lemma emit_string_text s : Forall utf8_safe s -> emit_utf8_string s = utf8_encode (string_text s).
Proof.
  intros F. unfold emit_utf8_string, string_text. rewrite write_chars by exact F.
  rewrite utf8_cons, utf8_app. reflexivity.
Qed.

Lemma ascii_ok (l : str) : forallb (fun c => (0 <=? c) && (c <? 128)) l = true -> Forall (fun c => is_char c = true) l.
Proof. intros H. rewrite forallb_forall in H. apply Forall_forall. intros c Hc. specialize (H c Hc). unfold is_char. lia. Qed.

Lemma char_text_valid c : is_char c = true -> Forall (fun x => is_char x = true) (char_text c).
Proof.
  intros H. unfold char_text.
  repeat match goal with |- context [c =? ?n] => destruct (Z.eqb_spec c n); [apply ascii_ok; reflexivity|] end.
  destruct (Z.ltb_spec c 32); [|repeat constructor; exact H].
  apply Forall_app. split; [apply ascii_ok; reflexivity|]. apply is_char_nonneg in H. repeat constructor; unfold is_char; lia.
Qed.

Lemma string_text_valid s : Forall (fun c => is_char c = true) s -> Forall (fun x => is_char x = true) (string_text s).
Proof.
  intros F. unfold string_text. constructor; [reflexivity|]. apply Forall_app. split; [|repeat constructor].
  induction F as [|c s Hc F IH]; cbn [flat_map]; [constructor|]. apply Forall_app. split; [apply char_text_valid; exact Hc|exact IH].
Qed.

Lemma json_char_safe s : Forall json_char s -> Forall utf8_safe s.
Proof. apply Forall_impl. intros c (A & _ & _ & B). split; assumption. Qed.

Lemma json_char_valid s : Forall json_char s -> Forall (fun c => is_char c = true) s.
Proof. apply Forall_impl. intros c (A & _). exact A. Qed.

Lemma number_ascii s : number_lexeme s -> Forall (fun c => is_char c = true) s.
Proof.
  assert (D : forall ds, all_digits ds -> Forall (fun c => is_char c = true) ds).
  { intros ds. apply Forall_impl. intros c H. unfold is_char. lia. }
  intros (sg & i & f & e & -> & Hsg & Hi & Hf & He). repeat (apply Forall_app; split).
  - destruct Hsg as [->| ->]; repeat constructor.
  - destruct Hi as [->|(c & ds & -> & Hc & F)]; constructor; auto; [unfold is_char; lia].
  - destruct Hf as [->|(ds & -> & F)]; constructor; auto.
  - destruct He as [->|(c & g & ds & -> & Hc & Hg & _ & F)]; constructor; [unfold is_char; lia|]. apply Forall_app. split; [|auto].
    destruct Hg as [->|[->| ->]]; repeat constructor.
Qed.

(** ** Values *)

Section Emit.
Context (fl : floats) (src : source).

Lemma prim_text_valid p z : in_range p z -> (p = PChar -> json_char z) -> (p = PF32 \/ p = PF64 -> float_ok fl p z) ->
  Forall (fun c => is_char c = true) (prim_text fl p z).
Proof.
  intros Hr Hc Hf. destruct p; cbn [prim_text];
    try (apply number_ascii; apply show_int_lexeme); try (destruct Hf as [Hf _]; [auto; fail|apply number_ascii; exact Hf]).
  - destruct (z =? 0); apply ascii_ok; reflexivity.
  - apply string_text_valid. constructor; [apply Hc; reflexivity|constructor].
Qed.

Lemma emit_prim_text p q z : src_prim src p q = Ret z -> in_range p z -> (p = PChar -> json_char z) ->
  emit_prim fl src p q = Ret (utf8_encode (prim_text fl p z)).
Proof.
  intros E Hr Hc. unfold emit_prim. rewrite E. cbn [bind]. f_equal. destruct p; try reflexivity.
  - cbn [prim_text]. destruct Hr as [->| ->]; reflexivity.
  - change (utf8_encode (lit """") ++ write_ch z ++ utf8_encode (lit """") = utf8_encode (prim_text fl PChar z)).
    cbn [prim_text]. rewrite <- emit_string_text.
    + unfold emit_utf8_string. cbn [flat_map]. rewrite app_nil_r. reflexivity.
    + apply json_char_safe. constructor; [apply Hc; reflexivity|constructor].
Qed.

Definition valid_text (x : str) : Prop := Forall (fun c => is_char c = true) x.

(** The comma-separated texts, the leading comma as in the loops of the emitters. *)
Fixpoint comma_all (k : nat) (l : list str) : str :=
  match l with
  | [] => []
  | x :: l' => (if (k =? 0)%nat then [] else [44]) ++ x ++ comma_all (S k) l'
  end.

Lemma comma_all_S l : forall k, comma_all (S k) l = flat_map (fun x => 44 :: x) l.
Proof. induction l as [|x l IH]; intros k; [reflexivity|]. cbn [comma_all flat_map Nat.eqb app]. rewrite IH. reflexivity. Qed.

Lemma comma_sep_flat x l : comma_sep (x :: l) = x ++ flat_map (fun y => 44 :: y) l.
Proof.
  revert x; induction l as [|y l IH]; intros x; [cbn; rewrite app_nil_r; reflexivity|].
  change (comma_sep (x :: y :: l)) with (x ++ 44 :: comma_sep (y :: l)). rewrite IH. reflexivity.
Qed.

Lemma comma_all_0 l : comma_all 0 l = comma_sep l.
Proof. destruct l as [|x l]; [reflexivity|]. rewrite comma_sep_flat. cbn [comma_all Nat.eqb app]. rewrite comma_all_S. reflexivity. Qed.

Lemma comma_sep_valid xs : Forall valid_text xs -> valid_text (comma_sep xs).
Proof.
  intros F. destruct F as [|x xs Hx F]; [constructor|]. rewrite comma_sep_flat. apply Forall_app. split; [exact Hx|].
  induction F as [|y ys Hy F IH]; cbn [flat_map]; [constructor|]. cbn [app]. constructor; [reflexivity|]. apply Forall_app. split; assumption.
Qed.

Lemma emit_text t : forall q v, presents src t q v -> jsonable fl t v ->
  exists x, value_text fl t v x /\ valid_text x /\ emit fl src t q = Ret (utf8_encode x).
Proof.
  assert (G : forall A (g : A -> ty) (pre : A -> list byte) (ptext : A -> str) l,
    Forall (fun a => forall q v, presents src (g a) q v -> jsonable fl (g a) v ->
       exists x, value_text fl (g a) v x /\ valid_text x /\ emit fl src (g a) q = Ret (utf8_encode x)) l ->
    Forall (fun a => pre a = utf8_encode (ptext a)) l ->
    forall q k vs, presents_list src (map g l) q k vs -> jsonables fl (map g l) vs ->
    exists xs, values_text fl (map g l) vs xs /\ Forall valid_text xs /\
      emit_members (fun a q' => b <- emit fl src (g a) q' ;; Ret (pre a ++ b)) l q k =
      Ret (utf8_encode (comma_all k (map (fun m => ptext (fst m) ++ snd m) (combine l xs))))).
  { intros A g pre ptext l HF. induction HF as [|a l Ha Hl IH]; intros HP q k vs Hp Hj; cbn [map] in *.
    - inversion Hp; subst. exists []. repeat constructor.
    - inversion Hp; subst. inversion Hj; subst. inversion HP as [|? ? Ea HP']; subst.
      destruct (Ha (q ++ [k]) v) as (x & Hx & Vx & Ex); try assumption.
      destruct (IH HP' q (S k) vs0) as (xs & Hxs & Vxs & Exs); try assumption.
      exists (x :: xs). split; [constructor; assumption|]. split; [constructor; assumption|].
      cbn [emit_members combine map comma_all]. unfold with_component. rewrite Ex. cbn [bind]. rewrite Exs. cbn [bind fst snd]. f_equal.
      rewrite !utf8_app, Ea, <- !app_assoc. f_equal. destruct (k =? 0)%nat; reflexivity. }
  induction t using ty_ind'; intros q v Hp Hj; cbn [emit].
  - inversion Hp; subst. exists (lit "null"). split; [constructor|]. split; [apply ascii_ok|]; reflexivity.
  - inversion Hp; subst. inversion Hj; subst. exists (prim_text fl p z). split; [constructor|].
    split; [apply prim_text_valid|apply emit_prim_text]; assumption.
  - inversion Hp as [| |? bs Hlen Hbs| | |]; subst. inversion Hj as [| |s Hs| | |]; subst. exists (string_text s). split; [constructor; apply json_char_valid; exact Hs|].
    split; [apply string_text_valid, json_char_valid, Hs|]. rewrite Hbs. cbn [bind].
    rewrite utf8_decode_encode by (apply json_char_valid; exact Hs). rewrite emit_string_text by (apply json_char_safe; exact Hs). reflexivity.
  - inversion Hp as [| | |? ? vs Hpl| |]; subst. inversion Hj as [| | |? ? Hjl| |]; subst.
    destruct (G _ (fun t => t) (fun _ => []) (fun _ => []) _ H) with (q := q) (k := 0%nat) (vs := vs) as (xs & Hxs & Vxs & Exs).
    { apply Forall_forall. reflexivity. } { rewrite map_id. exact Hpl. } { rewrite map_id. exact Hjl. }
    rewrite map_id in Hxs. exists (91 :: comma_sep xs ++ [93]). split; [constructor; exact Hxs|].
    split; [constructor; [reflexivity|]; apply Forall_app; split; [apply comma_sep_valid; exact Vxs|repeat constructor]|].
    replace (emit_members (emit fl src) ts q 0) with (Ret (utf8_encode (comma_sep xs))).
    + cbn [bind]. rewrite utf8_cons, utf8_app. reflexivity.
    + symmetry. etransitivity; [etransitivity; [|exact Exs]|].
      * clear. generalize 0%nat. induction ts as [|t ts IH]; intros k; [reflexivity|]. cbn [emit_members]. rewrite IH. 
        destruct (emit fl src t (with_component q k)); reflexivity.
      * f_equal. f_equal. rewrite comma_all_0. f_equal. cbn [app].
        assert (L : length ts = length xs).
        { clear - Hxs. induction Hxs using values_text_mind with (P := fun _ _ _ => True); cbn; auto. }
        clear - L. revert xs L; induction ts as [|t ts IH]; intros [|x xs] L; try discriminate; [reflexivity|]. cbn. f_equal. apply IH. cbn in L; lia.
  - inversion Hp as [| | | |? ? vs Hpl|]; subst. inversion Hj as [| | | |? ? Hlen Hnd Hch Hjl|]; subst.
    destruct (G _ snd (fun f => emit_utf8_string (fst f) ++ utf8_encode (lit ":")) (fun f => string_text (fst f) ++ [58]) _ H) with (q := q) (k := 0%nat) (vs := vs) as (xs & Hxs & Vxs & Exs).
    { rewrite Forall_map in Hch. revert Hch. apply Forall_impl. intros f Hf. rewrite utf8_app, emit_string_text by (apply json_char_safe; exact Hf). reflexivity. }
    { exact Hpl. } { exact Hjl. }
    exists (123 :: comma_sep (map (fun m => string_text (fst m) ++ 58 :: snd m) (combine (map fst fs) xs)) ++ [125]).
    assert (M : map (fun m => string_text (fst m) ++ 58 :: snd m) (combine (map fst fs) xs) =
                map (fun m : (str * ty) * str => (string_text (fst (fst m)) ++ [58]) ++ snd m) (combine fs xs)).
    { clear. revert xs; induction fs as [|f fs IH]; intros [|x xs]; try reflexivity. cbn [map combine fst snd]. rewrite IH, <- app_assoc. reflexivity. }
    split; [constructor; exact Hxs|]. split.
    + constructor; [reflexivity|]. apply Forall_app; split; [|repeat constructor]. apply comma_sep_valid.
      clear - Hch Vxs. revert xs Vxs; induction fs as [|f fs IH]; intros [|x xs] Vxs; cbn [map combine]; try constructor.
      * inversion Hch; subst. inversion Vxs; subst. apply Forall_app. split; [apply string_text_valid, json_char_valid; assumption|].
        constructor; [reflexivity|assumption].
      * inversion Hch; subst. inversion Vxs; subst. apply IH; assumption.
    + rewrite M, <- comma_all_0.
      replace (emit_members (fun f q' => b <- emit fl src (snd f) q' ;; Ret (emit_utf8_string (fst f) ++ utf8_encode (lit ":") ++ b)) fs q 0)
        with (emit_members (fun a q' => b <- emit fl src (snd a) q' ;; Ret ((emit_utf8_string (fst a) ++ utf8_encode (lit ":")) ++ b)) fs q 0).
      * rewrite Exs. cbn [bind]. rewrite utf8_cons, utf8_app. reflexivity.
      * clear. generalize 0%nat. induction fs as [|t ts IH]; intros k; [reflexivity|]. cbn [emit_members]. rewrite IH. 
        destruct (emit fl src (snd t) (with_component q k)); cbn [bind]; rewrite <- ?app_assoc; reflexivity.
  - inversion Hp as [| | | | |? ? k l t v' Hk Hn Hv]; subst. inversion Hj as [| | | | |? ? l' t' ? Hnd Hn' Hl Hv']; subst.
    rewrite Hn in Hn'. injection Hn' as <- <-. rewrite Hk. cbn [bind]. unfold with_component.
    assert (Hin := nth_error_In _ _ Hn). rewrite Forall_forall in H. destruct (H _ Hin (q ++ [k]) v' Hv Hv') as (x & Hx & Vx & Ex). cbn [snd] in *.
    exists (lit "{""kind"":" ++ string_text l ++ lit ",""value"":" ++ x ++ [125]). split; [econstructor; eassumption|]. split.
    + repeat (apply Forall_app; split); try assumption; try (apply ascii_ok; reflexivity). apply string_text_valid, json_char_valid, Hl.
    + assert (S : forall cs' k', nth_error cs' k' = Some (l, t) ->
        emit_case (fun c => b <- emit fl src (snd c) (q ++ [k]) ;; Ret (utf8_encode (lit "{""kind"":") ++ emit_utf8_string (fst c) ++ utf8_encode (lit ",""value"":") ++ b ++ utf8_encode (lit "}"))) cs' k' =
        Ret (utf8_encode (lit "{""kind"":" ++ string_text l ++ lit ",""value"":" ++ x ++ [125]))).
      { induction cs' as [|c cs' IHc]; intros [|k'] Hc; try discriminate; cbn [emit_case].
        - injection Hc as ->. cbn [fst snd]. rewrite Ex. cbn [bind]. f_equal. rewrite !utf8_app, emit_string_text by (apply json_char_safe; exact Hl). reflexivity.
        - apply IHc. exact Hc. }
      apply S. exact Hn.
Qed.
End Emit.
