(** * Properties C15 (JSON part) and C17 to C25 *)

From Coq Require Import Strings.String Permutation.
From Verif Require Import Base StrModel Utf8Model TypesModel MarshalModel MarshalSpec LayoutProofs MarshalLimits ValSource JsonModel JsonSpec WhiteSpec WhiteProofs JsonTok JsonTop JsonMore JsonExamples.
Local Open Scope list_scope.
Local Open Scope Z_scope.

(** In all statements [alnum] is an arbitrary table of the non-ASCII alphanumeric characters, [fl] an arbitrary way of
    writing and reading floats, [pf] the build profile and [old] the previous content of the result. *)

(** C15: the JSON written from an encoded record is the JSON written from the original. *)
Theorem encoded_record_same_json : forall fl pf src t l v n buf buf',
  small t -> layout_new t = Ret l -> marshallable pf l -> presents src t [] v -> typed t v ->
  encoding_size_with_source src l = Ret n -> (n <= List.length buf)%nat -> encode_with_source pf src l buf = Ret (buf', n) ->
  json_encode fl t (marshaller_source pf l buf') = json_encode fl t src.
Proof. exact same_json. Qed.
Print Assumptions encoded_record_same_json.

Example encoded_record_same_json_ex : exists l buf',
  layout_new jx_ty = Ret l /\ encode_with_source Debug (val_source jx_val) l (repeat xff 40) = Ret (buf', 40%nat) /\
  small jx_ty /\ marshallable Debug l /\ presents (val_source jx_val) jx_ty [] jx_val /\ typed jx_ty jx_val /\
  json_encode jx_fl jx_ty (marshaller_source Debug l buf') = Ret (utf8_encode jx_text).
Proof.
  eexists _, _. split; [vm_compute; reflexivity|]. split; [vm_compute; reflexivity|]. split; [vm_compute; reflexivity|].
  split. { eapply (marshallable_type _ jx_ty []); [vm_compute; reflexivity| |vm_compute; reflexivity].
           unfold jx_ty. repeat constructor; cbn; unfold bad_case_count; lia. }
  split; [apply every_value_presented, jx_typed|]. split; [apply jx_typed|]. vm_compute. reflexivity.
Qed.

(** C17: the JSON written for a value is valid UTF-8 and is read back to a source presenting the value. *)
Theorem json_round_trip : forall alnum fl pf t v src old, presents src t [] v -> jsonable fl t v ->
  exists bs text d, json_encode fl t src = Ret bs /\ utf8_decode bs = Some text /\
    json_decode alnum fl pf t text old = Ret (d, Ok tt) /\ presents (ds_source d) t [] v.
Proof. exact json_round_trip_lemma. Qed.
Print Assumptions json_round_trip.

Example json_round_trip_ex : presents (val_source jx_val) jx_ty [] jx_val /\ jsonable jx_fl jx_ty jx_val /\
  json_encode jx_fl jx_ty (val_source jx_val) = Ret (utf8_encode jx_text).
Proof. split; [apply every_value_presented, jx_typed|]. split; [exact jx_jsonable|]. vm_compute. reflexivity. Qed.

(** C18: a string survives exactly if all its characters are representable; in particular for one character. *)
Theorem string_survives_iff : forall alnum fl pf s, Forall (fun c => is_char c = true) s ->
  (survives alnum fl pf s <-> Forall json_char s).
Proof. exact survives_iff. Qed.
Print Assumptions string_survives_iff.

Example string_survives_iff_ex :
  Forall json_char [97; 10; 47; 0x19; 0x1F600; 0x20AC] /\ ~ json_char 0x1B /\ ~ json_char 0 /\ ~ json_char 0x9999 /\
  is_char 0x1B = true /\ is_char 0 = true /\ is_char 0x9999 = true.
Proof. exact jx_chars. Qed.

(** C18: with a character from U+8000 to U+FFFF the output is not valid UTF-8. *)
Theorem long_characters_not_utf8 : forall pre c post, Forall (fun c => is_char c = true) pre ->
  Forall (fun c => ~ 0x8000 <= c <= 0xFFFF) pre -> 0x8000 <= c <= 0xFFFF ->
  utf8_decode (emit_utf8_string (pre ++ c :: post)) = None.
Proof. exact long_char_invalid. Qed.
Print Assumptions long_characters_not_utf8.

Example long_characters_not_utf8_ex : utf8_decode (emit_utf8_string [97; 0x9999; 98]) = None.
Proof. vm_compute. reflexivity. Qed.

(** C18: without such characters a U+0000 is rejected, and otherwise [reread] says which string is read; it differs
    from the one written at each of the control characters in question. *)
Theorem string_is_reread : forall alnum fl pf s old, Forall (fun c => is_char c = true /\ ~ 0x8000 <= c <= 0xFFFF) s ->
  exists text, utf8_decode (emit_utf8_string s) = Some text /\
    (In 0 s -> json_decode alnum fl pf TString text old = Ret (old, Err EEscape)) /\
    (~ In 0 s -> exists d, json_decode alnum fl pf TString text old = Ret (d, Ok tt) /\
                           ds_get d [] = Some (JString (flat_map reread s))).
Proof. exact string_fate. Qed.
Print Assumptions string_is_reread.

Example string_is_reread_ex : exists text, utf8_decode (emit_utf8_string [97; 0x1B; 98]) = Some text /\
  json_decode jx_alnum jx_fl Debug TString text [] = Ret ([([], JString [97; 1; 59; 98])], Ok tt).
Proof. eexists. split; [vm_compute; reflexivity|vm_compute; reflexivity]. Qed.

Theorem bad_controls_differ : forall c, bad_control c -> reread c <> [c].
Proof. exact bad_control_reread. Qed.
Print Assumptions bad_controls_differ.

Example bad_controls_differ_ex : bad_control 0x0B /\ bad_control 0x1F /\ ~ bad_control 0x0A /\ ~ bad_control 0x19.
Proof. unfold bad_control. cbn. lia. Qed.

(** C19: integers are read back exactly. *)
Theorem integer_round_trip : forall alnum fl pf p z old, integer_prim p -> in_range p z ->
  exists d, json_decode alnum fl pf (TPrim p) (show_int z) old = Ret (d, Ok tt) /\ ds_get d [] = Some (JPrim p z).
Proof. exact integer_read_back. Qed.
Print Assumptions integer_round_trip.

Example integer_round_trip_ex : integer_prim PI128 /\ in_range PI128 (- 2 ^ 127) /\
  show_int (- 2 ^ 127) = lit "-170141183460469231731687303715884105728".
Proof. split; [intros [|[|[|[|[]]]]]; discriminate|]. split; [cbn; lia|]. vm_compute. reflexivity. Qed.

(** C19: what is accepted for an integer type is a decimal numeral of a number of that type, and that number is the
    result. *)
Theorem integer_accepted_iff : forall alnum fl pf p input old d, integer_prim p ->
  (json_decode alnum fl pf (TPrim p) input old = Ret (d, Ok tt) <->
   exists st st' z, next alnum (tok_init input) = Ret (st, Ok tt) /\ (t_token st = KString \/ t_token st = KNumber) /\
     numeral (signed_prim p) (tok_value st) z /\ in_range p z /\ next alnum st = Ret (st', Ok tt) /\ d = [([], JPrim p z)]).
Proof. exact decode_integer_iff. Qed.
Print Assumptions integer_accepted_iff.

Example integer_accepted_iff_ex :
  json_decode jx_alnum jx_fl Debug (TPrim PU8) (lit " 255 ") [] = Ret ([([], JPrim PU8 255)], Ok tt) /\
  json_decode jx_alnum jx_fl Debug (TPrim PU8) (lit """+007""") [] = Ret ([([], JPrim PU8 7)], Ok tt) /\
  json_decode jx_alnum jx_fl Debug (TPrim PU8) (lit "256") [] = Ret ([], Err (ERefused PU8 (lit "256"))) /\
  json_decode jx_alnum jx_fl Debug (TPrim PU8) (lit "-0") [] = Ret ([], Err (ERefused PU8 (lit "-0"))) /\
  json_decode jx_alnum jx_fl Debug (TPrim PI8) (lit "-129") [] = Ret ([], Err (ERefused PI8 (lit "-129"))) /\
  json_decode jx_alnum jx_fl Debug (TPrim PI8) (lit "1.0") [] = Ret ([], Err (ERefused PI8 (lit "1.0"))).
Proof. vm_compute. repeat split; reflexivity. Qed.

(** C20: a step never reads beyond the input; a successful one that is not at the end consumes a character. *)
Theorem tokenizer_step_consumes : forall alnum st st' r, next alnum st = Ret (st', r) ->
  exists pre, t_rest st = pre ++ t_rest st' /\ (r = Ok tt -> t_token st' <> KEof -> pre <> []).
Proof. exact next_consumes. Qed.
Print Assumptions tokenizer_step_consumes.

Example tokenizer_step_consumes_ex : exists st, next jx_alnum (tok_init (lit "  {}")) = Ret (st, Ok tt) /\ t_token st = KBeginObject /\ t_rest st = lit "}".
Proof. eexists. split; [vm_compute; reflexivity|]. split; reflexivity. Qed.

(** C20: the white space of Unicode before a token, and nothing else, is skipped. Any other character has to begin a token. *)
Theorem tokenizer_skips_white : forall alnum st w s, Forall (fun c => In c white_space) w -> t_rest st = (w ++ s)%list ->
  next alnum st = next alnum {| t_token := t_token st; t_rest := s; t_range := t_range st; t_buf := t_buf st |}.
Proof. exact next_white. Qed.
Print Assumptions tokenizer_skips_white.

Theorem tokenizer_rejects_other : forall alnum st c s,
  ~ In c white_space -> ~ In c (lit "[]{},:ntf""-0123456789") -> t_rest st = c :: s ->
  exists st', next alnum st = Ret (st', Err EJson) /\ t_rest st' = c :: s.
Proof. exact next_other. Qed.
Print Assumptions tokenizer_rejects_other.

Example tokenizer_white_ex :
  In 0x2003 white_space /\ ~ In 0x200B white_space /\ ~ In 0x200B (lit "[]{},:ntf""-0123456789") /\
  (exists st, next jx_alnum (tok_init (0x2003 :: lit "{}")) = Ret (st, Ok tt) /\ t_token st = KBeginObject) /\
  exists st, next jx_alnum (tok_init (0x200B :: lit "{}")) = Ret (st, Err EJson).
Proof.
  split; [cbn; tauto|]. split; [cbn; intuition discriminate|]. split; [cbn; intuition discriminate|].
  split; [eexists; split; vm_compute; reflexivity|eexists; vm_compute; reflexivity].
Qed.

(** C20: every input is tokenized in at most as many steps as it has characters, up to the end, an error or a panic. *)
Theorem tokenizer_terminates : forall alnum s, exists n st, tok_run alnum n (tok_init s) st /\ (n <= List.length s)%nat /\
  ((exists st' e, next alnum st = Ret (st', Err e)) \/
   (exists st', next alnum st = Ret (st', Ok tt) /\ t_token st' = KEof) \/ next alnum st = Panic).
Proof. exact tok_run_ends. Qed.
Print Assumptions tokenizer_terminates.

Example tokenizer_terminates_ex : exists st st', tok_run jx_alnum 3 (tok_init (lit "[ 1] ")) st /\ next jx_alnum st = Ret (st', Ok tt) /\ t_token st' = KEof.
Proof.
  eexists _, _. split.
  - eapply tr_step; [vm_compute; reflexivity|discriminate|]. eapply tr_step; [vm_compute; reflexivity|discriminate|].
    eapply tr_step; [vm_compute; reflexivity|discriminate|]. apply tr_none.
  - split; [vm_compute; reflexivity|reflexivity].
Qed.

(** C20: no run takes more steps than there are characters. *)
Theorem tokenizer_run_bounded : forall alnum n st st', tok_run alnum n st st' ->
  (n + List.length (t_rest st') <= List.length (t_rest st))%nat.
Proof. exact tok_run_bound. Qed.
Print Assumptions tokenizer_run_bounded.

Example tokenizer_run_bounded_ex : exists st, tok_run jx_alnum 2 (tok_init (lit "[1]")) st /\ t_rest st = lit "]".
Proof.
  eexists. split.
  - eapply tr_step; [vm_compute; reflexivity|discriminate|]. eapply tr_step; [vm_compute; reflexivity|discriminate|]. apply tr_none.
  - reflexivity.
Qed.

(** C20: the only panic is at an escape for a surrogate, and there the tokenizer does panic; nothing is undefined. *)
Theorem tokenizer_panics_iff : forall alnum st, next alnum st = Panic <->
  exists w s h1 h2 h3 h4 r, t_rest st = w ++ 34 :: s /\ Forall (fun c => is_whitespace c = true) w /\
    string_chars s (92 :: 117 :: h1 :: h2 :: h3 :: h4 :: r) /\
    Forall hex_char [h1; h2; h3; h4] /\ surrogate (hex_code [h1; h2; h3; h4]).
Proof. exact next_panic. Qed.
Print Assumptions tokenizer_panics_iff.

Example tokenizer_panics_iff_ex : next jx_alnum (tok_init (lit " ""a\t\ud83dx""")) = Panic.
Proof. vm_compute. reflexivity. Qed.

Theorem tokenizer_never_undefined : forall alnum st, next alnum st <> Undef.
Proof. exact next_total. Qed.
Print Assumptions tokenizer_never_undefined.

Example tokenizer_never_undefined_ex : exists st, next jx_alnum (tok_init [0x10FFFF]) = Ret (st, Err EJson).
Proof. eexists. vm_compute. reflexivity. Qed.

(** C21: at a digit or minus sign the token is the longest prefix of the documented form, unless its exponent is
    incomplete. *)
Theorem number_token_shape : forall alnum st w s p r, t_rest st = w ++ s -> whitespace w -> starts_number s ->
  ((exists st', next alnum st = Ret (st', Ok tt) /\ t_token st' = KNumber /\ tok_value st' = p /\ t_rest st' = r) <->
   (s = p ++ r /\ longest_number s p /\ ~ incomplete_exponent s)).
Proof. exact number_token_iff. Qed.
Print Assumptions number_token_shape.

Example number_token_shape_ex : exists st, next jx_alnum (tok_init (lit " -10.5e+3,")) = Ret (st, Ok tt) /\
  t_token st = KNumber /\ tok_value st = lit "-10.5e+3" /\ t_rest st = lit ",".
Proof. eexists. split; [vm_compute; reflexivity|]. repeat split; reflexivity. Qed.

(** C21: and it is an error exactly if there is no such prefix or the exponent is incomplete. *)
Theorem number_token_error : forall alnum st w s, t_rest st = w ++ s -> whitespace w -> starts_number s ->
  ((exists st' e, next alnum st = Ret (st', Err e)) <->
   ((forall p r, s = p ++ r -> ~ number_lexeme p) \/ incomplete_exponent s)).
Proof. exact number_token_error_iff. Qed.
Print Assumptions number_token_error.

Example number_token_error_ex : exists st st' e e',
  next jx_alnum (tok_init (lit "-x")) = Ret (st, Err e) /\ next jx_alnum (tok_init (lit "1.5e,")) = Ret (st', Err e').
Proof. eexists _, _, _, _. split; [vm_compute; reflexivity|vm_compute; reflexivity]. Qed.

(** C21: what each kind of token looks like; a number token begins with a digit or minus sign. *)
Theorem token_first_character : forall alnum st st', next alnum st = Ret (st', Ok tt) -> t_token st' <> KEof ->
  exists w c s, whitespace w /\ t_rest st = w ++ c :: s /\ is_whitespace c = false /\
    match t_token st' with
    | KBeginArray => c = 91 /\ t_rest st' = s
    | KEndArray => c = 93 /\ t_rest st' = s
    | KBeginObject => c = 123 /\ t_rest st' = s
    | KEndObject => c = 125 /\ t_rest st' = s
    | KComma => c = 44 /\ t_rest st' = s
    | KColon => c = 58 /\ t_rest st' = s
    | KNull => c :: s = lit "null" ++ t_rest st'
    | KTrue => c :: s = lit "true" ++ t_rest st'
    | KFalse => c :: s = lit "false" ++ t_rest st'
    | KString => c = 34
    | KNumber => starts_number (c :: s)
    | KEof | KError => False
    end.
Proof. exact next_cases_ok. Qed.
Print Assumptions token_first_character.

Example token_first_character_ex : exists st, next jx_alnum (tok_init (lit " null]")) = Ret (st, Ok tt) /\ t_token st = KNull /\ t_rest st = lit "]".
Proof. eexists. split; [vm_compute; reflexivity|]. split; reflexivity. Qed.

(** C22: after a successful decode the result presents a value of the type, with every element in range. *)
Theorem decode_well_typed : forall alnum fl pf t input old d,
  Forall (fun c => is_char c = true) input -> floats_in_range fl ->
  all_structs (fun n => pf = Debug \/ n <> 64%nat) t ->
  json_decode alnum fl pf t input old = Ret (d, Ok tt) ->
  exists v, presents (ds_source d) t [] v /\ decoded t v.
Proof. exact decode_sound. Qed.
Print Assumptions decode_well_typed.

Example decode_well_typed_ex : exists d, json_decode jx_alnum jx_fl Debug jx_ty jx_messy [] = Ret (d, Ok tt) /\
  ds_get d [2%nat; 1%nat; 1%nat] = Some (JString [65; 8364]) /\
  Forall (fun c => is_char c = true) jx_messy /\ all_structs (fun n => Debug = Debug \/ n <> 64%nat) jx_ty /\
  floats_in_range jx_fl.
Proof. exact jx_messy_decodes. Qed.

(** C22: and such a value can be encoded again. *)
Theorem decoded_value_encodes : forall fl t src q v, presents src t q v -> decoded t v -> exists bs, emit fl src t q = Ret bs.
Proof. exact emit_decoded. Qed.
Print Assumptions decoded_value_encodes.

Example decoded_value_encodes_ex : presents (val_source jx_val) jx_ty [] jx_val /\ decoded jx_ty jx_val.
Proof. split; [apply every_value_presented, jx_typed|exact jx_decoded]. Qed.

(** C22: for every input there is a result or an error; the only panic comes from an escape for a surrogate. *)
Theorem decode_answers : forall alnum fl pf t input old,
  Forall (fun c => is_char c = true) input -> floats_in_range fl ->
  all_structs (fun n => (n < 64)%nat) t ->
  (exists r, json_decode alnum fl pf t input old = Ret r) \/
  (json_decode alnum fl pf t input old = Panic /\ has_surrogate_escape input).
Proof. exact decode_total. Qed.
Print Assumptions decode_answers.

Example decode_answers_ex :
  json_decode jx_alnum jx_fl Debug (TTuple [TString]) (lit "[""\ud800""]") [] = Panic /\
  exists d, json_decode jx_alnum jx_fl Debug (TTuple [TString]) (lit "[""€"" 5") [] = Ret (d, Err (EExpected WTupleEnd)).
Proof. split; [vm_compute; reflexivity|]. eexists. vm_compute. reflexivity. Qed.

(** C22: the claim fails for structs of 64 fields in release builds: the empty object is accepted for them, and then
    encoding the result panics. *)
Theorem decode_well_typed_refuted : exists t input d,
  json_decode jx_alnum jx_fl Release t input [] = Ret (d, Ok tt) /\ (forall v, ~ presents (ds_source d) t [] v) /\
  json_encode jx_fl t (ds_source d) = Panic.
Proof. exact jx_release_64. Qed.
Print Assumptions decode_well_typed_refuted.

(** C23: members in any order give the same result. *)
Theorem members_in_any_order : forall alnum fl pf fs vs xs ms old,
  jsonable fl (TStruct fs) (VStruct vs) -> values_text fl (map snd fs) vs xs ->
  Permutation ms (combine (map fst fs) xs) ->
  exists d d0, json_decode alnum fl pf (TStruct fs) (object_text ms) old = Ret (d, Ok tt) /\
    json_decode alnum fl pf (TStruct fs) (object_text (combine (map fst fs) xs)) old = Ret (d0, Ok tt) /\
    presents (ds_source d) (TStruct fs) [] (VStruct vs) /\ (forall p, ds_get d p = ds_get d0 p).
Proof. exact members_permuted. Qed.
Print Assumptions members_in_any_order.

Example members_in_any_order_ex : exists d, let fs := [(lit "a", TPrim PU8); (lit "b", TString); (lit "c", TPrim PBool)] in
  json_decode jx_alnum jx_fl Debug (TStruct fs) (object_text [(lit "c", lit "true"); (lit "a", lit "7"); (lit "b", lit """x""")]) [] = Ret (d, Ok tt) /\
  ds_get d [0%nat] = Some (JPrim PU8 7) /\ ds_get d [1%nat] = Some (JString (lit "x")) /\ ds_get d [2%nat] = Some (JPrim PBool 1).
Proof. eexists. split; [vm_compute; reflexivity|]. repeat split; reflexivity. Qed.

(** C23: an object whose labels are not exactly those of the struct is rejected. *)
Theorem wrong_members_rejected : forall alnum fl pf fs ms k old,
  (List.length fs < 64)%nat -> NoDup (map fst fs) ->
  Forall (fun m => Forall json_char (fst m) /\
                   forall t, In (fst m, t) fs -> exists v, jsonable fl t v /\ value_text fl t v (snd m)) ms ->
  ~ Permutation (map fst ms) (map fst fs) ->
  exists d e, json_decode alnum fl pf (TStruct fs) (object_text ms ++ k) old = Ret (d, Err e).
Proof. exact wrong_members_lemma. Qed.
Print Assumptions wrong_members_rejected.

Example wrong_members_rejected_ex : exists d1 d2 d3 e1 e2 e3, let fs := [(lit "a", TPrim PU8); (lit "b", TString)] in
  json_decode jx_alnum jx_fl Debug (TStruct fs) (object_text [(lit "a", lit "7")]) [] = Ret (d1, Err e1) /\
  json_decode jx_alnum jx_fl Debug (TStruct fs) (object_text [(lit "a", lit "7"); (lit "b", lit """x"""); (lit "a", lit "7")]) [] = Ret (d2, Err e2) /\
  json_decode jx_alnum jx_fl Debug (TStruct fs) (object_text [(lit "a", lit "7"); (lit "z", lit """x""")]) [] = Ret (d3, Err e3).
Proof. eexists _, _, _, _, _, _. cbv zeta. repeat split; vm_compute; reflexivity. Qed.

(** C24: whatever follows a complete value is ignored, beyond being required to begin with a valid token. *)
Theorem trailing_text : forall alnum fl pf t v x k old, jsonable fl t v -> value_text fl t v x -> boundary alnum t k ->
  exists d, presents (ds_source d) t [] v /\ json_decode alnum fl pf t x old = Ret (d, Ok tt) /\
    (token_valid alnum k ->
       exists d', json_decode alnum fl pf t (x ++ k) old = Ret (d', Ok tt) /\ forall p, ds_get d' p = ds_get d p) /\
    (forall d', json_decode alnum fl pf t (x ++ k) old = Ret (d', Ok tt) -> token_valid alnum k).
Proof. exact trailing_lemma. Qed.
Print Assumptions trailing_text.

Example trailing_text_ex :
  json_decode jx_alnum jx_fl Debug (TTuple [TPrim PU8]) (lit "[1]]] 5 x \ud800") [] = Ret ([([0%nat], JPrim PU8 1)], Ok tt) /\
  json_decode jx_alnum jx_fl Debug (TTuple [TPrim PU8]) (lit "[1]") [] = Ret ([([0%nat], JPrim PU8 1)], Ok tt) /\
  json_decode jx_alnum jx_fl Debug (TTuple [TPrim PU8]) (lit "[1]x") [] = Ret ([([0%nat], JPrim PU8 1)], Err EJson).
Proof. vm_compute. repeat split; reflexivity. Qed.

(** C25: a struct that is too wide is never decoded, whatever the input, *)
Theorem wide_struct_never_decoded : forall alnum fl pf fs input old d, too_wide pf (List.length fs) ->
  json_decode alnum fl pf (TStruct fs) input old <> Ret (d, Ok tt).
Proof. exact wide_never_ok. Qed.
Print Assumptions wide_struct_never_decoded.

Example wide_struct_never_decoded_ex : too_wide Debug 64 /\ too_wide Release 65 /\ ~ too_wide Release 64 /\ ~ too_wide Debug 63.
Proof. unfold too_wide. repeat split; try (left; lia); try (right; split; reflexivity); intros [H|[H H']]; lia || discriminate. Qed.

(** and the decoder panics as soon as an object begins. *)
Theorem wide_struct_panics : forall alnum fl pf fs w r old, too_wide pf (List.length fs) -> whitespace w -> token_valid alnum r ->
  json_decode alnum fl pf (TStruct fs) (w ++ 123 :: r) old = Panic.
Proof. exact wide_panics. Qed.
Print Assumptions wide_struct_panics.

Example wide_struct_panics_ex :
  json_decode jx_alnum jx_fl Debug (TStruct (jx_wide 64)) (lit " {}") [] = Panic /\
  json_decode jx_alnum jx_fl Release (TStruct (jx_wide 65)) (lit "{ ""x"": 1 }") [] = Panic /\
  json_decode jx_alnum jx_fl Release (TStruct (jx_wide 65)) (lit "[]") [] = Ret ([], Err (EExpected WStruct)).
Proof. vm_compute. repeat split; reflexivity. Qed.

(** C25: a release build accepts for a struct of 64 fields the empty object only. *)
Theorem release_64_only_empty : forall alnum fl pf fs input old d, pf = Release -> List.length fs = 64%nat ->
  (json_decode alnum fl pf (TStruct fs) input old = Ret (d, Ok tt) <->
   d = [] /\ exists w1 w2 k, input = w1 ++ 123 :: w2 ++ 125 :: k /\ whitespace w1 /\ whitespace w2 /\ token_valid alnum k).
Proof. exact release_64_lemma. Qed.
Print Assumptions release_64_only_empty.

Example release_64_only_empty_ex : List.length (jx_wide 64) = 64%nat /\
  json_decode jx_alnum jx_fl Release (TStruct (jx_wide 64)) (lit " { } ") [] = Ret ([], Ok tt).
Proof. split; [vm_compute; reflexivity|vm_compute; reflexivity]. Qed.

(** C25: although such types have layouts and are written without complaint. *)
Theorem wide_struct_is_encoded : exists fs v l bs, List.length fs = 65%nat /\ typed (TStruct fs) v /\
  layout_new (TStruct fs) = Ret l /\ json_encode jx_fl (TStruct fs) (val_source v) = Ret bs.
Proof. exact jx_wide_encoded. Qed.
Print Assumptions wide_struct_is_encoded.
