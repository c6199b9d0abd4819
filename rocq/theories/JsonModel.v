(** * Model of core/json (encoder, tokenizer, decoder) and of core/data_source.rs, core/value.rs

    Parameters standing for parts of the Rust standard library whose tables or algorithms are not modelled:
    the class of the non-ASCII alphanumeric characters, and the decimal formatting and parsing of floats (bit
    patterns). The writer is a [Vec<u8>]: it accepts everything, so I/O errors and short writes do not occur.
    Error messages are the values of [jerr]: one for each text in the code, with the text that it quotes. *)

From Coq Require Import Strings.String Strings.Ascii.
From Verif Require Import Base StrModel Utf8Model TypesModel MarshalModel.
Local Open Scope list_scope.
Local Open Scope Z_scope.

(** ASCII literals. *)
Definition lit (s : string) : str := map (fun a => Z.of_N (N_of_ascii a)) (list_ascii_of_string s).
Arguments lit s%string.

(** [T::fmt] and [T::from_str] of [f32] (first argument [PF32]) and [f64] ([PF64]), on bit patterns. *)
Record floats : Type := {
  show_float : prim -> Z -> str;
  parse_float : prim -> str -> option Z
}.

(** ** Data source: core/data_source.rs and core/value.rs *)

(** src/core/value.rs:25-68 [PrimitiveValue], [Value]. *)
Inductive jvalue : Type :=
| JPrim (p : prim) (z : Z)
| JString (s : str)
| JTag (n : nat).

(** src/core/data_source.rs:66-68 [IntermediateDataSource]: a map from paths; here the list of the insertions, the
    latest first. *)
Definition ds := list (path * jvalue).

(** [BTreeMap::get]. *)
Fixpoint ds_get (d : ds) (q : path) : option jvalue :=
  match d with
  | [] => None
  | (q', v) :: d' => if path_eqb q' q then Some v else ds_get d' q
  end.

(** src/core/data_source.rs:130-142 [add_primitive], [add_string], [add_case_tag]. *)
Definition ds_add (d : ds) (q : path) (v : jvalue) : ds := (q, v) :: d.

Definition prim_eqb (p q : prim) : bool :=
  match p, q with
  | PBool, PBool | PChar, PChar | PU8, PU8 | PU16, PU16 | PU32, PU32 | PU64, PU64 | PU128, PU128
  | PI8, PI8 | PI16, PI16 | PI32, PI32 | PI64, PI64 | PI128, PI128 | PF32, PF32 | PF64, PF64 => true
  | _, _ => false
  end.

(** src/core/data_source.rs:70-117 [impl DataSource for IntermediateDataSource]. *)
Definition ds_source (d : ds) : source := {|
  src_prim p q :=
    match ds_get d q with
    | Some (JPrim p' z) => if prim_eqb p' p then Ret z else Panic
    | _ => Panic
    end;
  src_tag q := match ds_get d q with Some (JTag n) => Ret n | _ => Panic end;
  src_len q := match ds_get d q with Some (JString s) => Ret (List.length (utf8_encode s)) | _ => Panic end;
  src_bytes q := match ds_get d q with Some (JString s) => Ret (utf8_encode s) | _ => Panic end
|}.

(** ** Encoder: core/json/encoder.rs *)

(** [as u8] of a [u32] *)
Definition as_u8 (z : Z) : Z := z mod 256.

(** src/core/json/encoder.rs:33-81 [write_ch]. *)
Definition write_ch (c : char) : list byte :=
  if c =? 0 then utf8_encode (lit "\0")
  else if c =? 92 then utf8_encode (lit "\\")
  else if c =? 47 then utf8_encode (lit "\/")
  else if c =? 34 then utf8_encode (lit "\""")
  else if c =? 8 then utf8_encode (lit "\b")
  else if c =? 12 then utf8_encode (lit "\f")
  else if c =? 10 then utf8_encode (lit "\n")
  else if c =? 13 then utf8_encode (lit "\r")
  else if c =? 9 then utf8_encode (lit "\t")
  else if c <=? 0x1f then
    utf8_encode (lit "\u00") ++ [z2b (48 + Z.shiftr (as_u8 c) 4); z2b (48 + Z.land (as_u8 c) 0xf)]
  else if c <=? 0x7f then [z2b c]
  else if (0x80 <=? c) && (c <=? 0x7ff) then
    [z2b (Z.lor (Z.land (as_u8 (Z.shiftr c 6)) 0x1f) 0xc0);
     z2b (Z.lor (Z.land (as_u8 c) 0x3f) 0x80)]
  else if (0x800 <=? c) && (c <=? 0x7fff) then
    [z2b (Z.lor (Z.land (as_u8 (Z.shiftr c 12)) 0x0f) 0xe0);
     z2b (Z.lor (Z.land (as_u8 (Z.shiftr c 6)) 0x3f) 0x80);
     z2b (Z.lor (Z.land (as_u8 c) 0x3f) 0x80)]
  else
    [z2b (Z.lor (Z.land (as_u8 (Z.shiftr c 18)) 0x07) 0xf0);
     z2b (Z.lor (Z.land (as_u8 (Z.shiftr c 12)) 0x3f) 0x80);
     z2b (Z.lor (Z.land (as_u8 (Z.shiftr c 6)) 0x3f) 0x80);
     z2b (Z.lor (Z.land (as_u8 c) 0x3f) 0x80)].

(** src/core/json/encoder.rs:83-92 [emit_utf8_string]. *)
Definition emit_utf8_string (s : str) : list byte :=
  utf8_encode (lit """") ++ flat_map write_ch s ++ utf8_encode (lit """").

(** [write!(writer, "{}", value)] for the numeric types (src/core/json/encoder.rs:224-249). *)
Definition show_number (fl : floats) (p : prim) (z : Z) : str :=
  match p with
  | PF32 | PF64 => show_float fl p z
  | _ => show_int z
  end.

(** src/core/json/encoder.rs:192-234: [EmitBoolean], [EmitChar], [EmitNumber]. *)
Definition emit_prim (fl : floats) (src : source) (p : prim) (q : path) : outcome (list byte) :=
  z <- src_prim src p q ;;
  Ret (match p with
       | PBool => if negb (z =? 0) then utf8_encode (lit "true") else utf8_encode (lit "false")
       | PChar => utf8_encode (lit """") ++ write_ch z ++ utf8_encode (lit """")
       | _ => utf8_encode (show_number fl p z)
       end).

(** The comma-separated loops of [EmitTuple] and [EmitStruct] (src/core/json/encoder.rs:116-125 and 140-151);
    [f] emits one member with its path. *)
Section EmitMembers.
Context {A : Type} (f : A -> path -> outcome (list byte)).
Fixpoint emit_members (l : list A) (prefix : path) (k : nat) : outcome (list byte) :=
  match l with
  | [] => Ret []
  | a :: l' =>
      b <- f a (with_component prefix k) ;;
      r <- emit_members l' prefix (S k) ;;
      Ret ((if (k =? 0)%nat then [] else utf8_encode (lit ",")) ++ b ++ r)
  end.
End EmitMembers.

(** Selecting [self.cases[case_tag]]: panics out of range. *)
Section EmitCase.
Context {A : Type} (f : A -> outcome (list byte)).
Fixpoint emit_case (l : list A) (k : nat) : outcome (list byte) :=
  match l, k with
  | [], _ => Panic
  | a :: _, O => f a
  | _ :: l', S k' => emit_case l' k'
  end.
End EmitCase.

(** src/core/json/encoder.rs:94-393 [emitter_for_type] composed with the [emit] methods. *)
Fixpoint emit (fl : floats) (src : source) (t : ty) (q : path) : outcome (list byte) :=
  match t with
  | TUnit => Ret (utf8_encode (lit "null"))
  | TPrim p => emit_prim fl src p q
  | TString =>
      bs <- src_bytes src q ;;
      match utf8_decode bs with
      | Some s => Ret (emit_utf8_string s)
      | None => Panic
      end
  | TTuple ts =>
      b <- emit_members (emit fl src) ts q 0 ;;
      Ret (utf8_encode (lit "[") ++ b ++ utf8_encode (lit "]"))
  | TStruct fs =>
      b <- emit_members (fun f q' => b <- emit fl src (snd f) q' ;;
                                     Ret (emit_utf8_string (fst f) ++ utf8_encode (lit ":") ++ b)) fs q 0 ;;
      Ret (utf8_encode (lit "{") ++ b ++ utf8_encode (lit "}"))
  | TEnum cs =>
      tag <- src_tag src q ;;
      emit_case (fun c => b <- emit fl src (snd c) (with_component q tag) ;;
                          Ret (utf8_encode (lit "{""kind"":") ++ emit_utf8_string (fst c) ++
                               utf8_encode (lit ",""value"":") ++ b ++ utf8_encode (lit "}"))) cs tag
  end.

(** src/core/json/encoder.rs:395-407 [JsonEncoder::encode]. *)
Definition json_encode (fl : floats) (t : ty) (src : source) : outcome (list byte) := emit fl src t [].

(** ** Tokenizer: core/json/tokenizer.rs *)

(** src/core/json/tokenizer.rs:112-127 [Token]. *)
Inductive token : Type :=
| KEof | KError | KNull | KTrue | KFalse | KString | KNumber
| KBeginObject | KEndObject | KBeginArray | KEndArray | KComma | KColon.

Definition token_eqb (a b : token) : bool :=
  match a, b with
  | KEof, KEof | KError, KError | KNull, KNull | KTrue, KTrue | KFalse, KFalse | KString, KString
  | KNumber, KNumber | KBeginObject, KBeginObject | KEndObject, KEndObject | KBeginArray, KBeginArray
  | KEndArray, KEndArray | KComma, KComma | KColon, KColon => true
  | _, _ => false
  end.

(** What the decoder expected: one for each constant text of src/core/json/decoder.rs:93-455, in their order. *)
Inductive wanted : Type :=
| WStruct       (* Structs are represented as JSON objects *)
| WFieldComma   (* ',' expected as separator between object fields *)
| WLabel        (* Expecting a field label *)
| WColon        (* ':' expected as separator between field labels and values *)
| WStructEnd    (* Missing terminating '}' of JSON object encoding a struct value *)
| WEnum         (* Enums are represented as JSON object *)
| WKind         (* Expecting 'kind' field *)
| WCaseString   (* Case tage value must be a string value *)
| WCaseComma    (* ',' expected as separator between case label and case value *)
| WValue        (* Expecting 'value' field *)
| WEnumEnd      (* Missing terminating '}' of JSON object encoding an enum value *)
| WTuple        (* Tuples are represented as JSON array *)
| WTupleComma   (* ',' expected as separator between tuple components *)
| WTupleEnd     (* Missing terminating ']' of JSON array encoding a tuple value *)
| WString       (* String value expected *)
| WNumber       (* Expecting string or number *)
| WBool         (* Boolean value must be True or False *)
| WChar         (* Expecting a string encoding a single character *)
| WNull.        (* 'null' is the only valid value for a unit value *)

(** The errors of the tokenizer and of the decoder. *)
Inductive jerr : Type :=
| EToken                       (* 'Invalid token' *)
| EJson                        (* 'Invalid JSON token' *)
| EEscape                      (* 'Invalid escape sequence in string value' *)
| EUnicode                     (* 'Invalid Unicode escape sequence in string value' *)
| EQuote                       (* 'Missing closing quotation mark in string value' *)
| ENumber                      (* 'Invalid number token' *)
| EExponent                    (* 'Invalid exponent format for number' *)
| EExpected (w : wanted)       (* another symbol was expected *)
| EField (l : str)             (* 'Invalid field named' l *)
| EDuplicate (l : str)         (* 'Duplicate assignment for field named' l *)
| ECase (l : str)              (* 'Invalid enum case' l *)
| ERefused (p : prim) (x : str).  (* the text of [T::Err], where [T::from_str] does not accept [x] *)

(** The texts of src/core/json/decoder.rs:93-455. *)
Definition wanted_text (w : wanted) : str :=
  match w with
  | WStruct => lit "Structs are represented as JSON objects"
  | WFieldComma => lit "',' expected as separator between object fields"
  | WLabel => lit "Expecting a field label"
  | WColon => lit "':' expected as separator between field labels and values"
  | WStructEnd => lit "Missing terminating '}' of JSON object encoding a struct value"
  | WEnum => lit "Enums are represented as JSON object"
  | WKind => lit "Expecting 'kind' field"
  | WCaseString => lit "Case tage value must be a string value"
  | WCaseComma => lit "',' expected as separator between case label and case value"
  | WValue => lit "Expecting 'value' field"
  | WEnumEnd => lit "Missing terminating '}' of JSON object encoding an enum value"
  | WTuple => lit "Tuples are represented as JSON array"
  | WTupleComma => lit "',' expected as separator between tuple components"
  | WTupleEnd => lit "Missing terminating ']' of JSON array encoding a tuple value"
  | WString => lit "String value expected"
  | WNumber => lit "Expecting string or number"
  | WBool => lit "Boolean value must be True or False"
  | WChar => lit "Expecting a string encoding a single character"
  | WNull => lit "'null' is the only valid value for a unit value"
  end.

(** The error strings: src/core/json/tokenizer.rs:200-401 and src/core/json/decoder.rs:118, 129-132, 191, 308.
    [refusal] gives the texts of [ParseIntError] and [ParseFloatError], which belong to the standard library. *)
Definition jerr_text (refusal : prim -> str -> str) (e : jerr) : str :=
  match e with
  | EToken => lit "Invalid token"
  | EJson => lit "Invalid JSON token"
  | EEscape => lit "Invalid escape sequence in string value"
  | EUnicode => lit "Invalid Unicode escape sequence in string value"
  | EQuote => lit "Missing closing quotation mark in string value"
  | ENumber => lit "Invalid number token"
  | EExponent => lit "Invalid exponent format for number"
  | EExpected w => wanted_text w
  | EField l => lit "Invalid field named '" ++ l ++ lit "'"
  | EDuplicate l => lit "Duplicate assignment for field named '" ++ l ++ lit "'"
  | ECase l => lit "Invalid enum case '" ++ l ++ lit "'"
  | ERefused p x => refusal p x
  end.

(** src/core/json/tokenizer.rs:130-137 [Tokenizer]: [t_rest] is the input from the look-ahead character on,
    [t_range] the text of [value_range], [t_buf] the string buffer. *)
Record tstate : Type := {
  t_token : token;
  t_rest : str;
  t_range : str;
  t_buf : str
}.

Definition tstep : Type := tstate * result unit jerr.

(** [char::is_whitespace]: the Unicode White_Space property. *)
Definition is_whitespace (c : char) : bool :=
  ((9 <=? c) && (c <=? 13)) || (c =? 0x20) || (c =? 0x85) || (c =? 0xA0) || (c =? 0x1680) ||
  ((0x2000 <=? c) && (c <=? 0x200A)) || (c =? 0x2028) || (c =? 0x2029) || (c =? 0x202F) || (c =? 0x205F) ||
  (c =? 0x3000).

(** [char::is_alphanumeric]: exact on ASCII, the given table elsewhere. *)
Definition is_alphanumeric (alnum : Z -> bool) (c : char) : bool :=
  if c <? 0x80 then
    ((48 <=? c) && (c <=? 57)) || ((65 <=? c) && (c <=? 90)) || ((97 <=? c) && (c <=? 122))
  else alnum c.

(** [char::to_digit(16)]. *)
Definition hex_digit (c : char) : option Z :=
  if (48 <=? c) && (c <=? 57) then Some (c - 48)
  else if (97 <=? c) && (c <=? 102) then Some (c - 87)
  else if (65 <=? c) && (c <=? 70) then Some (c - 55)
  else None.

(** The text between two positions of the input, each given by the input remaining there. *)
Definition text_between (start now : str) : str := firstn (List.length start - List.length now) start.

(** src/core/json/tokenizer.rs:177-185 [skip_whitespace]. *)
Fixpoint skip_whitespace (s : str) : str :=
  match s with
  | c :: s' => if is_whitespace c then skip_whitespace s' else s
  | [] => []
  end.

(** src/core/json/tokenizer.rs:187-191 [single_char_token]. *)
Definition single_char_token (st : tstate) (k : token) (s' : str) : outcome tstep :=
  Ret ({| t_token := k; t_rest := s'; t_range := t_range st; t_buf := t_buf st |}, Ok tt).

(** src/core/json/tokenizer.rs:194-206: the loop of [match_keyword]; what remains, and whether all characters
    matched. *)
Fixpoint keyword_loop (target s : str) : str * bool :=
  match target with
  | [] => (s, true)
  | c :: target' =>
      match s with
      | c' :: s' => if c' =? c then keyword_loop target' s' else (s, false)
      | [] => ([], false)
      end
  end.

(** src/core/json/tokenizer.rs:193-219 [match_keyword]. *)
Definition match_keyword (alnum : Z -> bool) (st : tstate) (target : str) (k : token) (s : str) : outcome tstep :=
  let st' k' s' := {| t_token := k'; t_rest := s'; t_range := t_range st; t_buf := t_buf st |} in
  match keyword_loop target s with
  | (s', false) => Ret (st' KError s', Err EToken)
  | (s', true) =>
      match s' with
      | c :: _ => if is_alphanumeric alnum c then Ret (st' KError s', Err EToken) else Ret (st' k s', Ok tt)
      | [] => Ret (st' k s', Ok tt)
      end
  end.

(** src/core/json/tokenizer.rs:245-259: the loop over the four hexadecimal digits. A character that is no digit is
    left in place and the loop goes on; the end of the input is an error ([None]). *)
Fixpoint hex_loop (n : nat) (code : Z) (s : str) : str * option Z :=
  match n with
  | O => (s, Some code)
  | S n' =>
      match s with
      | c :: s' =>
          match hex_digit c with
          | Some d => hex_loop n' (code * 16 + d) s'
          | None => hex_loop n' code s
          end
      | [] => ([], None)
      end
  end.

(** src/core/json/tokenizer.rs:226-267 [string_control_char], after the backslash: remaining input, buffer,
    result. [char::from_u32(code).unwrap()] panics for surrogates. *)
Definition string_control_char (s buf : str) : outcome (str * str * result unit jerr) :=
  match s with
  | c :: s' =>
      if c =? 47 then Ret (s', buf ++ [47], Ok tt)
      else if c =? 92 then Ret (s', buf ++ [92], Ok tt)
      else if c =? 34 then Ret (s', buf ++ [34], Ok tt)
      else if c =? 98 then Ret (s', buf ++ [8], Ok tt)
      else if c =? 102 then Ret (s', buf ++ [12], Ok tt)
      else if c =? 110 then Ret (s', buf ++ [10], Ok tt)
      else if c =? 114 then Ret (s', buf ++ [13], Ok tt)
      else if c =? 116 then Ret (s', buf ++ [9], Ok tt)
      else if c =? 117 then
        match hex_loop 4 0 s' with
        | (s2, None) => Ret (s2, buf, Err EUnicode)
        | (s2, Some code) => if is_char code then Ret (s2, buf ++ [code], Ok tt) else Panic
        end
      else Ret (s, buf, Err EEscape)
  | [] => Ret ([], buf, Err EEscape)
  end.

(** src/core/json/tokenizer.rs:275-289: the loop of [match_string]. [Err EQuote] is the [break] and the end of the
    loop. The fuel bounds the number of iterations; running out of it would be [Undef], which is proved not to
    happen. *)
Fixpoint string_loop (fuel : nat) (s buf : str) : outcome (str * str * result unit jerr) :=
  match fuel with
  | O => Undef
  | S f =>
      match s with
      | [] => Ret ([], buf, Err EQuote)
      | c :: s' =>
          if c =? 34 then Ret (s', buf, Ok tt)
          else if c =? 92 then
            '(s2, buf2, r) <- string_control_char s' buf ;;
            match r with
            | Ok _ => string_loop f s2 buf2
            | Err e => Ret (s2, buf2, Err e)
            end
          else if c <=? 0x1f then Ret (s, buf, Err EQuote)
          else string_loop f s' (buf ++ [c])
      end
  end.

(** src/core/json/tokenizer.rs:269-297 [match_string]; [s] starts with the opening quotation mark. *)
Definition match_string (st : tstate) (s : str) : outcome tstep :=
  '(s', buf, r) <- string_loop (S (List.length s)) (tl s) [] ;;
  match r with
  | Ok _ => Ret ({| t_token := KString; t_rest := s'; t_range := []; t_buf := buf |}, Ok tt)
  | Err EQuote =>
      Ret ({| t_token := KError; t_rest := s'; t_range := text_between s s'; t_buf := buf |}, Err EQuote)
  | Err e => Ret ({| t_token := t_token st; t_rest := s'; t_range := []; t_buf := buf |}, Err e)
  end.

(** src/core/json/tokenizer.rs:299-307 [digits]. *)
Fixpoint digits (s : str) : str :=
  match s with
  | c :: s' => if is_digit c then digits s' else s
  | [] => []
  end.

(** src/core/json/tokenizer.rs:313-349: the body of [match_number]. *)
Definition number_body (s : str) : str * result unit jerr :=
  let s1 := match s with c :: s' => if c =? 45 then s' else s | [] => s end in
  let s2 := match s1 with
            | c :: s' => if c =? 48 then Some s' else if is_digit c then Some (digits s') else None
            | [] => None
            end in
  match s2 with
  | None => (s1, Err ENumber)
  | Some s2 =>
      let s3 := match s2 with c :: s' => if c =? 46 then digits s' else s2 | [] => s2 end in
      match s3 with
      | c :: s' =>
          if (c =? 101) || (c =? 69) then
            let s4 := match s' with c' :: s'' => if (c' =? 43) || (c' =? 45) then s'' else s' | [] => s' end in
            match s4 with
            | c' :: _ => if is_digit c' then (digits s4, Ok tt) else (s4, Err EExponent)
            | [] => (s4, Err EExponent)
            end
          else (s3, Ok tt)
      | [] => (s3, Ok tt)
      end
  end.

(** src/core/json/tokenizer.rs:309-354 [match_number]. *)
Definition match_number (st : tstate) (s : str) : outcome tstep :=
  match number_body s with
  | (s', Ok _) =>
      Ret ({| t_token := KNumber; t_rest := s'; t_range := text_between s s'; t_buf := t_buf st |}, Ok tt)
  | (s', Err e) => Ret ({| t_token := t_token st; t_rest := s'; t_range := []; t_buf := t_buf st |}, Err e)
  end.

(** src/core/json/tokenizer.rs:356-363 [value]. *)
Definition tok_value (st : tstate) : str :=
  match t_token st with
  | KString => t_buf st
  | _ => t_range st
  end.

(** src/core/json/tokenizer.rs:368-404 [next]. *)
Definition next (alnum : Z -> bool) (st : tstate) : outcome tstep :=
  let s := skip_whitespace (t_rest st) in
  match s with
  | [] => Ret ({| t_token := KEof; t_rest := []; t_range := t_range st; t_buf := t_buf st |}, Ok tt)
  | c :: s' =>
      if c =? 91 then single_char_token st KBeginArray s'
      else if c =? 93 then single_char_token st KEndArray s'
      else if c =? 123 then single_char_token st KBeginObject s'
      else if c =? 125 then single_char_token st KEndObject s'
      else if c =? 44 then single_char_token st KComma s'
      else if c =? 58 then single_char_token st KColon s'
      else if c =? 110 then match_keyword alnum st (lit "null") KNull s
      else if c =? 116 then match_keyword alnum st (lit "true") KTrue s
      else if c =? 102 then match_keyword alnum st (lit "false") KFalse s
      else if c =? 34 then match_string st s
      else if c =? 45 then match_number st s
      else if is_digit c then match_number st s
      else Ret ({| t_token := KError; t_rest := s; t_range := t_range st; t_buf := t_buf st |}, Err EJson)
  end.

(** src/core/json/tokenizer.rs:140-155 [Tokenizer::new]: the state before the first [next], then [next]. *)
Definition tok_init (input : str) : tstate :=
  {| t_token := KEof; t_rest := input; t_range := []; t_buf := [] |}.

Definition tok_new (alnum : Z -> bool) (input : str) : outcome tstep := next alnum (tok_init input).

(** ** Decoder: core/json/decoder.rs *)

(** A parse: the data source, which is updated in place, and the tokenizer or an error. *)
Definition parsed : Type := ds * result tstate jerr.

(** The [?] operator. *)
Definition andthen (x : outcome parsed) (k : tstate -> ds -> outcome parsed) : outcome parsed :=
  '(d, r) <- x ;;
  match r with
  | Ok st => k st d
  | Err e => Ret (d, Err e)
  end.

(** [tokenizer.next()?] *)
Definition step (alnum : Z -> bool) (st : tstate) (d : ds) : outcome parsed :=
  '(st', r) <- next alnum st ;;
  match r with
  | Ok _ => Ret (d, Ok st')
  | Err e => Ret (d, Err e)
  end.

(** src/core/json/decoder.rs:34-45 [must_be]. *)
Definition must_be (alnum : Z -> bool) (k : token) (w : wanted) (st : tstate) (d : ds) : outcome parsed :=
  if negb (token_eqb (t_token st) k) then Ret (d, Err (EExpected w)) else step alnum st d.

(** src/core/json/decoder.rs:64-81 [BitSet for u64]. *)
Definition bits_new (pf : profile) (n : nat) : outcome Z :=
  check (n <=? 64)%nat ;;
  x <- wshl pf 64 1 (Z.of_nat n) ;; wsub pf 64 x 1.

Definition bits_clear (pf : profile) (v : Z) (i : nat) : outcome Z :=
  x <- wshl pf 64 1 (Z.of_nat i) ;; Ret (Z.land v (unot 64 x)).

Definition bits_has (pf : profile) (v : Z) (i : nat) : outcome bool :=
  x <- wshl pf 64 1 (Z.of_nat i) ;; Ret (negb (Z.land v x =? 0)).

(** The label maps built by [parser_for_type] (src/core/json/decoder.rs:477-481 and 498-508): collecting into a
    [BTreeMap] keeps the last index of a repeated label. *)
Fixpoint last_index {A : Type} (l : list (str * A)) (k : nat) (label : str) : option nat :=
  match l with
  | [] => None
  | (lab, _) :: l' =>
      match last_index l' (S k) label with
      | Some i => Some i
      | None => if str_eqb lab label then Some k else None
      end
  end.

(** src/core/json/decoder.rs:105-142: the loop of [StructParser::parse]. [parse_field i] is
    [self.fields[index].parse]. The fuel bounds the number of iterations (one more than the number of bits of the
    set); running out of it would be [Undef], which is proved not to happen. *)
Section StructLoop.
Context (alnum : Z -> bool) (pf : profile) (index : str -> option nat)
        (parse_field : nat -> tstate -> ds -> outcome parsed).
Fixpoint struct_loop (fuel : nat) (visited : Z) (first : bool) (st : tstate) (d : ds) : outcome parsed :=
  if visited =? 0 then Ret (d, Ok st) else
  match fuel with
  | O => Undef
  | S f =>
      andthen (if first then Ret (d, Ok st) else must_be alnum KComma WFieldComma st d) (fun st d =>
      if token_eqb (t_token st) KString then
        match index (tok_value st) with
        | None => Ret (d, Err (EField (tok_value st)))
        | Some i =>
            has <- bits_has pf visited i ;;
            if has : bool then
              andthen (step alnum st d) (fun st d =>
              visited' <- bits_clear pf visited i ;;
              andthen (must_be alnum KColon WColon st d) (fun st d =>
              andthen (parse_field i st d) (fun st d =>
              struct_loop f visited' false st d)))
            else Ret (d, Err (EDuplicate (tok_value st)))
        end
      else Ret (d, Err (EExpected WLabel)))
  end.
End StructLoop.

(** Selecting member [i] of a tuple, struct or enum and applying its parser with its path; out of range is a
    panic ([self.fields[index]]), unreachable since the indices come from the same list. *)
Section Select.
Context {A B : Type} (f : A -> outcome B).
Fixpoint select (l : list A) (i : nat) : outcome B :=
  match l, i with
  | [], _ => Panic
  | a :: _, O => f a
  | _ :: l', S i' => select l' i'
  end.
End Select.

(** src/core/json/decoder.rs:243-256: the loop of [TupleParser::parse]. *)
Section TupleLoop.
Context {A : Type} (alnum : Z -> bool) (f : A -> path -> tstate -> ds -> outcome parsed).
Fixpoint tuple_loop (l : list A) (prefix : path) (k : nat) (st : tstate) (d : ds) : outcome parsed :=
  match l with
  | [] => Ret (d, Ok st)
  | a :: l' =>
      andthen (if (k =? 0)%nat then Ret (d, Ok st) else must_be alnum KComma WTupleComma st d) (fun st d =>
      andthen (f a (with_component prefix k) st d) (fun st d =>
      tuple_loop l' prefix (S k) st d))
  end.
End TupleLoop.

(** [T::from_str] for the numeric types. *)
Definition parse_number (fl : floats) (p : prim) (s : str) : option Z :=
  match p with
  | PF32 | PF64 => parse_float fl p s
  | PI8 | PI16 | PI32 | PI64 | PI128 =>
      parse_int (- 2 ^ (8 * Z.of_nat (prim_size p) - 1)) (2 ^ (8 * Z.of_nat (prim_size p) - 1) - 1) s
  | _ => parse_int 0 (2 ^ (8 * Z.of_nat (prim_size p)) - 1) s
  end.

(** src/core/json/decoder.rs:291-437 [parse_primitive_number], [extract_char], [PrimitiveParser::parse]. *)
Definition parse_prim (alnum : Z -> bool) (fl : floats) (p : prim) (q : path) (st : tstate) (d : ds)
  : outcome parsed :=
  match p with
  | PBool =>
      match t_token st with
      | KTrue => step alnum st (ds_add d q (JPrim PBool 1))
      | KFalse => step alnum st (ds_add d q (JPrim PBool 0))
      | _ => Ret (d, Err (EExpected WBool))
      end
  | PChar =>
      if token_eqb (t_token st) KString then
        match tok_value st with
        | [c] => step alnum st (ds_add d q (JPrim PChar c))
        | _ => andthen (step alnum st d) (fun _ d => Ret (d, Err (EExpected WChar)))
        end
      else Ret (d, Err (EExpected WChar))
  | _ =>
      if negb (token_eqb (t_token st) KString) && negb (token_eqb (t_token st) KNumber)
      then Ret (d, Err (EExpected WNumber))
      else match parse_number fl p (tok_value st) with
           | Some z => step alnum st (ds_add d q (JPrim p z))
           | None => Ret (d, Err (ERefused p (tok_value st)))
           end
  end.

(** src/core/json/decoder.rs:172-176 and 204-208: a field of the given name. *)
Definition named_field (alnum : Z -> bool) (name : str) (w : wanted) (st : tstate) (d : ds) : outcome parsed :=
  if negb (token_eqb (t_token st) KString) || negb (str_eqb (tok_value st) name)
  then Ret (d, Err (EExpected w)) else step alnum st d.

(** src/core/json/decoder.rs:83-516: [parser_for_type] composed with the [parse] methods. *)
Fixpoint parse (alnum : Z -> bool) (fl : floats) (pf : profile) (t : ty) (q : path) (st : tstate) (d : ds)
  : outcome parsed :=
  match t with
  | TUnit => if token_eqb (t_token st) KNull then step alnum st d else Ret (d, Err (EExpected WNull))
  | TPrim p => parse_prim alnum fl p q st d
  | TString =>
      if token_eqb (t_token st) KString then step alnum st (ds_add d q (JString (tok_value st)))
      else Ret (d, Err (EExpected WString))
  | TTuple ts =>
      andthen (must_be alnum KBeginArray WTuple st d) (fun st d =>
      andthen (tuple_loop alnum (parse alnum fl pf) ts q 0 st d) (fun st d =>
      must_be alnum KEndArray WTupleEnd st d))
  | TStruct fs =>
      andthen (must_be alnum KBeginObject WStruct st d) (fun st d =>
      visited <- bits_new pf (List.length fs) ;;
      andthen (struct_loop alnum pf (last_index fs 0)
                 (fun i st d => select (fun f => parse alnum fl pf (snd f) (with_component q i) st d) fs i)
                 65 visited true st d) (fun st d =>
      must_be alnum KEndObject WStructEnd st d))
  | TEnum cs =>
      andthen (must_be alnum KBeginObject WEnum st d) (fun st d =>
      andthen (named_field alnum (lit "kind") WKind st d) (fun st d =>
      andthen (must_be alnum KColon WColon st d) (fun st d =>
      if negb (token_eqb (t_token st) KString) then Ret (d, Err (EExpected WCaseString)) else
      match last_index cs 0 (tok_value st) with
      | None => Ret (d, Err (ECase (tok_value st)))
      | Some i =>
          andthen (step alnum st (ds_add d q (JTag i))) (fun st d =>
          andthen (must_be alnum KComma WCaseComma st d) (fun st d =>
          andthen (named_field alnum (lit "value") WValue st d) (fun st d =>
          andthen (must_be alnum KColon WColon st d) (fun st d =>
          andthen (select (fun c => parse alnum fl pf (snd c) (with_component q i) st d) cs i) (fun st d =>
          must_be alnum KEndObject WEnumEnd st d)))))
      end)))
  end.

(** src/core/json/decoder.rs:518-538 [JsonDecoder::parse]: the data source is cleared only once the first token
    was read; what follows the value is not looked at beyond the next token. *)
Definition json_decode (alnum : Z -> bool) (fl : floats) (pf : profile) (t : ty) (input : str) (old : ds)
  : outcome (ds * result unit jerr) :=
  '(st, r) <- tok_new alnum input ;;
  match r with
  | Err e => Ret (old, Err e)
  | Ok _ =>
      '(d, r) <- parse alnum fl pf t [] st [] ;;
      Ret (d, match r with Ok _ => Ok tt | Err e => Err e end)
  end.
