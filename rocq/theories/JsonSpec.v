(** * Specification vocabulary for JSON *)

From Coq Require Import Strings.String.
From Verif Require Import Base StrModel Utf8Model TypesModel MarshalModel MarshalSpec JsonModel.
Local Open Scope list_scope.
Local Open Scope Z_scope.

(** ** Number lexemes *)

Definition all_digits (s : str) : Prop := Forall (fun c => 48 <= c <= 57) s.

(** [[-] (0 | nonzero digits) [. digits*] [(e|E) [+|-] digits+]] *)
Definition sign_part (s : str) : Prop := s = [] \/ s = [45].
Definition int_part (s : str) : Prop := s = [48] \/ exists c ds, s = c :: ds /\ 49 <= c <= 57 /\ all_digits ds.
Definition frac_part (s : str) : Prop := s = [] \/ exists ds, s = 46 :: ds /\ all_digits ds.
Definition exp_part (s : str) : Prop :=
  s = [] \/ exists e sg ds, s = e :: sg ++ ds /\ (e = 101 \/ e = 69) /\ (sg = [] \/ sg = [43] \/ sg = [45]) /\
                            ds <> [] /\ all_digits ds.

Definition number_lexeme (s : str) : Prop :=
  exists sg i f e, s = sg ++ i ++ f ++ e /\ sign_part sg /\ int_part i /\ frac_part f /\ exp_part e.

(** An exponent mark that no digits follow: [(e|E) [+|-]] and then no digit. *)
Definition dangling_exponent (s : str) : Prop :=
  exists e sg r, s = e :: sg ++ r /\ (e = 101 \/ e = 69) /\ (sg = [] \/ sg = [43] \/ sg = [45]) /\
    match r with [] => True | c :: _ => ~ 48 <= c <= 57 end /\
    (sg = [] -> match r with [] => True | c :: _ => c <> 43 /\ c <> 45 end).

(** A prefix that is a lexeme, and no longer prefix is. *)
Definition longest_number (s p : str) : Prop :=
  number_lexeme p /\ (exists r, s = p ++ r) /\
  forall p' r', s = p' ++ r' -> number_lexeme p' -> (List.length p' <= List.length p)%nat.

(** The lexeme ends before its exponent part, and an exponent mark without digits follows. *)
Definition incomplete_exponent (s : str) : Prop :=
  exists sg i f r, s = sg ++ i ++ f ++ r /\ sign_part sg /\ int_part i /\ frac_part f /\ dangling_exponent r.

(** ** Which characters survive *)

(** Control characters whose escape [write_ch] gets wrong: the low digit is not decimal. *)
Definition bad_control (c : Z) : Prop := 0 <= c < 0x20 /\ 10 <= c mod 16 /\ c <> 10 /\ c <> 12 /\ c <> 13.

Definition json_char (c : Z) : Prop :=
  is_char c = true /\ c <> 0 /\ ~ bad_control c /\ ~ 0x8000 <= c <= 0xFFFF.

(** What is read back for a character other than U+0000. *)
Definition reread (c : Z) : str :=
  if (c <? 0x20) && (10 <=? c mod 16) && negb (c =? 10) && negb (c =? 12) && negb (c =? 13)
  then [c / 16; 48 + c mod 16] else [c].

(** ** Texts of values *)

(** The text that stands for a character inside a string. *)
Definition char_text (c : Z) : str :=
  if c =? 0 then lit "\0"
  else if c =? 92 then lit "\\"
  else if c =? 47 then lit "\/"
  else if c =? 34 then lit "\"""
  else if c =? 8 then lit "\b"
  else if c =? 12 then lit "\f"
  else if c =? 10 then lit "\n"
  else if c =? 13 then lit "\r"
  else if c =? 9 then lit "\t"
  else if c <? 0x20 then lit "\u00" ++ [48 + c / 16; 48 + c mod 16]
  else [c].

Definition string_text (s : str) : str := 34 :: flat_map char_text s ++ [34].

(** Texts separated by commas. *)
Fixpoint comma_sep (l : list str) : str :=
  match l with
  | [] => []
  | [x] => x
  | x :: l' => x ++ 44 :: comma_sep l'
  end.

(** A float whose text is a number that is read back as the same float. *)
Definition float_ok (fl : floats) (p : prim) (z : Z) : Prop :=
  number_lexeme (show_float fl p z) /\ parse_float fl p (show_float fl p z) = Some z.

Definition prim_text (fl : floats) (p : prim) (z : Z) : str :=
  match p with
  | PBool => if z =? 0 then lit "false" else lit "true"
  | PChar => string_text [z]
  | PF32 | PF64 => show_float fl p z
  | _ => show_int z
  end.

(** [value_text fl t v s]: [s] is the JSON text of the value [v] of type [t]. *)
Inductive value_text (fl : floats) : ty -> val -> str -> Prop :=
| vt_unit : value_text fl TUnit VUnit (lit "null")
| vt_prim p z : value_text fl (TPrim p) (VPrim z) (prim_text fl p z)
| vt_string s : Forall (fun c => is_char c = true) s -> value_text fl TString (VStr (utf8_encode s)) (string_text s)
| vt_tuple ts vs xs :
    values_text fl ts vs xs -> value_text fl (TTuple ts) (VTuple vs) (91 :: comma_sep xs ++ [93])
| vt_struct fs vs xs :
    values_text fl (map snd fs) vs xs ->
    value_text fl (TStruct fs) (VStruct vs)
      (123 :: comma_sep (map (fun m => string_text (fst m) ++ 58 :: snd m) (combine (map fst fs) xs)) ++ [125])
| vt_enum cs k l t v x :
    nth_error cs k = Some (l, t) -> value_text fl t v x ->
    value_text fl (TEnum cs) (VCase k v) (lit "{""kind"":" ++ string_text l ++ lit ",""value"":" ++ x ++ [125])
with values_text (fl : floats) : list ty -> list val -> list str -> Prop :=
| vts_nil : values_text fl [] [] []
| vts_cons t ts v vs x xs :
    value_text fl t v x -> values_text fl ts vs xs -> values_text fl (t :: ts) (v :: vs) (x :: xs).

Scheme value_text_mind := Minimality for value_text Sort Prop
  with values_text_mind := Minimality for values_text Sort Prop.

(** ** The values JSON can carry *)

Inductive jsonable (fl : floats) : ty -> val -> Prop :=
| js_unit : jsonable fl TUnit VUnit
| js_prim p z :
    in_range p z ->
    (p = PChar -> json_char z) ->
    (p = PF32 \/ p = PF64 -> float_ok fl p z) ->
    jsonable fl (TPrim p) (VPrim z)
| js_string s : Forall json_char s -> jsonable fl TString (VStr (utf8_encode s))
| js_tuple ts vs : jsonables fl ts vs -> jsonable fl (TTuple ts) (VTuple vs)
| js_struct fs vs :
    (List.length fs < 64)%nat -> NoDup (map fst fs) -> Forall (Forall json_char) (map fst fs) ->
    jsonables fl (map snd fs) vs ->
    jsonable fl (TStruct fs) (VStruct vs)
| js_enum cs k l t v :
    NoDup (map fst cs) -> nth_error cs k = Some (l, t) -> Forall json_char l -> jsonable fl t v ->
    jsonable fl (TEnum cs) (VCase k v)
with jsonables (fl : floats) : list ty -> list val -> Prop :=
| jss_nil : jsonables fl [] []
| jss_cons t ts v vs : jsonable fl t v -> jsonables fl ts vs -> jsonables fl (t :: ts) (v :: vs).

Scheme jsonable_mind := Minimality for jsonable Sort Prop
  with jsonables_mind := Minimality for jsonables Sort Prop.

(** ** Tokens *)

(** A text that cannot continue a number or a keyword standing before it. *)
Definition separator (alnum : Z -> bool) (s : str) : Prop :=
  match s with
  | [] => True
  | c :: _ => is_alphanumeric alnum c = false /\ c <> 46
  end.

(** What may follow the text of a value of type [t]: anything, if the text ends with a closing delimiter. *)
Definition boundary (alnum : Z -> bool) (t : ty) (s : str) : Prop :=
  match t with
  | TUnit => separator alnum s
  | TPrim PChar => True
  | TPrim _ => separator alnum s
  | _ => True
  end.

(** Elements of a string literal. [string_chars s r]: [s] consists of complete elements followed by [r]. *)
Definition hex_char (c : Z) : Prop := 48 <= c <= 57 \/ 97 <= c <= 102 \/ 65 <= c <= 70.

Definition hex_value (c : Z) : Z := if c <=? 57 then c - 48 else if c <=? 70 then c - 55 else c - 87.

Definition hex_code (ds : str) : Z := fold_left (fun acc c => 16 * acc + hex_value c) ds 0.

(** Up to four hexadecimal digits, stopping before the first character that is none; at least one character must
    follow when there are fewer than four. *)
Definition hex_escape (ds r : str) : Prop :=
  Forall hex_char ds /\ (List.length ds <= 4)%nat /\
  ((List.length ds < 4)%nat -> exists c r', r = c :: r' /\ ~ hex_char c).

Definition surrogate (c : Z) : Prop := 0xD800 <= c < 0xE000.

Inductive string_chars : str -> str -> Prop :=
| sc_nil r : string_chars r r
| sc_plain c s r : 0x1f < c -> c <> 34 -> c <> 92 -> string_chars s r -> string_chars (c :: s) r
| sc_escape c s r :
    In c [47; 92; 34; 98; 102; 110; 114; 116] -> string_chars s r -> string_chars (92 :: c :: s) r
| sc_unicode ds s r :
    hex_escape ds s -> ~ surrogate (hex_code ds) -> string_chars s r -> string_chars (92 :: 117 :: ds ++ s) r.

(** ** Decoded values *)

(** All structs of a type, at any depth, have a number of fields satisfying [P]. *)
Inductive all_structs (P : nat -> Prop) : ty -> Prop :=
| as_unit : all_structs P TUnit
| as_prim p : all_structs P (TPrim p)
| as_string : all_structs P TString
| as_tuple ts : Forall (all_structs P) ts -> all_structs P (TTuple ts)
| as_struct fs : P (List.length fs) -> Forall (fun f => all_structs P (snd f)) fs -> all_structs P (TStruct fs)
| as_enum cs : Forall (fun c => all_structs P (snd c)) cs -> all_structs P (TEnum cs).

(** The values of a type whose strings are sequences of characters. *)
Inductive decoded : ty -> val -> Prop :=
| de_unit : decoded TUnit VUnit
| de_prim p z : in_range p z -> decoded (TPrim p) (VPrim z)
| de_string s : Forall (fun c => is_char c = true) s -> decoded TString (VStr (utf8_encode s))
| de_tuple ts vs : decoded_list ts vs -> decoded (TTuple ts) (VTuple vs)
| de_struct fs vs : decoded_list (map snd fs) vs -> decoded (TStruct fs) (VStruct vs)
| de_enum cs k l t v : nth_error cs k = Some (l, t) -> decoded t v -> decoded (TEnum cs) (VCase k v)
with decoded_list : list ty -> list val -> Prop :=
| del_nil : decoded_list [] []
| del_cons t ts v vs : decoded t v -> decoded_list ts vs -> decoded_list (t :: ts) (v :: vs).

(** The text contains an escape sequence for a surrogate. *)
Definition has_surrogate_escape (s : str) : Prop :=
  exists pre h1 h2 h3 h4 r, s = pre ++ 92 :: 117 :: h1 :: h2 :: h3 :: h4 :: r /\
    Forall hex_char [h1; h2; h3; h4] /\ surrogate (hex_code [h1; h2; h3; h4]).

(** The text of an object with the given labels and value texts. *)
Definition object_text (ms : list (str * str)) : str :=
  123 :: comma_sep (map (fun m => string_text (fst m) ++ 58 :: snd m) ms) ++ [125].

(** ** Decimal numerals *)

Fixpoint positional (s : str) : Z :=
  match s with
  | [] => 0
  | c :: s' => (c - 48) * 10 ^ Z.of_nat (List.length s') + positional s'
  end.

(** [numeral signed s z]: [s] is an optional sign (minus only if [signed]) and at least one digit, denoting [z]. *)
Definition numeral (signed : bool) (s : str) (z : Z) : Prop :=
  exists ds, ds <> [] /\ all_digits ds /\
    (((s = ds \/ s = 43 :: ds) /\ z = positional ds) \/ (signed = true /\ s = 45 :: ds /\ z = - positional ds)).

Definition signed_prim (p : prim) : bool := match p with PI8 | PI16 | PI32 | PI64 | PI128 => true | _ => false end.

Definition integer_prim (p : prim) : Prop := ~ In p [PBool; PChar; PF32; PF64].

(** ** Runs of the tokenizer *)

(** [n] successful steps, none reporting the end of the input. *)
Inductive tok_run (alnum : Z -> bool) : nat -> tstate -> tstate -> Prop :=
| tr_none st : tok_run alnum 0 st st
| tr_step n st st1 st2 :
    next alnum st = Ret (st1, Ok tt) -> t_token st1 <> KEof -> tok_run alnum n st1 st2 -> tok_run alnum (S n) st st2.

Definition whitespace (w : str) : Prop := Forall (fun c => is_whitespace c = true) w.

Definition starts_number (s : str) : Prop := match s with c :: _ => c = 45 \/ 48 <= c <= 57 | [] => False end.

(** The text begins with a valid token, or is at its end. *)
Definition token_valid (alnum : Z -> bool) (s : str) : Prop := exists st, next alnum (tok_init s) = Ret (st, Ok tt).

(** ** Decoding *)

(** Reading a float gives the bit pattern of a float. *)
Definition floats_in_range (fl : floats) : Prop :=
  forall p s z, p = PF32 \/ p = PF64 -> parse_float fl p s = Some z -> in_range p z.

(** Numbers of fields that the decoder's field set cannot hold. *)
Definition too_wide (pf : profile) (n : nat) : Prop := (64 < n)%nat \/ (n = 64%nat /\ pf = Debug).

(** Writing a string and decoding what was written gives the string. *)
Definition survives (alnum : Z -> bool) (fl : floats) (pf : profile) (s : str) : Prop :=
  exists text d, utf8_decode (emit_utf8_string s) = Some text /\
    json_decode alnum fl pf TString text [] = Ret (d, Ok tt) /\ ds_get d [] = Some (JString s).
