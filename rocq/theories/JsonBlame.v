(** * Specification vocabulary: what is wrong with a text that is no document of a type *)

From Coq Require Import Strings.String.
From Verif Require Import Base StrModel Utf8Model TypesModel MarshalModel MarshalSpec JsonModel JsonSpec WhiteSpec JsonDocSpec.
Local Open Scope list_scope.
Local Open Scope Z_scope.

Section Blame.
Context (alnum : Z -> bool) (fl : floats).
Notation reads := (JsonDocSpec.reads alnum).
Notation document := (JsonDocSpec.document alnum fl).
Notation separated := (JsonDocSpec.separated alnum).

(** [unreadable s e]: no symbol stands at the beginning of [s], after white space, because of [e]. *)
Inductive unreadable : str -> jerr -> Prop :=
| un_white c s e : In c white_space -> unreadable s e -> unreadable (c :: s) e
| un_character c s :
    ~ In c white_space -> ~ In c (lit "[]{},:ntf-") -> c <> 34 -> ~ 48 <= c <= 57 -> unreadable (c :: s) EJson
| un_word c w s :
    In (c :: w) [lit "null"; lit "true"; lit "false"] ->
    (forall r, s = w ++ r -> exists c' r', r = c' :: r' /\ word_character alnum c') -> unreadable (c :: s) EToken
| un_quote s r x : contents s r x -> (forall c r', r = c :: r' -> c <= 0x1f) -> unreadable (34 :: s) EQuote
| un_escape s r x :
    contents s (92 :: r) x -> (forall c r', r = c :: r' -> ~ In c [47; 92; 34; 98; 102; 110; 114; 116; 117]) ->
    unreadable (34 :: s) EEscape
| un_unicode s ds x :
    contents s (92 :: 117 :: ds) x -> Forall hex_char ds -> (List.length ds < 4)%nat -> unreadable (34 :: s) EUnicode
| un_number s : (forall c r, s = c :: r -> ~ 48 <= c <= 57) -> unreadable (45 :: s) ENumber
| un_exponent s : incomplete_exponent s -> unreadable s EExponent.

(** The next symbol is none of [good]: it cannot be read, or it is another one, and this is [e]. *)
Definition lacks (good : symbol -> Prop) (e : jerr) (s : str) (c : jerr) : Prop :=
  unreadable s c \/ (exists x r, reads s x r /\ ~ good x) /\ c = e.

Definition lacks_punct (p : Z) (w : wanted) : str -> jerr -> Prop := lacks (eq (SPunct p)) (EExpected w).
Definition lacks_text (l : str) (w : wanted) : str -> jerr -> Prop := lacks (eq (SText l)) (EExpected w).
Definition lacks_any_text (w : wanted) : str -> jerr -> Prop := lacks (fun x => exists l, x = SText l) (EExpected w).

(** The last of the members with the label. *)
Definition last_named (l : str) (t : ty) (fs : list (str * ty)) : Prop :=
  exists before after, fs = before ++ (l, t) :: after /\ ~ In l (map fst after).

(** [faulty t s e]: the text [s] does not begin with a document of the type [t], and [e] is what is wrong at the first
    place where the reader, going from left to right, cannot go on. *)
Inductive faulty : ty -> str -> jerr -> Prop :=
| ft_unit s e : lacks (eq (SWord (lit "null"))) (EExpected WNull) s e -> faulty TUnit s e
| ft_bool s e :
    lacks (fun x => x = SWord (lit "true") \/ x = SWord (lit "false")) (EExpected WBool) s e -> faulty (TPrim PBool) s e
| ft_char s e : lacks_any_text WChar s e -> faulty (TPrim PChar) s e
| ft_char_length s x r e :
    reads s (SText x) r -> List.length x <> 1%nat -> lacks (fun _ => False) (EExpected WChar) r e ->
    faulty (TPrim PChar) s e
| ft_number p s e :
    p <> PBool -> p <> PChar -> lacks (fun x => exists w, x = SText w \/ x = SNumber w) (EExpected WNumber) s e ->
    faulty (TPrim p) s e
| ft_refused p s x r :
    p <> PBool -> p <> PChar -> reads s (SNumber x) r \/ reads s (SText x) r -> (forall v r', ~ document (TPrim p) s v r') ->
    faulty (TPrim p) s (ERefused p x)
| ft_string s e : lacks_any_text WString s e -> faulty TString s e
| ft_tuple_begin ts s e : lacks_punct 91 WTuple s e -> faulty (TTuple ts) s e
| ft_tuple ts s s1 e : reads s (SPunct 91) s1 -> faulty_elements true ts s1 e -> faulty (TTuple ts) s e
| ft_struct_begin fs s e : lacks_punct 123 WStruct s e -> faulty (TStruct fs) s e
| ft_struct fs s s1 e : reads s (SPunct 123) s1 -> faulty_members fs [] true s1 e -> faulty (TStruct fs) s e
| ft_enum_begin cs s e : lacks_punct 123 WEnum s e -> faulty (TEnum cs) s e
| ft_enum cs s s1 e : reads s (SPunct 123) s1 -> faulty_case cs s1 e -> faulty (TEnum cs) s e
(** After the opening bracket or a component of a tuple, up to the closing bracket. *)
with faulty_elements : bool -> list ty -> str -> jerr -> Prop :=
| fe_end b s e : lacks_punct 93 WTupleEnd s e -> faulty_elements b [] s e
| fe_comma t ts s e : lacks_punct 44 WTupleComma s e -> faulty_elements false (t :: ts) s e
| fe_here b t ts s s0 e : separated b s s0 -> faulty t s0 e -> faulty_elements b (t :: ts) s e
| fe_later b t ts s s0 v s1 e :
    separated b s s0 -> document t s0 v s1 -> faulty_elements false ts s1 e -> faulty_elements b (t :: ts) s e
(** After the opening brace or a member of a struct, up to the closing brace. [given] are the labels met so far; members
    are read until there are as many as the struct has fields. *)
with faulty_members : list (str * ty) -> list str -> bool -> str -> jerr -> Prop :=
| fm_end fs given b s e :
    List.length given = List.length fs -> lacks_punct 125 WStructEnd s e -> faulty_members fs given b s e
| fm_comma fs given s e :
    (List.length given < List.length fs)%nat -> lacks_punct 44 WFieldComma s e -> faulty_members fs given false s e
| fm_label fs given b s s0 e :
    (List.length given < List.length fs)%nat -> separated b s s0 -> lacks_any_text WLabel s0 e ->
    faulty_members fs given b s e
| fm_unknown fs given b s s0 l s1 :
    (List.length given < List.length fs)%nat -> separated b s s0 -> reads s0 (SText l) s1 -> ~ In l (map fst fs) ->
    faulty_members fs given b s (EField l)
| fm_again fs given b s s0 l s1 :
    (List.length given < List.length fs)%nat -> separated b s s0 -> reads s0 (SText l) s1 -> In l given ->
    faulty_members fs given b s (EDuplicate l)
| fm_colon fs given b s s0 l s1 e :
    (List.length given < List.length fs)%nat -> separated b s s0 -> reads s0 (SText l) s1 -> In l (map fst fs) ->
    ~ In l given -> lacks_punct 58 WColon s1 e -> faulty_members fs given b s e
| fm_here fs given b s s0 l s1 s2 t e :
    (List.length given < List.length fs)%nat -> separated b s s0 -> reads s0 (SText l) s1 -> last_named l t fs ->
    ~ In l given -> reads s1 (SPunct 58) s2 -> faulty t s2 e -> faulty_members fs given b s e
| fm_later fs given b s s0 l s1 s2 t v s3 e :
    (List.length given < List.length fs)%nat -> separated b s s0 -> reads s0 (SText l) s1 -> last_named l t fs ->
    ~ In l given -> reads s1 (SPunct 58) s2 -> document t s2 v s3 -> faulty_members fs (l :: given) false s3 e ->
    faulty_members fs given b s e
(** After the opening brace of an enum, up to the closing brace. *)
with faulty_case : list (str * ty) -> str -> jerr -> Prop :=
| fc_kind cs s e : lacks_text (lit "kind") WKind s e -> faulty_case cs s e
| fc_colon cs s s1 e : reads s (SText (lit "kind")) s1 -> lacks_punct 58 WColon s1 e -> faulty_case cs s e
| fc_label cs s s1 s2 e :
    reads s (SText (lit "kind")) s1 -> reads s1 (SPunct 58) s2 -> lacks_any_text WCaseString s2 e -> faulty_case cs s e
| fc_unknown cs s s1 s2 l s3 :
    reads s (SText (lit "kind")) s1 -> reads s1 (SPunct 58) s2 -> reads s2 (SText l) s3 -> ~ In l (map fst cs) ->
    faulty_case cs s (ECase l)
| fc_content cs s s1 s2 l t s3 e :
    reads s (SText (lit "kind")) s1 -> reads s1 (SPunct 58) s2 -> reads s2 (SText l) s3 -> last_named l t cs ->
    faulty_content t s3 e -> faulty_case cs s e
(** After the label of the case. *)
with faulty_content : ty -> str -> jerr -> Prop :=
| fv_comma t s e : lacks_punct 44 WCaseComma s e -> faulty_content t s e
| fv_value t s s1 e : reads s (SPunct 44) s1 -> lacks_text (lit "value") WValue s1 e -> faulty_content t s e
| fv_colon t s s1 s2 e :
    reads s (SPunct 44) s1 -> reads s1 (SText (lit "value")) s2 -> lacks_punct 58 WColon s2 e -> faulty_content t s e
| fv_here t s s1 s2 s3 e :
    reads s (SPunct 44) s1 -> reads s1 (SText (lit "value")) s2 -> reads s2 (SPunct 58) s3 -> faulty t s3 e ->
    faulty_content t s e
| fv_end t s s1 s2 s3 v s4 e :
    reads s (SPunct 44) s1 -> reads s1 (SText (lit "value")) s2 -> reads s2 (SPunct 58) s3 -> document t s3 v s4 ->
    lacks_punct 125 WEnumEnd s4 e -> faulty_content t s e.

(** What the decoder has to say about a text: the fault of the document, or of the symbol after it. *)
Definition misread (t : ty) (s : str) (e : jerr) : Prop :=
  faulty t s e \/ exists v r, document t s v r /\ unreadable r e.

End Blame.

Scheme faulty_mind := Minimality for faulty Sort Prop
  with faulty_elements_mind := Minimality for faulty_elements Sort Prop
  with faulty_members_mind := Minimality for faulty_members Sort Prop
  with faulty_case_mind := Minimality for faulty_case Sort Prop
  with faulty_content_mind := Minimality for faulty_content Sort Prop.
