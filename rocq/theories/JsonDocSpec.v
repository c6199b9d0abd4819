(** * Specification vocabulary: the JSON documents of a type *)

From Coq Require Import Strings.String Sorting.Permutation.
From Verif Require Import Base StrModel Utf8Model TypesModel MarshalModel MarshalSpec JsonModel JsonSpec WhiteSpec.
Local Open Scope list_scope.
Local Open Scope Z_scope.

(** ** Symbols *)

Inductive symbol : Type :=
| SEnd
| SPunct (c : Z)
| SWord (w : str)
| SText (x : str)
| SNumber (x : str).

(** [contents s r x]: the text [s] is the inside of a string literal that stands for the characters [x], then [r].
    An escape with [u] takes the hexadecimal digits that follow, at most four. *)
Inductive contents : str -> str -> str -> Prop :=
| ct_nil r : contents r r []
| ct_plain c s r x : 0x1f < c -> c <> 34 -> c <> 92 -> contents s r x -> contents (c :: s) r (c :: x)
| ct_escape c e s r x :
    In (c, e) [(47, 47); (92, 92); (34, 34); (98, 8); (102, 12); (110, 10); (114, 13); (116, 9)] ->
    contents s r x -> contents (92 :: c :: s) r (e :: x)
| ct_unicode ds s r x :
    hex_escape ds s -> ~ surrogate (hex_code ds) -> contents s r x -> contents (92 :: 117 :: ds ++ s) r (hex_code ds :: x).

Section Documents.
(** [char::is_alphanumeric] outside ASCII, and what floats look like. *)
Context (alnum : Z -> bool) (fl : floats).

Definition word_character (c : Z) : Prop :=
  48 <= c <= 57 \/ 65 <= c <= 90 \/ 97 <= c <= 122 \/ (128 <= c /\ alnum c = true).

(** [reads s x r]: the first symbol of [s], after white space, is [x], and [r] is left. *)
Inductive reads : str -> symbol -> str -> Prop :=
| rd_white c s x r : In c white_space -> reads s x r -> reads (c :: s) x r
| rd_end : reads [] SEnd []
| rd_punct c r : In c (lit "[]{},:") -> reads (c :: r) (SPunct c) r
| rd_word w r :
    In w [lit "null"; lit "true"; lit "false"] -> (forall c r', r = c :: r' -> ~ word_character c) ->
    reads (w ++ r) (SWord w) r
| rd_text s r x : contents s (34 :: r) x -> reads (34 :: s) (SText x) r
| rd_number p r : longest_number (p ++ r) p -> ~ incomplete_exponent (p ++ r) -> reads (p ++ r) (SNumber p) r.

(** Before the first of several members there is nothing, before the others a comma. *)
Definition separated (first : bool) (s s' : str) : Prop := if first then s' = s else reads s (SPunct 44) s'.

(** [document t s v r]: the text [s] begins with a document for the value [v] of type [t]; [r] is left. Numbers may be
    given as strings. The members of a struct may be in any order. Of equal labels in an enum the last one counts; a
    struct with equal labels has no documents. *)
Inductive document : ty -> str -> val -> str -> Prop :=
| dc_unit s r : reads s (SWord (lit "null")) r -> document TUnit s VUnit r
| dc_true s r : reads s (SWord (lit "true")) r -> document (TPrim PBool) s (VPrim 1) r
| dc_false s r : reads s (SWord (lit "false")) r -> document (TPrim PBool) s (VPrim 0) r
| dc_char s c r : reads s (SText [c]) r -> document (TPrim PChar) s (VPrim c) r
| dc_integer p s x z r :
    integer_prim p -> reads s (SNumber x) r \/ reads s (SText x) r -> numeral (signed_prim p) x z -> in_range p z ->
    document (TPrim p) s (VPrim z) r
| dc_float p s x z r :
    p = PF32 \/ p = PF64 -> reads s (SNumber x) r \/ reads s (SText x) r -> parse_float fl p x = Some z ->
    document (TPrim p) s (VPrim z) r
| dc_string s x r : reads s (SText x) r -> document TString s (VStr (utf8_encode x)) r
| dc_tuple ts vs s s1 s2 r :
    reads s (SPunct 91) s1 -> elements true ts s1 vs s2 -> reads s2 (SPunct 93) r ->
    document (TTuple ts) s (VTuple vs) r
| dc_struct fs vs ms s s1 s2 r :
    NoDup (map fst fs) -> List.length vs = List.length fs -> Permutation ms (combine fs vs) ->
    reads s (SPunct 123) s1 -> members true ms s1 s2 -> reads s2 (SPunct 125) r ->
    document (TStruct fs) s (VStruct vs) r
| dc_enum cs k l t v s s1 s2 s3 s4 s5 s6 s7 s8 r :
    nth_error cs k = Some (l, t) -> (forall k' t', nth_error cs k' = Some (l, t') -> (k' <= k)%nat) ->
    reads s (SPunct 123) s1 ->
    reads s1 (SText (lit "kind")) s2 -> reads s2 (SPunct 58) s3 -> reads s3 (SText l) s4 ->
    reads s4 (SPunct 44) s5 ->
    reads s5 (SText (lit "value")) s6 -> reads s6 (SPunct 58) s7 -> document t s7 v s8 ->
    reads s8 (SPunct 125) r ->
    document (TEnum cs) s (VCase k v) r
with elements : bool -> list ty -> str -> list val -> str -> Prop :=
| el_nil b s : elements b [] s [] s
| el_cons b t ts v vs s s0 s1 r :
    separated b s s0 -> document t s0 v s1 -> elements false ts s1 vs r -> elements b (t :: ts) s (v :: vs) r
with members : bool -> list (str * ty * val) -> str -> str -> Prop :=
| mb_nil b s : members b [] s s
| mb_cons b l t v ms s s0 s1 s2 s3 r :
    separated b s s0 -> reads s0 (SText l) s1 -> reads s1 (SPunct 58) s2 -> document t s2 v s3 -> members false ms s3 r ->
    members b ((l, t, v) :: ms) s r.

End Documents.

Scheme document_mind := Minimality for document Sort Prop
  with elements_mind := Minimality for elements Sort Prop
  with members_mind := Minimality for members Sort Prop.
