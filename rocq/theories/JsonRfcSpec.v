(** * Specification vocabulary: the JSON texts of RFC 8259 *)

From Coq Require Import Strings.String Sorting.Permutation.
From Verif Require Import Base StrModel Utf8Model TypesModel MarshalModel MarshalSpec JsonModel JsonSpec.
Local Open Scope list_scope.
Local Open Scope Z_scope.

(** What a JSON text stands for. Numbers are kept as they are written. *)
Inductive json : Type :=
| RNull
| RBool (b : bool)
| RNumber (x : str)
| RText (x : str)
| RArray (l : list json)
| RObject (ms : list (str * json)).

(** Section 2: white space. *)
Definition ws (w : str) : Prop := Forall (fun c => In c [9; 10; 13; 32]) w.

(** Section 6: numbers. A point is followed by digits. *)
Definition rfc_fraction (s : str) : Prop := s = [] \/ exists ds, s = 46 :: ds /\ ds <> [] /\ all_digits ds.
Definition rfc_number (s : str) : Prop :=
  exists sg i f e, s = sg ++ i ++ f ++ e /\ sign_part sg /\ int_part i /\ rfc_fraction f /\ exp_part e.

Definition four_hex (ds : str) : Prop := Forall hex_char ds /\ List.length ds = 4%nat.

(** Section 7: the inside of a string, and the characters it stands for. Characters beyond the sixteen bits of an escape
    are written as they are, or, if [pairs], as two escapes. *)
Inductive rfc_chars (pairs : bool) : str -> str -> Prop :=
| rc_nil : rfc_chars pairs [] []
| rc_plain c s x : 0x20 <= c -> c <> 34 -> c <> 92 -> rfc_chars pairs s x -> rfc_chars pairs (c :: s) (c :: x)
| rc_escape c e s x :
    In (c, e) [(34, 34); (92, 92); (47, 47); (98, 8); (102, 12); (110, 10); (114, 13); (116, 9)] ->
    rfc_chars pairs s x -> rfc_chars pairs (92 :: c :: s) (e :: x)
| rc_unicode ds s x :
    four_hex ds -> ~ surrogate (hex_code ds) -> rfc_chars pairs s x ->
    rfc_chars pairs (92 :: 117 :: ds ++ s) (hex_code ds :: x)
| rc_pair ds ds' s x :
    pairs = true -> four_hex ds -> four_hex ds' -> 0xD800 <= hex_code ds < 0xDC00 -> 0xDC00 <= hex_code ds' < 0xE000 ->
    rfc_chars pairs s x ->
    rfc_chars pairs (92 :: 117 :: ds ++ 92 :: 117 :: ds' ++ s)
      (0x10000 + 0x400 * (hex_code ds - 0xD800) + (hex_code ds' - 0xDC00) :: x).

Section Texts.
Context (pairs : bool).

(** Sections 3, 4 and 5: values, without white space around them. [rfc_items l s] and [rfc_fields ms s] are the insides of
    arrays and objects that are not empty, with the white space around commas and colons. *)
Inductive rfc_value : json -> str -> Prop :=
| rv_null : rfc_value RNull (lit "null")
| rv_true : rfc_value (RBool true) (lit "true")
| rv_false : rfc_value (RBool false) (lit "false")
| rv_number x : rfc_number x -> rfc_value (RNumber x) x
| rv_text s x : rfc_chars pairs s x -> rfc_value (RText x) (34 :: s ++ [34])
| rv_empty_array w : ws w -> rfc_value (RArray []) (91 :: w ++ [93])
| rv_array l s : rfc_items l s -> rfc_value (RArray l) (91 :: s ++ [93])
| rv_empty_object w : ws w -> rfc_value (RObject []) (123 :: w ++ [125])
| rv_object ms s : rfc_fields ms s -> rfc_value (RObject ms) (123 :: s ++ [125])
with rfc_items : list json -> str -> Prop :=
| ri_one j w s w' : ws w -> rfc_value j s -> ws w' -> rfc_items [j] (w ++ s ++ w')
| ri_more j l w s w' s' :
    ws w -> rfc_value j s -> ws w' -> rfc_items l s' -> rfc_items (j :: l) (w ++ s ++ w' ++ 44 :: s')
with rfc_fields : list (str * json) -> str -> Prop :=
| rf_one k j w ks w1 w2 s w3 :
    ws w -> rfc_chars pairs ks k -> ws w1 -> ws w2 -> rfc_value j s -> ws w3 ->
    rfc_fields [(k, j)] (w ++ 34 :: ks ++ 34 :: w1 ++ 58 :: w2 ++ s ++ w3)
| rf_more k j ms w ks w1 w2 s w3 s' :
    ws w -> rfc_chars pairs ks k -> ws w1 -> ws w2 -> rfc_value j s -> ws w3 -> rfc_fields ms s' ->
    rfc_fields ((k, j) :: ms) (w ++ 34 :: ks ++ 34 :: w1 ++ 58 :: w2 ++ s ++ w3 ++ 44 :: s').

(** A JSON text: a value with white space around it. *)
Definition rfc_text (j : json) (s : str) : Prop := exists w x w', s = w ++ x ++ w' /\ ws w /\ rfc_value j x /\ ws w'.
End Texts.

Scheme rfc_value_mind := Minimality for rfc_value Sort Prop
  with rfc_items_mind := Minimality for rfc_items Sort Prop
  with rfc_fields_mind := Minimality for rfc_fields Sort Prop.

Section Meaning.
Context (fl : floats).

(** [means t j v]: what [j] says is the value [v] of type [t]. Integers are numbers without point and exponent. Numbers
    may be given as strings. The members of a struct may be in any order, those of an enum are [kind] and [value]; if labels
    of an enum are equal, the last one counts. *)
Inductive means : ty -> json -> val -> Prop :=
| me_unit : means TUnit RNull VUnit
| me_bool (b : bool) : means (TPrim PBool) (RBool b) (VPrim (if b then 1 else 0))
| me_char c : means (TPrim PChar) (RText [c]) (VPrim c)
| me_integer p j x z :
    integer_prim p -> j = RNumber x \/ j = RText x -> numeral (signed_prim p) x z -> in_range p z ->
    means (TPrim p) j (VPrim z)
| me_float p j x z :
    p = PF32 \/ p = PF64 -> j = RNumber x \/ j = RText x -> parse_float fl p x = Some z -> means (TPrim p) j (VPrim z)
| me_string x : means TString (RText x) (VStr (utf8_encode x))
| me_tuple ts l vs : means_items ts l vs -> means (TTuple ts) (RArray l) (VTuple vs)
| me_struct fs ms l vs :
    NoDup (map fst fs) -> List.length vs = List.length fs -> Permutation l (combine fs vs) -> means_fields l ms ->
    means (TStruct fs) (RObject ms) (VStruct vs)
| me_enum cs k l t j v :
    nth_error cs k = Some (l, t) -> (forall k' t', nth_error cs k' = Some (l, t') -> (k' <= k)%nat) -> means t j v ->
    means (TEnum cs) (RObject [(lit "kind", RText l); (lit "value", j)]) (VCase k v)
with means_items : list ty -> list json -> list val -> Prop :=
| mi_nil : means_items [] [] []
| mi_cons t ts j l v vs : means t j v -> means_items ts l vs -> means_items (t :: ts) (j :: l) (v :: vs)
with means_fields : list (str * ty * val) -> list (str * json) -> Prop :=
| mf_nil : means_fields [] []
| mf_cons k t v l j ms : means t j v -> means_fields l ms -> means_fields ((k, t, v) :: l) ((k, j) :: ms).
End Meaning.

Scheme means_mind := Minimality for means Sort Prop
  with means_items_mind := Minimality for means_items Sort Prop
  with means_fields_mind := Minimality for means_fields Sort Prop.
