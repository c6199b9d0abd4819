(** * Properties C46 and C59 to C61 *)

From Coq Require Import Strings.String.
From Verif Require Import Base StrModel StrFacts Utf8Model JsonModel TypesModel TypesSpec MarshalModel MarshalSpec ValSource JsonSpec JsonExamples LrModel LrSpec LexModel LexSpec SqlParseModel SqlShow TypeTables TypeParseModel TypeGrammar TypeLexProofs
  TypeParseProofs TypeParsed TypeViable TypeUseSpec TypeUse.
Local Open Scope list_scope.
Local Open Scope string_scope.

(** ** C46 *)

(** A sequence of tokens has one parse tree at most, and one type at most. *)
Theorem type_trees_unambiguous : forall toks a b, derives type_grammar (NT 11) a toks -> derives type_grammar (NT 11) b toks -> a = b.
Proof. exact type_tree_unique. Qed.
Print Assumptions type_trees_unambiguous.

Theorem type_values_unambiguous : forall toks t u, is_type toks t -> is_type toks u -> t = u.
Proof. exact is_type_unique. Qed.
Print Assumptions type_values_unambiguous.

(** Printed types parse back. *)
Theorem type_show_parse : forall t, nameable t -> parse_type (text_of (show_type t)) = Ret (Ok t).
Proof. exact shown_parse. Qed.
Print Assumptions type_show_parse.

(** Any spelling of a type parses to it, in particular one with other white space. *)
Theorem type_spelled_parse : forall s toks t, type_lexes s toks [] -> is_type toks t -> parse_type s = Ret (Ok t).
Proof. exact spelled_parse. Qed.
Print Assumptions type_spelled_parse.

(** A comma may end the body of a struct or an enum. *)
Theorem type_body_comma : forall k l fs c, k = "struct" \/ k = "enum" -> is_fields l fs -> optional_comma c ->
  is_type (sym k :: sym "{" :: l ++ c ++ [sym "}"]) (if String.eqb k "struct" then TStruct fs else TEnum fs).
Proof. exact body_comma. Qed.
Print Assumptions type_body_comma.

(** None may end a tuple. *)
Theorem type_tuple_comma : forall l t, ~ is_type (sym "(" :: l ++ [sym ","; sym ")"]) t.
Proof. exact tuple_comma_rejected. Qed.
Print Assumptions type_tuple_comma.

Example type_parse_ex :
  let t := TStruct [(JsonModel.lit "a", TTuple [TPrim PU8; TString]); (JsonModel.lit "b", TEnum [(JsonModel.lit "x", TUnit); (JsonModel.lit "y1", TTuple [TPrim PF64])])] in
  text_of (show_type t) = JsonModel.lit "struct { a : ( u8 , string ) , b : enum { x : ( ) , y1 : ( f64 ) } } " /\
  parse_type (JsonModel.lit "struct{a:(u8,string),b:enum{x:(),y1:(f64),},}") = Ret (Ok t) /\ nameable t /\
  parse_type (JsonModel.lit "(u8,)") = Ret (Err (UnrecognizedTokenErr (sym ")"))).
Proof.
  split; [vm_compute; reflexivity|]. split; [vm_compute; reflexivity|]. split; [|vm_compute; reflexivity]. apply (parsed_nameable (JsonModel.lit "struct{a:(u8,string),b:enum{x:(),y1:(f64),},}")).
  vm_compute. reflexivity.
Qed.

(** ** C59 *)

(** The parser returns, and accepts the texts of the grammar. *)
Theorem type_parser_total : forall s, exists r, parse_type s = Ret r.
Proof. exact type_parse_total. Qed.
Print Assumptions type_parser_total.

Theorem type_parser_grammar : forall s t, parse_type s = Ret (Ok t) <-> exists toks, type_lexes s toks [] /\ is_type toks t.
Proof. exact type_parse_grammar. Qed.
Print Assumptions type_parser_grammar.

(** The lexer reads the longest word first. *)
Theorem type_lexer_words : forall s toks, lex type_patterns (List.length s) 0 s = (toks, None) <-> type_lexes s toks [].
Proof. exact type_lex_correct. Qed.
Print Assumptions type_lexer_words.

(** Each error is reported exactly when it should be. *)
Theorem type_parser_errors : forall s e, parse_type s = Ret (Err e) <-> type_fails s e.
Proof. exact parse_type_errors. Qed.
Print Assumptions type_parser_errors.

Example type_errors_ex :
  parse_type (JsonModel.lit "struct { }") = Ret (Err (UnrecognizedTokenErr (sym "}"))) /\
  parse_type (JsonModel.lit "struct { u8 : u8 }") = Ret (Err (UnrecognizedTokenErr (sym "u8"))) /\
  parse_type (JsonModel.lit "enum { u8x : u8") = Ret (Err UnrecognizedEofErr) /\
  parse_type (JsonModel.lit "(u8, [u8])") = Ret (Err (InvalidTokenAt 5)) /\
  parse_type (JsonModel.lit "Bool") = Ret (Err (UnrecognizedTokenErr (name_of (JsonModel.lit "Bool")))) /\
  parse_type (JsonModel.lit "u8 u8") = Ret (Err (UnrecognizedTokenErr (sym "u8"))).
Proof. vm_compute. repeat split. Qed.

(** ** C60 *)

(** The types with a text. *)
Theorem type_parser_image : forall t, (exists s, parse_type s = Ret (Ok t)) <-> nameable t.
Proof. exact type_image. Qed.
Print Assumptions type_parser_image.

Example type_image_ex :
  (~ exists s, parse_type s = Ret (Ok (TTuple [TPrim PBool; TStruct []]))) /\
  (~ exists s, parse_type s = Ret (Ok (TEnum [(JsonModel.lit "char", TUnit)]))) /\
  (exists s, parse_type s = Ret (Ok (TEnum [(JsonModel.lit "_Char", TUnit); (JsonModel.lit "_Char", TString)]))).
Proof.
  split; [|split].
  - rewrite type_parser_image. intros H. inversion H as [| | |? _ F| |]. inversion F as [|? ? _ F2]. inversion F2 as [|? ? N _]. inversion N as [| | | |? Q|]. apply Q. reflexivity.
  - rewrite type_parser_image. intros H. inversion H as [| | | | |? _ F]. inversion F as [|? ? [[_ Q] _] _]. apply Q. vm_compute. tauto.
  - exists (JsonModel.lit "enum{_Char:(),_Char:string}"). vm_compute. reflexivity.
Qed.

(** ** C61 *)

(** Every element of a type read from text has a qualified name if no label is repeated among siblings. *)
Theorem parsed_path_has_a_name : forall s t p u, parse_type s = Ret (Ok t) -> no_repeats t -> p <> []%list -> at_path t p u ->
  Forall (fun i => (Z.of_nat i < 2 ^ 64)%Z) p -> resolve_qualified_name t (join_dot (name_components t p)) = Ok p.
Proof. exact parsed_path_named. Qed.
Print Assumptions parsed_path_has_a_name.

(** A label that repeats the one of an earlier sibling has none. *)
Theorem repeated_label_has_no_name : forall t q ms i j a ti tj, at_path t q (TStruct ms) \/ at_path t q (TEnum ms) -> (i < j)%nat ->
  nth_error ms i = Some (a, ti) -> nth_error ms j = Some (a, tj) -> forall name, resolve_qualified_name t name <> Ok (q ++ [j])%list.
Proof. exact repeated_label_unnamed. Qed.
Print Assumptions repeated_label_has_no_name.

(** JSON keeps the values of such types: the labels are no obstacle. *)
Theorem parsed_type_json : forall alnum fl pf s t v src old,
  parse_type s = Ret (Ok t) -> no_repeats t -> presents src t [] v -> json_value fl t v ->
  exists bs text d, json_encode fl t src = Ret bs /\ utf8_decode bs = Some text /\
    json_decode alnum fl pf t text old = Ret (d, Ok tt) /\ presents (ds_source d) t [] v.
Proof. exact parsed_json_round_trip. Qed.
Print Assumptions parsed_type_json.

(** A repeated label is accepted by the parser and the encoder, and rejected by the decoder. *)
Theorem parsed_type_json_refuted : exists s t v bs text d, parse_type s = Ret (Ok t) /\ typed t v /\ json_encode jx_fl t (val_source v) = Ret bs /\
  utf8_decode bs = Some text /\ json_decode jx_alnum jx_fl Debug t text [] = Ret (d, Err (EDuplicate (JsonModel.lit "a"))).
Proof. exact repeated_json. Qed.
Print Assumptions parsed_type_json_refuted.

Example parsed_type_ex :
  let t := TStruct [(JsonModel.lit "a", TPrim PU8); (JsonModel.lit "b", TTuple [TUnit; TString])] in
  parse_type (JsonModel.lit "struct {a: u8, b: ((), string)}") = Ret (Ok t) /\ no_repeats t /\ at_path t [1; 1]%nat TString /\
  json_value jx_fl t (VStruct [VPrim 7; VTuple [VUnit; VStr (utf8_encode (JsonModel.lit "x"))]]) /\
  join_dot (name_components t [1; 1]%nat) = JsonModel.lit "b.1".
Proof.
  split; [vm_compute; reflexivity|]. split; [|split; [|split; [|vm_compute; reflexivity]]].
  - constructor; [|repeat constructor]. cbn. constructor; [intros [H|[]]; discriminate|constructor; [intros []|constructor]].
  - econstructor; [reflexivity|]. econstructor; [reflexivity|]. constructor.
  - constructor; [cbn; lia|]. constructor; [apply jv_prim; [unfold in_range; cbn; lia|discriminate|intros [H|H]; discriminate]|]. constructor; [|constructor].
    constructor. constructor; [constructor|]. constructor; [|constructor]. apply jv_string. change (JsonModel.lit "x") with [120%Z]. constructor; [|constructor].
    unfold json_char, bad_control, is_char. repeat split; lia.
Qed.
