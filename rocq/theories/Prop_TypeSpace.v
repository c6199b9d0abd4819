(** * Property C101 *)

From Coq Require Import Strings.String.
From Verif Require Import Base StrModel JsonModel TypesModel LrModel LexSpec LexModel SqlParseModel TypeParseModel TypeGrammar TypeLexProofs TypeParsed
  SqlSpaceSpec TypeSpaceSpec TypeSpaceProofs TypeCutProofs.
Local Open Scope list_scope.
Local Open Scope string_scope.

(** White space of any kind and length can be put in wherever a word ends. *)
Theorem type_space_added : forall a b sp toks t, blanks sp -> type_lexes (a ++ b) toks b ->
  (parse_type (a ++ sp ++ b) = Ret (Ok t) <-> parse_type (a ++ b) = Ret (Ok t)).
Proof. exact space_added. Qed.
Print Assumptions type_space_added.

(** It can be taken away next to other white space and to one of [( ) , : { }]. *)
Theorem type_space_removed : forall a b sp toks t, blanks sp -> type_lexes (a ++ sp ++ b) toks (sp ++ b) -> type_place a b ->
  (parse_type (a ++ b) = Ret (Ok t) <-> parse_type (a ++ sp ++ b) = Ret (Ok t)).
Proof. exact space_removed. Qed.
Print Assumptions type_space_removed.

(** All of it can be taken away from a text that is accepted. *)
Theorem type_space_free : forall s t, parse_type s = Ret (Ok t) ->
  parse_type (filter (fun c => negb (is_whitespace c)) s) = Ret (Ok t).
Proof. exact space_free. Qed.
Print Assumptions type_space_free.

(** A text that is cut short is refused, unless it is cut in the white space at its end: texts of types need no end mark. *)
Theorem type_cut_refused : forall s1 s2 t1 t, parse_type s1 = Ret (Ok t1) -> parse_type (s1 ++ s2) = Ret (Ok t) ->
  blanks s2 /\ t1 = t.
Proof. exact type_cut. Qed.
Print Assumptions type_cut_refused.

(** Taking all white space away from a text that is refused can make it a type. *)
Theorem type_space_free_refuted : exists s t,
  parse_type (filter (fun c => negb (is_whitespace c)) s) = Ret (Ok t) /\ parse_type s <> Ret (Ok t).
Proof. exists (JsonModel.lit "u 8"). eexists. split; vm_compute; [reflexivity|discriminate]. Qed.
Print Assumptions type_space_free_refuted.

Example type_space_ex :
  (type_lexes (JsonModel.lit "struct" ++ JsonModel.lit "{a:u8}") [sym "struct"] (JsonModel.lit "{a:u8}") /\ blanks [32; 10]%Z /\
   parse_type (JsonModel.lit "struct" ++ [32; 10]%Z ++ JsonModel.lit "{a:u8}") = Ret (Ok (TStruct [(JsonModel.lit "a", TPrim PU8)]))) /\
  (type_lexes (JsonModel.lit "struct" ++ [32; 10]%Z ++ JsonModel.lit "{a:u8}") [sym "struct"] ([32; 10]%Z ++ JsonModel.lit "{a:u8}") /\
   type_place (JsonModel.lit "struct") (JsonModel.lit "{a:u8}")) /\
  parse_type (JsonModel.lit " enum { a : ( ) , b : ( u8 , string ) , } ") =
    parse_type (JsonModel.lit "enum{a:(),b:(u8,string),}") /\
  (exists t, parse_type (JsonModel.lit "enum{a:(),b:(u8,string),}") = Ret (Ok t)) /\
  (exists t, parse_type (JsonModel.lit "(u8,u16)") = Ret (Ok t) /\ parse_type (JsonModel.lit "(u8,u16)" ++ [32%Z]) = Ret (Ok t)).
Proof.
  assert (W : type_lexes (JsonModel.lit "struct" ++ JsonModel.lit "{a:u8}") [sym "struct"] (JsonModel.lit "{a:u8}")).
  { apply (lexes_exchange (JsonModel.lit "struct" ++ [])%list [sym "struct"] []).
    - apply type_lex_correct. vm_compute. reflexivity.
    - reflexivity.
    - right. right. right. exists 123%Z, (JsonModel.lit "a:u8}"). split; [reflexivity|]. right. cbn. tauto. }
  split; [|split; [|split; [|split]]].
  - split; [exact W|]. split; [repeat constructor|vm_compute; reflexivity].
  - split.
    + apply (lexes_exchange _ _ _ W (JsonModel.lit "struct") ([32; 10]%Z ++ JsonModel.lit "{a:u8}")%list); [reflexivity|].
      right. right. right. exists 32%Z, (10%Z :: JsonModel.lit "{a:u8}"). split; [reflexivity|]. left. reflexivity.
    + right. right. right. exists 123%Z, (JsonModel.lit "a:u8}"). split; [reflexivity|]. right. cbn. tauto.
  - vm_compute. reflexivity.
  - eexists. vm_compute. reflexivity.
  - eexists. split; vm_compute; reflexivity.
Qed.
