(** * C80: The error of the JSON decoder is the first fault of the text *)

From Coq Require Import Strings.String.
From Verif Require Import Base StrModel Utf8Model TypesModel MarshalModel MarshalSpec JsonModel JsonSpec WhiteSpec JsonDocSpec JsonBlame JsonBlameLex JsonBlameProofs.
Local Open Scope list_scope.
Local Open Scope Z_scope.

(** The tokenizer reports an error just if no symbol can be read, for the reason given. *)
Theorem token_error_exact alnum st e :
  (exists st', next alnum st = Ret (st', Err e)) <-> unreadable alnum (t_rest st) e.
Proof. exact (unreadable_iff alnum st e). Qed.
Print Assumptions token_error_exact.

(** The decoder reports an error just if the text, read from left to right as a document of the type, goes wrong first in
    this way, or if the symbol after the document is unreadable. *)
Theorem decode_error_exact alnum fl pf t input old e :
  all_structs (fun n => (n < 64)%nat) t ->
  ((exists d, json_decode alnum fl pf t input old = Ret (d, Err e)) <-> misread alnum fl t input e).
Proof. exact (decode_blame alnum fl pf t input old e). Qed.
Print Assumptions decode_error_exact.

(** A text has at most one fault. *)
Theorem one_fault alnum fl t s e e' :
  all_structs (fun n => (n < 64)%nat) t -> misread alnum fl t s e -> misread alnum fl t s e' -> e = e'.
Proof. exact (misread_one alnum fl t s e e'). Qed.
Print Assumptions one_fault.

(** And it has one just if it is not read. *)
Theorem fault_or_document alnum fl t s :
  all_structs (fun n => (n < 64)%nat) t -> Forall (fun c => is_char c = true) s -> floats_in_range fl ->
  ~ has_surrogate_escape s ->
  ((exists v r x r', document alnum fl t s v r /\ reads alnum r x r') \/ exists e, misread alnum fl t s e) /\
  ~ ((exists v r x r', document alnum fl t s v r /\ reads alnum r x r') /\ exists e, misread alnum fl t s e).
Proof. exact (read_or_misread alnum fl t s). Qed.
Print Assumptions fault_or_document.

(** The text of a message tells what was wrong, but for numbers, where the text is that of the standard library. *)
Theorem decode_message_tells refusal e e' :
  (forall p x, e <> ERefused p x) -> (forall p x, e' <> ERefused p x) ->
  jerr_text refusal e = jerr_text refusal e' -> e = e'.
Proof. exact (jerr_text_inj refusal e e'). Qed.
Print Assumptions decode_message_tells.

(** A struct with a tuple and an enum. *)
Definition jm_ty : ty :=
  TStruct [(lit "a", TPrim PI8); (lit "b", TTuple [TPrim PBool; TString]); (lit "c", TEnum [(lit "x", TUnit); (lit "y", TPrim PU16)])].

(** What is reported about a text for this type. *)
Definition jm_says (x : string) : option string :=
  match json_decode jm_alnum jm_fl Debug jm_ty (lit x) [] with
  | Ret (_, Err e) => Some (string_of_list_ascii (map (fun z => Ascii.ascii_of_nat (Z.to_nat z)) (jerr_text (fun _ _ => lit "refused") e)))
  | _ => None
  end.

Example decode_error_exact_ex :
  all_structs (fun n => (n < 64)%nat) jm_ty /\
  jm_says "{""b"":[true,""x""],""a"":-7,""c"":{""kind"":""x"",""value"":null}}" = None /\
  jm_says "{""b"":[true,""x"",1" = Some "Missing terminating ']' of JSON array encoding a tuple value"%string /\
  jm_says "{""b"":[true,""x""],""b"":0" = Some "Duplicate assignment for field named 'b'"%string /\
  jm_says "{""b"":[true,""x""],""a"":128,""d" = Some "refused"%string /\
  jm_says "{""c"":{""kind"":""z""" = Some "Invalid enum case 'z'"%string /\
  jm_says "{""c"":{""value"":5" = Some "Expecting 'kind' field"%string /\
  jm_says "{""a"":5}" = Some "',' expected as separator between object fields"%string /\
  jm_says "{""a"":-" = Some "Invalid number token"%string.
Proof. split; [repeat constructor; cbn; lia|]. vm_compute. auto 10. Qed.

(** The fault can be derived from the rules alone: after the member b comes a member with the same name. *)
Example misread_ex : misread jm_alnum jm_fl (TStruct [(lit "b", TUnit); (lit "a", TUnit)]) (lit "{""b"":null,""b"":5") (EDuplicate (lit "b")).
Proof.
  assert (S : forall s x r st, next jm_alnum (tok_init s) = Ret (st, Ok tt) -> t_rest st = r -> JsonDocProofs.sym_of st = x -> reads jm_alnum s x r).
  { intros s x r st H <- <-. exact (proj2 (JsonDocProofs.step_ok jm_alnum (tok_init s) [] [] st ltac:(unfold step; rewrite H; reflexivity))). }
  left. eapply ft_struct; [eapply S; vm_compute; reflexivity|].
  eapply (fm_later _ _ _ _ _ _ _ (lit "b") _ _ TUnit VUnit);
    [cbn; lia|reflexivity|eapply S; vm_compute; reflexivity|exists [], [(lit "a", TUnit)]; split; [reflexivity|vm_compute; intuition discriminate]|
     intros []|eapply S; vm_compute; reflexivity|constructor; eapply S; vm_compute; reflexivity|].
  eapply (fm_again _ _ _ _ _ _ _ (lit "b")); [cbn; lia|eapply S; vm_compute; reflexivity|eapply S; vm_compute; reflexivity|left; reflexivity].
Qed.

Example token_error_exact_ex :
  unreadable jm_alnum (lit "  ""a\q""") EEscape /\ unreadable jm_alnum (lit "nul") EToken /\ unreadable jm_alnum (lit "1e+") EExponent.
Proof.
  repeat split; apply (token_error_exact jm_alnum (tok_init _)); eexists; vm_compute; reflexivity.
Qed.

Example fault_or_document_ex :
  Forall (fun c => is_char c = true) (lit "[5 6]") /\ ~ has_surrogate_escape (lit "[5 6]") /\ floats_in_range jm_fl /\
  misread jm_alnum jm_fl (TTuple [TPrim PU8; TPrim PU8]) (lit "[5 6]") (EExpected WTupleComma).
Proof.
  split; [repeat constructor|]. split.
  { intros (pre & h1 & h2 & h3 & h4 & r & H & _). assert (X : In 92 (lit "[5 6]")) by (rewrite H; apply in_or_app; right; left; reflexivity).
    vm_compute in X. intuition discriminate. }
  split; [intros p x z _ H; discriminate H|].
  apply (decode_error_exact _ _ Debug _ _ []); [repeat constructor|]. eexists. vm_compute. reflexivity.
Qed.

Example decode_message_tells_ex : jerr_text (fun _ _ => []) (EField (lit "a'b")) = lit "Invalid field named 'a'b'".
Proof. reflexivity. Qed.

(** The first fault is not always named: where a character is expected and a longer text is given, the symbol after it is
    read before the error is reported, and if this one is unreadable then it is reported instead. *)
Theorem first_fault_refuted : exists t s x r e,
  reads jm_alnum s (SText x) r /\ (forall v r', ~ document jm_alnum jm_fl t s v r') /\
  misread jm_alnum jm_fl t s e /\ unreadable jm_alnum r e /\ e <> EExpected WChar.
Proof. exact late_character_fault. Qed.
Print Assumptions first_fault_refuted.
