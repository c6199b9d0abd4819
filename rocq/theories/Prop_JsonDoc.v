(** * C73: The JSON decoder accepts exactly the documents of the type *)

From Coq Require Import Strings.String Sorting.Permutation.
From Verif Require Import Base StrModel Utf8Model TypesModel MarshalModel MarshalSpec JsonModel JsonSpec JsonDocSpec JsonDocProofs.
Local Open Scope list_scope.
Local Open Scope Z_scope.

(** Reading one token is reading one symbol. *)
Theorem token_is_symbol alnum s x r :
  reads alnum s x r <->
  exists st, next alnum (tok_init s) = Ret (st, Ok tt) /\ t_rest st = r /\
    match x with
    | SEnd => t_token st = KEof
    | SPunct c => In (t_token st, c) [(KBeginArray, 91); (KEndArray, 93); (KBeginObject, 123); (KEndObject, 125); (KComma, 44); (KColon, 58)]
    | SWord w => In (t_token st, w) [(KNull, lit "null"); (KTrue, lit "true"); (KFalse, lit "false")]
    | SText t => t_token st = KString /\ tok_value st = t
    | SNumber t => t_token st = KNumber /\ tok_value st = t
    end.
Proof. exact (token_symbol_iff alnum s x r). Qed.
Print Assumptions token_is_symbol.

Example token_is_symbol_ex : reads (fun _ => false) (lit " ""aA\n"": 1") (SText [97; 65; 10]) (lit ": 1").
Proof. apply token_is_symbol. eexists. split; [vm_compute; reflexivity|]. vm_compute. auto. Qed.

(** The decoder succeeds with a value just if the input begins with a document for that value and what follows begins
    with a symbol. *)
Theorem decoder_accepts_documents alnum fl pf t input old v :
  all_structs (fun n => (n < 64)%nat) t ->
  ((exists d, json_decode alnum fl pf t input old = Ret (d, Ok tt) /\ presents (ds_source d) t [] v) <->
   exists s x r, document alnum fl t input v s /\ reads alnum s x r).
Proof. exact (decode_exact alnum fl pf t input old v). Qed.
Print Assumptions decoder_accepts_documents.

(** Success always comes with a value. *)
Theorem accepted_is_document alnum fl pf t input old d :
  all_structs (fun n => (n < 64)%nat) t -> json_decode alnum fl pf t input old = Ret (d, Ok tt) ->
  exists v s, document alnum fl t input v s /\ presents (ds_source d) t [] v.
Proof. exact (decode_document alnum fl pf t input old d). Qed.
Print Assumptions accepted_is_document.

(** A text begins with at most one document of a type. *)
Theorem documents_unambiguous alnum fl t s v r v' r' :
  document alnum fl t s v r -> document alnum fl t s v' r' -> v = v' /\ r = r'.
Proof. exact (fun H => document_det alnum fl t s v r H v' r'). Qed.
Print Assumptions documents_unambiguous.

(** Equal field names leave a struct without documents. *)
Theorem repeated_field_no_documents alnum fl fs s v r :
  ~ NoDup (map fst fs) -> ~ document alnum fl (TStruct fs) s v r.
Proof. exact (no_document alnum fl fs s v r). Qed.
Print Assumptions repeated_field_no_documents.

(** A struct with a tuple and an enum; the members are given in another order, numbers as numbers and as strings. *)
Definition doc_fl : floats := {| show_float := fun _ _ => []; parse_float := fun _ _ => None |}.
Definition doc_ty : ty :=
  TStruct [(lit "a", TPrim PI8); (lit "b", TTuple [TPrim PBool; TString]); (lit "c", TEnum [(lit "x", TUnit); (lit "y", TPrim PU16)])].
Definition doc_val : val := VStruct [VPrim (-7); VTuple [VPrim 1; VStr (utf8_encode [104; 105])]; VCase 1 (VPrim 300)].
Definition doc_text : str := lit "{ ""c"": {""kind"":""y"",""value"":""300""}, ""a"" :-7,""b"":[true,""hi""]} ] rest".

Ltac rd := apply token_is_symbol; eexists; split; [vm_compute; reflexivity|]; split; [vm_compute; reflexivity|]; vm_compute; tauto.

Example decoder_accepts_documents_ex :
  all_structs (fun n => (n < 64)%nat) doc_ty /\
  (exists s x r, document (fun _ => false) doc_fl doc_ty doc_text doc_val s /\ reads (fun _ => false) s x r) /\
  json_decode (fun _ => false) doc_fl Debug doc_ty (lit "{""a"":128,""b"":[true,""hi""],""c"":{""kind"":""x"",""value"":null}} ") [] = Ret ([], Err (ERefused PI8 (lit "128"))).
Proof.
  assert (A : all_structs (fun n => (n < 64)%nat) doc_ty) by (repeat (constructor; cbn; try lia)). split; [exact A|].
  split; [|vm_compute; reflexivity].
  apply (decoder_accepts_documents _ _ Debug _ _ []); [exact A|]. eexists. split; [vm_compute; reflexivity|].
  repeat first [reflexivity | econstructor].
Qed.

(** The same by the rules of the specification, for the tuple. *)
Example accepted_is_document_ex :
  document (fun _ => false) doc_fl (TTuple [TPrim PBool; TString]) (lit "[ true, ""hi"" ] ]") (VTuple [VPrim 1; VStr (utf8_encode [104; 105])]) (lit " ]") /\
  exists d, json_decode (fun _ => false) doc_fl Debug (TTuple [TPrim PBool; TString]) (lit "[ true, ""hi"" ] ]") [] = Ret (d, Ok tt).
Proof.
  split; [|eexists; vm_compute; reflexivity].
  apply (dc_tuple _ _ _ _ _ (lit " true, ""hi"" ] ]") (lit " ] ]")); [rd| |rd].
  apply (el_cons _ _ _ _ _ _ _ _ (lit " true, ""hi"" ] ]") (lit ", ""hi"" ] ]")); [reflexivity|apply dc_true; rd|].
  apply (el_cons _ _ _ _ _ _ _ _ (lit " ""hi"" ] ]") (lit " ] ]")); [unfold separated; rd| |apply el_nil].
  apply (dc_string _ _ _ [104; 105]). rd.
Qed.

Example documents_unambiguous_ex :
  (forall v r, document (fun _ => false) doc_fl (TTuple []) (lit "[] 1") v r -> v = VTuple [] /\ r = lit " 1") /\
  document (fun _ => false) doc_fl (TTuple []) (lit "[] 1") (VTuple []) (lit " 1").
Proof.
  assert (D : document (fun _ => false) doc_fl (TTuple []) (lit "[] 1") (VTuple []) (lit " 1")).
  { apply (dc_tuple _ _ _ _ _ (lit "] 1") (lit "] 1")); [rd|apply el_nil|rd]. }
  split; [|exact D]. intros v r H. exact (documents_unambiguous _ _ _ _ _ _ _ _ H D).
Qed.

Example repeated_field_no_documents_ex :
  ~ NoDup (map fst [(lit "a", TUnit); (lit "a", TUnit)]) /\
  json_decode (fun _ => false) doc_fl Debug (TStruct [(lit "a", TUnit); (lit "a", TUnit)]) (lit "{""a"":null,""a"":null} ") [] = Ret ([], Err (EDuplicate (lit "a"))).
Proof.
  split; [|vm_compute; reflexivity]. cbn. intros H. inversion H as [|? ? N _]; subst. apply N. left. reflexivity.
Qed.

(** What follows the document matters: the same document with different text after it is accepted or not. *)
Theorem rest_is_ignored_refuted : exists t s v r r',
  document (fun _ => false) doc_fl t (s ++ r) v r /\ document (fun _ => false) doc_fl t (s ++ r') v r' /\
  (exists d, json_decode (fun _ => false) doc_fl Debug t (s ++ r) [] = Ret (d, Ok tt)) /\
  (forall d, json_decode (fun _ => false) doc_fl Debug t (s ++ r') [] <> Ret (d, Ok tt)).
Proof.
  exists TUnit, (lit "null"), VUnit, (lit " ]"), (lit " ?"). split; [apply dc_unit; rd|]. split; [apply dc_unit; rd|].
  split; [eexists; vm_compute; reflexivity|]. intros d H. vm_compute in H. discriminate H.
Qed.
Print Assumptions rest_is_ignored_refuted.
