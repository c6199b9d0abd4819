(** * C97: JSON documents cut short and joined *)

From Coq Require Import Strings.String.
From Verif Require Import Base StrModel Utf8Model TypesModel MarshalModel MarshalSpec JsonModel JsonSpec JsonDocSpec JsonDocProofs JsonCutSpec JsonCutProofs.
Local Open Scope list_scope.
Local Open Scope Z_scope.

(** The beginning of a document is no document, unless it is a numeral. *)
Theorem cut_no_document alnum fl t a r v p v' r' :
  not_numeric t -> document alnum fl t (a ++ r) v r -> cut p a -> ~ document alnum fl t p v' r'.
Proof. exact (cut_document alnum fl t a r v p v' r'). Qed.
Print Assumptions cut_no_document.

(** The decoder never takes it for one, whatever the source held before. *)
Theorem cut_not_decoded alnum fl pf t a r v p old d :
  all_structs (fun n => (n < 64)%nat) t -> not_numeric t -> document alnum fl t (a ++ r) v r -> cut p a ->
  json_decode alnum fl pf t p old <> Ret (d, Ok tt).
Proof. exact (cut_decode alnum fl pf t a r v p old d). Qed.
Print Assumptions cut_not_decoded.

(** Documents written one after the other, with nothing between them, can be told apart in one way only. *)
Theorem joined_documents alnum fl t ds vs ds' vs' : not_numeric t ->
  Forall2 (fun d v => document alnum fl t d v []) ds vs -> Forall2 (fun d v => document alnum fl t d v []) ds' vs' ->
  concat ds = concat ds' -> ds = ds' /\ vs = vs'.
Proof. exact (joined alnum fl t ds vs ds' vs'). Qed.
Print Assumptions joined_documents.

(** What is behind a document does not change it, unless it is a numeral or a word. *)
Theorem document_goes_on alnum fl t s v r q : (forall p, t = TPrim p -> p = PChar) -> t <> TUnit ->
  document alnum fl t s v r -> document alnum fl t (s ++ q) v (r ++ q).
Proof.
  intros N U D. apply document_more; [exact D|]. left. destruct t; cbn; auto.
Qed.
Print Assumptions document_goes_on.

Ltac rd := apply token_symbol_iff; eexists; split; [vm_compute; reflexivity|]; split; [vm_compute; reflexivity|]; vm_compute; tauto.

(** A cut numeral is a numeral. *)
Theorem cut_not_decoded_refuted : exists alnum fl pf t a r v p old d,
  all_structs (fun n => (n < 64)%nat) t /\ document alnum fl t (a ++ r) v r /\ cut p a /\
  json_decode alnum fl pf t p old = Ret (d, Ok tt) /\ ~ presents (ds_source d) t [] v.
Proof.
  exists (fun _ => false), {| show_float := fun _ _ => []; parse_float := fun _ _ => None |}, Debug, (TPrim PU8), (lit "12"), [], (VPrim 12), (lit "1"), [], [([], JPrim PU8 1)].
  repeat apply conj.
  - constructor.
  - eapply (dc_integer _ _ PU8 _ (lit "12")); [unfold integer_prim; cbn; intuition discriminate|left; rd| |].
    + exists (lit "12"). split; [discriminate|]. split; [repeat (constructor; [cbv; split; discriminate|]); constructor|]. left. split; [left; reflexivity|reflexivity].
    + unfold in_range. vm_compute. intuition discriminate.
  - exists (lit "2"). split; [reflexivity|discriminate].
  - vm_compute. reflexivity.
  - intros H. inversion H; subst. vm_compute in *. congruence.
Qed.
Print Assumptions cut_not_decoded_refuted.

Definition cx_fl : floats := {| show_float := fun _ _ => []; parse_float := fun _ _ => None |}.

(** A pair that lacks its bracket; two pairs in a row. *)
Example cut_ex :
  document (fun _ => false) cx_fl (TTuple [TPrim PBool; TString]) (lit "[ true, ""hi"" ]" ++ lit " 7") (VTuple [VPrim 1; VStr (utf8_encode [104; 105])]) (lit " 7") /\
  not_numeric (TTuple [TPrim PBool; TString]) /\ all_structs (fun n => (n < 64)%nat) (TTuple [TPrim PBool; TString]) /\
  cut (lit "[ true, ""hi"" ") (lit "[ true, ""hi"" ]") /\
  (exists d, json_decode (fun _ => false) cx_fl Debug (TTuple [TPrim PBool; TString]) (lit "[ true, ""hi"" ") [] = Ret (d, Err (EExpected WTupleEnd))) /\
  Forall2 (fun d v => document (fun _ => false) cx_fl (TTuple [TUnit]) d v []) [lit "[null]"; lit " [ null]"] [VTuple [VUnit]; VTuple [VUnit]] /\
  not_numeric (TTuple [TUnit]).
Proof.
  repeat apply conj.
  - apply (dc_tuple _ _ _ _ _ (lit " true, ""hi"" ] 7") (lit " ] 7")); [rd| |rd].
    apply (el_cons _ _ _ _ _ _ _ _ (lit " true, ""hi"" ] 7") (lit ", ""hi"" ] 7")); [reflexivity|apply dc_true; rd|].
    apply (el_cons _ _ _ _ _ _ _ _ (lit " ""hi"" ] 7") (lit " ] 7")); [unfold separated; rd| |apply el_nil].
    apply (dc_string _ _ _ [104; 105]). rd.
  - intros p H. discriminate H.
  - repeat constructor.
  - exists (lit "]"). split; [reflexivity|discriminate].
  - eexists. vm_compute. reflexivity.
  - constructor; [|constructor; [|constructor]].
    + apply (dc_tuple _ _ _ _ _ (lit "null]") (lit "]")); [rd| |rd].
      apply (el_cons _ _ _ _ _ _ _ _ (lit "null]") (lit "]")); [reflexivity|apply dc_unit; rd|apply el_nil].
    + apply (dc_tuple _ _ _ _ _ (lit " null]") (lit "]")); [rd| |rd].
      apply (el_cons _ _ _ _ _ _ _ _ (lit " null]") (lit "]")); [reflexivity|apply dc_unit; rd|apply el_nil].
  - intros p H. discriminate H.
Qed.
