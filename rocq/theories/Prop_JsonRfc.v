(** * C99: the JSON texts of RFC 8259

    src/core/json/decoder.rs, tokenizer.rs and encoder.rs against the standard. *)

From Coq Require Import Strings.String Sorting.Permutation Lia ZifyBool.
From Verif Require Import Base StrModel Utf8Model TypesModel MarshalModel MarshalSpec JsonModel JsonSpec ValSource JsonRfcSpec JsonRfcTop.
Local Open Scope list_scope.
Local Open Scope Z_scope.

(** Of the texts of the standard that write no character as two escapes, the decoder accepts those that mean a value of the
    type, and stores this value. *)
Theorem rfc_text_decoded alnum fl pf t j s old v : all_structs (fun n => (n < 64)%nat) t -> rfc_text false j s ->
  ((exists d, json_decode alnum fl pf t s old = Ret (d, Ok tt) /\ presents (ds_source d) t [] v) <-> means fl t j v).
Proof. exact (rfc_decoded alnum fl pf t j s old v). Qed.
Print Assumptions rfc_text_decoded.

(** It accepts no other ones. *)
Theorem rfc_text_accepted alnum fl pf t j s old d : all_structs (fun n => (n < 64)%nat) t -> rfc_text false j s ->
  json_decode alnum fl pf t s old = Ret (d, Ok tt) -> exists v, means fl t j v /\ presents (ds_source d) t [] v.
Proof. exact (rfc_accepted alnum fl pf t j s old d). Qed.
Print Assumptions rfc_text_accepted.

(** What the encoder writes for a value that JSON can carry is a text of the standard that means this value. Floats have to
    be written as the standard wants numbers. *)
Theorem encoder_writes_rfc fl t v src :
  (forall p z, number_lexeme (show_float fl p z) -> rfc_number (show_float fl p z)) ->
  presents src t [] v -> jsonable fl t v ->
  exists bs text j, json_encode fl t src = Ret bs /\ utf8_decode bs = Some text /\ rfc_value false j text /\ means fl t j v.
Proof. exact (fun H => encoded_rfc fl H t v src). Qed.
Print Assumptions encoder_writes_rfc.

(** A string is written as a text of the standard exactly if it has none of the characters that are not read back. *)
Theorem string_is_rfc s : Forall (fun c => is_char c = true /\ ~ 0x8000 <= c <= 0xFFFF) s ->
  exists text, utf8_decode (emit_utf8_string s) = Some text /\ ((exists pairs j, rfc_text pairs j text) <-> Forall json_char s).
Proof. exact (string_rfc s). Qed.
Print Assumptions string_is_rfc.

Definition rfc_fl : floats := {| show_float := fun _ _ => lit "NaN"; parse_float := fun _ _ => None |}.

(** Characters written as two escapes make the decoder panic. *)
Theorem pairs_decoded_refuted : exists s x, rfc_text true (RText x) s /\ means rfc_fl TString (RText x) (VStr (utf8_encode x)) /\
  json_decode (fun _ => false) rfc_fl Release TString s [] = Panic.
Proof.
  exists (lit """\ud83d\ude00"""), [0x1F600]. split; [|split; [apply me_string|vm_compute; reflexivity]].
  exists [], (lit """\ud83d\ude00"""), []. split; [reflexivity|]. split; [constructor|]. split; [|constructor].
  apply (rv_text true (lit "\ud83d\ude00")).
  apply (rc_pair true (lit "d83d") (lit "de00") [] []); [reflexivity| | |vm_compute; intuition discriminate|vm_compute; intuition discriminate|constructor].
  - split; [|reflexivity]. repeat constructor; unfold hex_char; vm_compute; intuition discriminate.
  - split; [|reflexivity]. repeat constructor; unfold hex_char; vm_compute; intuition discriminate.
Qed.
Print Assumptions pairs_decoded_refuted.

(** How a text of the standard can begin. *)
Lemma rfc_head pairs j c s : rfc_text pairs j (c :: s) -> In c (9 :: 10 :: 13 :: lit " ntf""[{-0123456789").
Proof.
  intros (w & x & w' & E & Hw & Hv & _). destruct Hw as [|d w Hd Hw]; [|cbn in E; injection E as <- _; cbn in Hd |- *; intuition auto].
  cbn [app] in E. destruct Hv; cbn in E; try (injection E as -> _; cbn; tauto).
  match goal with N : rfc_number _ |- _ => destruct N as (sg & i & f & e & -> & [->| ->] & Hi & _) end; [|injection E as -> _; cbn; tauto].
  destruct Hi as [->|(d & ds & -> & Hd & _)]; cbn in E; injection E as -> _; [cbn; tauto|]. cbn. lia.
Qed.

(** The decoder accepts texts that are none of the standard. *)
Theorem only_rfc_refuted : exists s d, json_decode (fun _ => false) rfc_fl Release TUnit s [] = Ret (d, Ok tt) /\ forall pairs j, ~ rfc_text pairs j s.
Proof.
  exists (11 :: lit "null"). eexists. split; [vm_compute; reflexivity|]. intros pairs j H. apply rfc_head in H. cbn in H. intuition discriminate.
Qed.
Print Assumptions only_rfc_refuted.

(** The encoder writes texts that are none of the standard, if a float is no number. *)
Theorem float_rfc_refuted : exists t v src text, presents src t [] v /\ typed t v /\ json_encode rfc_fl t src = Ret (utf8_encode text) /\
  forall pairs j, ~ rfc_text pairs j text.
Proof.
  exists (TPrim PF32), (VPrim 0x7FC00000), (val_source (VPrim 0x7FC00000)), (lit "NaN"). repeat apply conj.
  - constructor. reflexivity.
  - constructor. vm_compute. intuition discriminate.
  - vm_compute. reflexivity.
  - intros pairs j H. apply rfc_head in H. cbn in H. intuition discriminate.
Qed.
Print Assumptions float_rfc_refuted.

(** To the standard the members of an object have no order, and [1.0] is the number [1]. To the decoder they have, and it is not. *)
Theorem equal_texts_refuted :
  (exists t a b d, json_decode (fun _ => false) rfc_fl Release t (lit "{""kind"":" ++ a ++ lit ",""value"":" ++ b ++ lit "}") [] = Ret (d, Ok tt) /\
     forall d, json_decode (fun _ => false) rfc_fl Release t (lit "{""value"":" ++ b ++ lit ",""kind"":" ++ a ++ lit "}") [] <> Ret (d, Ok tt)) /\
  (exists d, json_decode (fun _ => false) rfc_fl Release (TPrim PU8) (lit "1") [] = Ret (d, Ok tt) /\ rfc_number (lit "1.0") /\
     forall d, json_decode (fun _ => false) rfc_fl Release (TPrim PU8) (lit "1.0") [] <> Ret (d, Ok tt)).
Proof.
  split.
  - exists (TEnum [(lit "a", TUnit)]), (lit """a"""), (lit "null"). eexists. split; [vm_compute; reflexivity|]. intros d H. vm_compute in H. discriminate H.
  - eexists. split; [vm_compute; reflexivity|]. split.
    + exists [], (lit "1"), (lit ".0"), []. split; [reflexivity|]. split; [left; reflexivity|]. split.
      * right. exists 49, []. repeat split; try lia. constructor.
      * split; [|left; reflexivity]. right. exists (lit "0"). split; [reflexivity|]. split; [discriminate|]. repeat constructor; cbn; lia.
    + intros d H. vm_compute in H. discriminate H.
Qed.
Print Assumptions equal_texts_refuted.

Definition rfc_ty : ty := TStruct [(lit "a", TTuple [TPrim PI8; TString]); (lit "b", TEnum [(lit "x", TUnit); (lit "y", TPrim PBool)])].
Definition rfc_json : json :=
  RObject [(lit "b", RObject [(lit "kind", RText (lit "y")); (lit "value", RBool true)]); (lit "a", RArray [RNumber (lit "-7"); RText [0xE9; 47]])].
Definition rfc_val : val := VStruct [VTuple [VPrim (-7); VStr (utf8_encode [0xE9; 47])]; VCase 1 (VPrim 1)].

Lemma key_ex (k : str) : Forall (fun c => 0x20 <= c /\ c <> 34 /\ c <> 92) k -> rfc_chars false k k.
Proof. induction 1 as [|c k (A & B & C) _ IH]; constructor; assumption. Qed.

Ltac key := apply key_ex; match goal with |- Forall _ ?l => let l' := eval vm_compute in l in change l with l' end; repeat (constructor; [lia|]); constructor.
Ltac blank := match goal with |- ws ?l => let l' := eval vm_compute in l in change (ws l') end; unfold ws; repeat (constructor; [cbn; tauto|]); constructor.

(** Members in another order, white space, and escapes. *)
Example rfc_text_decoded_ex : all_structs (fun n => (n < 64)%nat) rfc_ty /\
  rfc_text false rfc_json (lit " { ""b"" :{""kind"":""y"",""value"":true}, ""a"":[ -7 ,""\u00E9\/""]}") /\ means rfc_fl rfc_ty rfc_json rfc_val.
Proof.
  split; [|split].
  - repeat constructor.
  - exists (lit " "), (123 :: lit " ""b"" :{""kind"":""y"",""value"":true}, ""a"":[ -7 ,""\u00E9\/""]" ++ [125]), []. split; [reflexivity|]. split; [blank|]. split; [|constructor].
    apply rv_object.
    apply (rf_more false _ _ _ (lit " ") (lit "b") (lit " ") [] (123 :: lit """kind"":""y"",""value"":true" ++ [125]) [] (lit " ""a"":[ -7 ,""\u00E9\/""]"));
      [blank|key|blank|blank| |blank|].
    + apply rv_object. apply (rf_more false _ _ _ [] (lit "kind") [] [] (34 :: lit "y" ++ [34]) [] (lit """value"":true")); [blank|key|blank|blank|apply rv_text; key|blank|].
      apply (rf_one false _ _ [] (lit "value") [] [] (lit "true") []); [blank|key|blank|blank|apply rv_true|blank].
    + apply (rf_one false _ _ (lit " ") (lit "a") [] [] (91 :: lit " -7 ,""\u00E9\/""" ++ [93]) []); [blank|key|blank|blank| |blank].
      apply rv_array. apply (ri_more false _ _ (lit " ") (lit "-7") (lit " ") (lit """\u00E9\/""")); [blank| |blank|].
      * apply rv_number. exists [45], [55], [], []. split; [reflexivity|]. split; [right; reflexivity|]. split; [right; exists 55, []; repeat split; try lia; constructor|]. split; left; reflexivity.
      * apply (ri_one false _ [] (34 :: lit "\u00E9\/" ++ [34]) []); [blank| |blank]. apply rv_text.
        apply (rc_unicode false (lit "00E9") (lit "\/")); [split; [|reflexivity]; repeat constructor; unfold hex_char; vm_compute; intuition discriminate|vm_compute; intuition discriminate|].
        apply (rc_escape false 47 47); [cbn; tauto|constructor].
  - eapply me_struct with (l := rev (combine [(lit "a", TTuple [TPrim PI8; TString]); (lit "b", TEnum [(lit "x", TUnit); (lit "y", TPrim PBool)])] [VTuple [VPrim (-7); VStr (utf8_encode [0xE9; 47])]; VCase 1 (VPrim 1)])).
    + repeat constructor; cbn; intuition discriminate.
    + reflexivity.
    + apply Permutation_sym, Permutation_rev.
    + cbn [combine rev app]. constructor.
      * eapply me_enum; [reflexivity| |apply (me_bool rfc_fl true)]. intros [|[|k']] t' H; cbn in H; try lia; destruct k'; discriminate H.
      * constructor; [|constructor]. constructor. constructor; [|constructor; [constructor|constructor]].
        eapply me_integer with (x := lit "-7"); [intros [|[|[|[|[]]]]]; discriminate|left; reflexivity| |cbn; lia].
        exists [55]. split; [discriminate|]. split; [repeat constructor; lia|]. right. repeat split.
Qed.

Example string_is_rfc_ex : Forall (fun c => is_char c = true /\ ~ 0x8000 <= c <= 0xFFFF) [97; 0; 27] /\ ~ Forall json_char [97; 0; 27] /\
  jsonable rfc_fl rfc_ty rfc_val.
Proof.
  split; [repeat constructor; cbn; lia|]. split.
  - intros H. rewrite Forall_forall in H. destruct (H 0 ltac:(cbn; tauto)) as (_ & N & _). congruence.
  - constructor; [cbn; lia|repeat constructor; cbn; intuition discriminate| |].
    + repeat constructor; unfold json_char, bad_control; cbn; lia.
    + cbn. constructor; [|constructor; [|constructor]].
      * constructor. constructor; [constructor; [cbn; lia|discriminate|intros [E|E]; discriminate E]|]. constructor; [|constructor]. apply (js_string rfc_fl [0xE9; 47]).
        repeat constructor; unfold json_char, bad_control; cbn; lia.
      * eapply js_enum; [repeat constructor; cbn; intuition discriminate|reflexivity|repeat constructor; unfold json_char, bad_control; cbn; lia|].
        constructor; [cbn; lia|discriminate|intros [E|E]; discriminate E].
Qed.
