(** * Property C104: Parts of JSON documents *)

From Coq Require Import Strings.String.
From Verif Require Import Base StrModel Utf8Model TypesModel MarshalModel MarshalSpec ValSource JsonModel JsonSpec WhiteSpec JsonDocSpec Prop_JsonDoc JsonRewriteSpec JsonPartSpec JsonPartProofs JsonPartWrite.
Local Open Scope list_scope.
Local Open Scope Z_scope.

(** In an accepted text each component of the value has a place of its own. It can be exchanged for any document of its
    type; then the text is accepted for the value with that component exchanged, and nothing else. *)
Theorem part_exchanged : forall alnum fl pf t text v q u w, (forall c, In c white_space -> alnum c = false) ->
  all_structs (fun n => (n < 64)%nat) t -> stands_for alnum fl pf t text v -> component t v q u w -> q <> [] ->
  exists p d k, text = p ++ d ++ k /\ document alnum fl u d w [] /\
    forall d' w', document alnum fl u d' w' [] -> exists v', replaced q w' v v' /\ stands_for alnum fl pf t (p ++ d' ++ k) v'.
Proof. intros alnum fl pf t text v q u w A. exact (part_stands alnum fl A pf t text v q u w). Qed.
Print Assumptions part_exchanged.

(** There is only one value with that component exchanged. *)
Theorem exchanged_unique : forall q w v v1 v2, replaced q w v v1 -> replaced q w v v2 -> v1 = v2.
Proof. exact replaced_det. Qed.
Print Assumptions exchanged_unique.

(** It has the new component where the old one was. *)
Theorem exchanged_component : forall t v q u w w' v', component t v q u w -> replaced q w' v v' -> component t v' q u w'.
Proof. exact replaced_component. Qed.
Print Assumptions exchanged_component.

(** The number in a case in a struct; the part is exchanged for a number given as a string, with white space. *)
Definition jp_ty : ty := TStruct [(lit "a", TPrim PBool); (lit "c", TEnum [(lit "x", TUnit); (lit "y", TTuple [TPrim PI8; TPrim PU16])])].
Definition jp_val (z : Z) : val := VStruct [VPrim 1; VCase 1 (VTuple [VPrim (-7); VPrim z])].

Example part_exchanged_ex :
  all_structs (fun n => (n < 64)%nat) jp_ty /\
  stands_for (fun _ => false) doc_fl Debug jp_ty (lit "{""c"":{""kind"":""y"",""value"":[-7,300]},""a"":true}") (jp_val 300) /\
  component jp_ty (jp_val 300) [1; 1; 1]%nat (TPrim PU16) (VPrim 300) /\
  document (fun _ => false) doc_fl (TPrim PU16) (lit " ""65535""") (VPrim 65535) [] /\
  replaced [1; 1; 1]%nat (VPrim 65535) (jp_val 300) (jp_val 65535) /\
  stands_for (fun _ => false) doc_fl Debug jp_ty (lit "{""c"":{""kind"":""y"",""value"":[-7," ++ lit " ""65535""" ++ lit "]},""a"":true}") (jp_val 65535).
Proof.
  split; [repeat (constructor; cbn; try lia)|].
  split. { eexists. split; [vm_compute; reflexivity|]. repeat first [reflexivity|econstructor]. }
  split. { eapply cp_struct; [reflexivity|reflexivity|]. eapply cp_case; [reflexivity|]. eapply cp_tuple; [reflexivity|reflexivity|]. apply cp_here. }
  split. { apply (dc_integer _ _ _ _ (lit "65535")).
    - unfold integer_prim. cbn. intuition discriminate.
    - right. rd.
    - exists (lit "65535"). split; [discriminate|]. split; [repeat constructor; cbn; lia|]. left. split; [left; reflexivity|vm_compute; reflexivity].
    - cbn. lia. }
  split. { apply (rp_struct [VPrim 1] _ _ []). apply rp_case. apply (rp_tuple [VPrim (-7)] _ _ []). apply rp_here. }
  eexists. split; [vm_compute; reflexivity|]. repeat first [reflexivity|econstructor].
Qed.

(** The texts written for two values that differ in one component differ in one piece, which is what is written for the
    component alone. *)
Theorem part_written : forall fl t v q u w w' v' src src' su su' bs bs', component t v q u w -> replaced q w' v v' ->
  presents src t [] v -> presents src' t [] v' -> presents su u [] w -> presents su' u [] w' ->
  json_encode fl t src = Ret bs -> json_encode fl t src' = Ret bs' ->
  exists p d d' k, bs = p ++ d ++ k /\ bs' = p ++ d' ++ k /\ json_encode fl u su = Ret d /\ json_encode fl u su' = Ret d'.
Proof. exact part_written_lemma. Qed.
Print Assumptions part_written.

Example part_written_ex :
  component jp_ty (jp_val 300) [1; 1; 1]%nat (TPrim PU16) (VPrim 300) /\ replaced [1; 1; 1]%nat (VPrim 65535) (jp_val 300) (jp_val 65535) /\
  presents (val_source (jp_val 300)) jp_ty [] (jp_val 300) /\ presents (val_source (jp_val 65535)) jp_ty [] (jp_val 65535) /\
  presents (val_source (VPrim 300)) (TPrim PU16) [] (VPrim 300) /\ presents (val_source (VPrim 65535)) (TPrim PU16) [] (VPrim 65535) /\
  json_encode doc_fl jp_ty (val_source (jp_val 300)) = Ret (utf8_encode (lit "{""a"":true,""c"":{""kind"":""y"",""value"":[-7,300]}}")) /\
  json_encode doc_fl jp_ty (val_source (jp_val 65535)) = Ret (utf8_encode (lit "{""a"":true,""c"":{""kind"":""y"",""value"":[-7,65535]}}")).
Proof.
  split. { eapply cp_struct; [reflexivity|reflexivity|]. eapply cp_case; [reflexivity|]. eapply cp_tuple; [reflexivity|reflexivity|]. apply cp_here. }
  split. { apply (rp_struct [VPrim 1] _ _ []). apply rp_case. apply (rp_tuple [VPrim (-7)] _ _ []). apply rp_here. }
  split; [repeat first [reflexivity|econstructor]|]. split; [repeat first [reflexivity|econstructor]|].
  split; [repeat first [reflexivity|econstructor]|]. split; [repeat first [reflexivity|econstructor]|].
  split; vm_compute; reflexivity.
Qed.

(** It has to be a document with nothing behind it: the decoder accepts more than that as a text of its own (C24). *)
Theorem accepted_text_exchanged_refuted : exists alnum fl pf t p d k u w d' w' v,
  (forall c, In c white_space -> alnum c = false) /\ all_structs (fun n => (n < 64)%nat) t /\
  stands_for alnum fl pf t (p ++ d ++ k) v /\ stands_for alnum fl pf u d w /\ component t v [0%nat] u w /\
  stands_for alnum fl pf u d' w' /\ forall v', ~ stands_for alnum fl pf t (p ++ d' ++ k) v'.
Proof.
  exists (fun _ => false), doc_fl, Debug, (TTuple [TPrim PU8]), (lit "["), (lit "1"), (lit "]"), (TPrim PU8), (VPrim 1), (lit "2 3"), (VPrim 2), (VTuple [VPrim 1]).
  split; [reflexivity|]. split; [repeat (constructor; cbn; try lia)|].
  split. { eexists. split; [vm_compute; reflexivity|]. repeat first [reflexivity|econstructor]. }
  split. { eexists. split; [vm_compute; reflexivity|]. repeat first [reflexivity|econstructor]. }
  split. { eapply cp_tuple; [reflexivity|reflexivity|apply cp_here]. }
  split. { eexists. split; [vm_compute; reflexivity|]. repeat first [reflexivity|econstructor]. }
  intros v' (d & H & _). vm_compute in H. discriminate H.
Qed.
Print Assumptions accepted_text_exchanged_refuted.
