(** * Property C103: White space between the symbols of JSON texts *)

From Coq Require Import Strings.String.
From Verif Require Import Base StrModel Utf8Model TypesModel MarshalModel MarshalSpec JsonModel JsonSpec WhiteSpec JsonDocSpec Prop_JsonDoc JsonRewriteSpec JsonSpaceSpec JsonSpaceProofs.
Local Open Scope list_scope.
Local Open Scope Z_scope.

(** Texts with the same symbols are both refused, or both accepted and stand for the same value. *)
Theorem same_symbols_same_value : forall alnum fl pf t s s' l v, all_structs (fun n => (n < 64)%nat) t ->
  symbols alnum s l -> symbols alnum s' l -> (stands_for alnum fl pf t s v <-> stands_for alnum fl pf t s' v).
Proof. exact symbols_stand. Qed.
Print Assumptions same_symbols_same_value.

(** White space after a symbol can be put in and taken out. No white space is alphanumeric in Unicode. *)
Theorem space_after_symbols : forall alnum fl pf t p w q v, (forall c, In c white_space -> alnum c = false) ->
  all_structs (fun n => (n < 64)%nat) t -> Forall (fun c => In c white_space) w -> after_symbols alnum (p ++ q) q ->
  (stands_for alnum fl pf t (p ++ q) v <-> stands_for alnum fl pf t (p ++ w ++ q) v).
Proof. intros alnum fl pf t p w q v A. exact (space_stands alnum fl A pf t p w q v). Qed.
Print Assumptions space_after_symbols.

Definition sp_ty : ty := TTuple [TPrim PU8; TPrim PBool].
Definition sp_val : val := VTuple [VPrim 12; VPrim 1].

Lemma sp_stands s : json_decode (fun _ => false) doc_fl Debug sp_ty s [] = json_decode (fun _ => false) doc_fl Debug sp_ty (lit "[12,true]") [] ->
  stands_for (fun _ => false) doc_fl Debug sp_ty s sp_val.
Proof. intros E. eexists. split; [rewrite E; vm_compute; reflexivity|]. repeat first [reflexivity|econstructor]. Qed.

Example same_symbols_ex :
  let l := [SPunct 91; SNumber (lit "12"); SPunct 44; SWord (lit "true"); SPunct 93] in
  all_structs (fun n => (n < 64)%nat) sp_ty /\ symbols (fun _ => false) (lit "[12,true]") l /\ symbols (fun _ => false) (lit " [ 12 , true ] ") l /\
  stands_for (fun _ => false) doc_fl Debug sp_ty (lit "[12,true]") sp_val /\ stands_for (fun _ => false) doc_fl Debug sp_ty (lit " [ 12 , true ] ") sp_val.
Proof.
  intros l. split; [repeat (constructor; cbn; try lia)|].
  split. { apply (sy_next _ _ _ (lit "12,true]")); [discriminate|rd|]. apply (sy_next _ _ _ (lit ",true]")); [discriminate|rd|].
    apply (sy_next _ _ _ (lit "true]")); [discriminate|rd|]. apply (sy_next _ _ _ (lit "]")); [discriminate|rd|].
    apply (sy_next _ _ _ []); [discriminate|rd|]. apply sy_end. rd. }
  split. { apply (sy_next _ _ _ (lit " 12 , true ] ")); [discriminate|rd|]. apply (sy_next _ _ _ (lit " , true ] ")); [discriminate|rd|].
    apply (sy_next _ _ _ (lit " true ] ")); [discriminate|rd|]. apply (sy_next _ _ _ (lit " ] ")); [discriminate|rd|].
    apply (sy_next _ _ _ (lit " ")); [discriminate|rd|]. apply sy_end. rd. }
  split; apply sp_stands; vm_compute; reflexivity.
Qed.

(** A line feed and a space after the number. *)
Example space_after_symbols_ex :
  Forall (fun c => In c white_space) [10; 32] /\ after_symbols (fun _ => false) (lit "[12" ++ lit ",true]") (lit ",true]") /\
  stands_for (fun _ => false) doc_fl Debug sp_ty (lit "[12" ++ [10; 32] ++ lit ",true]") sp_val.
Proof.
  split; [repeat constructor; cbn; tauto|].
  split. { apply (af_next _ _ (SPunct 91) (lit "12,true]")); [discriminate|rd|exact I|].
    apply (af_next _ _ (SNumber (lit "12")) (lit ",true]")); [discriminate|rd| |apply af_here].
    right. eexists _, _. split; [reflexivity|]. right. cbn. tauto. }
  apply sp_stands. vm_compute. reflexivity.
Qed.

(** Elsewhere it matters: inside a number the text is no longer accepted, inside a string it stands for another value. *)
Theorem space_anywhere_refuted : exists alnum fl pf t p q v, (forall c, In c white_space -> alnum c = false) /\
  all_structs (fun n => (n < 64)%nat) t /\ stands_for alnum fl pf t (p ++ q) v /\
  forall v', ~ stands_for alnum fl pf t (p ++ [32] ++ q) v'.
Proof.
  exists (fun _ => false), doc_fl, Debug, sp_ty, (lit "[1"), (lit "2,true]"), sp_val.
  split; [reflexivity|]. split; [repeat (constructor; cbn; try lia)|]. split; [apply sp_stands; vm_compute; reflexivity|].
  intros v' (d & H & _). vm_compute in H. discriminate H.
Qed.
Print Assumptions space_anywhere_refuted.

Theorem space_in_string_refuted : exists alnum fl pf t p q v v', stands_for alnum fl pf t (p ++ q) v /\
  stands_for alnum fl pf t (p ++ [32] ++ q) v' /\ v <> v'.
Proof.
  exists (fun _ => false), doc_fl, Debug, TString, (lit """a"), (lit "b"""), (VStr (utf8_encode [97; 98])), (VStr (utf8_encode [97; 32; 98])).
  split; [|split; [|discriminate]]; (eexists; split; [vm_compute; reflexivity|]; repeat first [reflexivity|econstructor]).
Qed.
Print Assumptions space_in_string_refuted.
