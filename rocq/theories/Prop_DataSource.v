(** * C88: A data source answers with what it was told last, and after decoding with the value alone *)

From Coq Require Import Strings.String.
From Verif Require Import Base StrModel Utf8Model TypesModel MarshalModel MarshalSpec JsonModel JsonSpec JsonDocSpec DataSourceModel DataSourceSpec DataSourceProofs DataSourceDecode.
Local Open Scope list_scope.
Local Open Scope Z_scope.

(** Whatever was added and cleared before, a primitive is answered just if the last word about its path since the last clear is a
    primitive of that type; everything else panics. *)
Theorem source_answers_primitive h q p :
  (exists z, last_word h q (DPrimitive q p z) /\ src_prim (td_source (td_run h)) p q = Ret z) \/
  (~ (exists z, last_word h q (DPrimitive q p z)) /\ src_prim (td_source (td_run h)) p q = Panic).
Proof. exact (answer_prim h q p). Qed.
Print Assumptions source_answers_primitive.

Theorem source_answers_tag h q :
  (exists n, last_word h q (DCaseTag q n) /\ src_tag (td_source (td_run h)) q = Ret n) \/
  (~ (exists n, last_word h q (DCaseTag q n)) /\ src_tag (td_source (td_run h)) q = Panic).
Proof. exact (answer_tag h q). Qed.
Print Assumptions source_answers_tag.

Theorem source_answers_text h q :
  (exists s, last_word h q (DString q s) /\ src_bytes (td_source (td_run h)) q = Ret (utf8_encode s) /\
             src_len (td_source (td_run h)) q = Ret (List.length (utf8_encode s))) \/
  (~ (exists s, last_word h q (DString q s)) /\ src_bytes (td_source (td_run h)) q = Panic /\ src_len (td_source (td_run h)) q = Panic).
Proof. exact (answer_text h q). Qed.
Print Assumptions source_answers_text.

(** There is at most one last word. *)
Theorem last_word_unique h q op op' : last_word h q op -> last_word h q op' -> op' = op.
Proof. exact (last_unique h q op op'). Qed.
Print Assumptions last_word_unique.

(** The map ordered by paths answers like the list of insertions that the model of the decoder uses. *)
Theorem ordered_map_is_list h :
  (forall p q, src_prim (td_source (td_run h)) p q = src_prim (ds_source (ds_run h)) p q) /\
  (forall q, src_tag (td_source (td_run h)) q = src_tag (ds_source (ds_run h)) q) /\
  (forall q, src_len (td_source (td_run h)) q = src_len (ds_source (ds_run h)) q) /\
  (forall q, src_bytes (td_source (td_run h)) q = src_bytes (ds_source (ds_run h)) q).
Proof. exact (sources_agree h). Qed.
Print Assumptions ordered_map_is_list.

(** A history in which an element is told twice, as different kinds, out of the order of paths. *)
Definition tell : list ds_op :=
  [DPrimitive [9]%nat PU8 1; DClear; DCaseTag [1]%nat 2; DString [0; 3]%nat [104; 105]; DPrimitive [0]%nat PI16 (-5); DPrimitive [1]%nat PU8 7; DPrimitive [1; 0]%nat PBool 1].

Example tell_ex :
  src_prim (td_source (td_run tell)) PU8 [1]%nat = Ret 7 /\ src_tag (td_source (td_run tell)) [1]%nat = Panic /\
  src_bytes (td_source (td_run tell)) [0; 3]%nat = Ret (utf8_encode [104; 105]) /\ src_prim (td_source (td_run tell)) PU8 [9]%nat = Panic /\
  src_prim (td_source (td_run tell)) PI32 [0]%nat = Panic /\ map fst (td_run tell) = [[0]; [0; 3]; [1]; [1; 0]]%nat.
Proof. vm_compute. auto 10. Qed.

Example tell_last : last_word tell [1]%nat (DPrimitive [1]%nat PU8 7) /\ last_word tell [9]%nat DClear.
Proof.
  split.
  - exists (firstn 5 tell), [DPrimitive [1; 0]%nat PBool 1]. split; [reflexivity|]. split; [reflexivity|]. repeat constructor; discriminate.
  - exists (firstn 1 tell), (skipn 2 tell). split; [reflexivity|]. split; [exact I|]. repeat constructor; discriminate.
Qed.

(** After a successful decode the data source has something to say at exactly the places of the decoded value. Whatever it held
    before is gone. *)
Theorem decoded_places_exact alnum fl pf t input old d v p :
  all_structs (fun n => (n < 64)%nat) t -> json_decode alnum fl pf t input old = Ret (d, Ok tt) -> presents (ds_source d) t [] v ->
  (speaks (ds_source d) p <-> place t v [] p).
Proof. exact (decode_places alnum fl pf t input old d v p). Qed.
Print Assumptions decoded_places_exact.

(** Once the first symbol was read the former contents play no part, whether or not the decoder succeeds. *)
Theorem former_contents_forgotten alnum fl pf t input old old' x r :
  reads alnum input x r -> json_decode alnum fl pf t input old = json_decode alnum fl pf t input old'.
Proof. exact (decode_forgets alnum fl pf t input old old' x r). Qed.
Print Assumptions former_contents_forgotten.

(** If the first symbol cannot be read the former contents stay (or the tokenizer panics). *)
Theorem former_contents_kept alnum fl pf t input :
  (forall x r, ~ reads alnum input x r) ->
  (forall old, exists e, json_decode alnum fl pf t input old = Ret (old, Err e)) \/
  (forall old, json_decode alnum fl pf t input old = Panic).
Proof. intros H. destruct (decode_clears alnum fl pf t input) as [(x & r & R)|G]; [destruct (H x r R)|exact G]. Qed.
Print Assumptions former_contents_kept.

Definition ds_fl : floats := {| show_float := fun _ _ => []; parse_float := fun _ _ => None |}.
Definition ds_ty : ty := TStruct [(lit "a", TPrim PU8); (lit "b", TEnum [(lit "x", TUnit); (lit "y", TTuple [TUnit; TString])])].
Definition ds_text : str := lit "{""b"":{""kind"":""y"",""value"":[null,""q""]},""a"":5}".
Definition ds_old : ds := [([7]%nat, JTag 3); ([1; 0]%nat, JPrim PU8 9)].

Example decoded_places_ex : exists d, json_decode (fun _ => false) ds_fl Debug ds_ty ds_text ds_old = Ret (d, Ok tt) /\
  map fst d = [[0]; [1; 1; 1]; [1]]%nat /\
  place ds_ty (VStruct [VPrim 5; VCase 1 (VTuple [VUnit; VStr (utf8_encode [113])])]) [] [1; 1; 1]%nat.
Proof.
  eexists. split; [vm_compute; reflexivity|]. split; [reflexivity|].
  eapply pc_struct with (i := 1%nat); [reflexivity|reflexivity|]. eapply pc_case; [reflexivity|].
  eapply pc_tuple with (i := 1%nat); [reflexivity|reflexivity|]. constructor.
Qed.

Example former_contents_ex : exists e, json_decode (fun _ => false) ds_fl Debug ds_ty (lit "?") ds_old = Ret (ds_old, Err e).
Proof. eexists. vm_compute. reflexivity. Qed.

(** A failed decode leaves what was read so far. *)
Theorem failed_decode_leaves_rest_refuted : exists t input d e p,
  json_decode (fun _ => false) ds_fl Debug t input [] = Ret (d, Err e) /\ speaks (ds_source d) p.
Proof.
  exists (TTuple [TPrim PU8; TPrim PU8]), (lit "[1,]"). eexists. eexists. exists [0]%nat. split; [vm_compute; reflexivity|].
  left. exists PU8, 1. reflexivity.
Qed.
