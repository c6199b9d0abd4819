(** * Property C69 *)

From Coq Require Import Strings.String.
From Verif Require Import Base StrModel Utf8Model TypesModel MarshalModel MarshalSpec ValSource JsonModel JsonExamples WriterModel WriterSpec WriterProofs.
Local Open Scope string_scope.
Local Open Scope list_scope.

(** In all statements [fl] is an arbitrary way of writing floats and [pieces] an arbitrary way of cutting the text of a
    number into pieces that are written one after the other. *)

(** C69: a writer that never takes only a part of a buffer gets exactly the JSON if the result is [Ok], else a beginning of
    it; and so does any writer if the type has no text. *)
Theorem encode_to_writer_exact : forall fl pieces src t w, (forall s, concat (pieces s) = s) ->
  textless t \/ Forall whole (w_answers w) ->
  match encode_to fl pieces src t w with
  | Ret (w', Ok _) => exists b, json_encode fl t src = Ret b /\ w_out w' = w_out w ++ b
  | Ret (w', Err e) => (In (culprit e) (w_answers w) /\ (textless t -> e <> EInterrupted)) /\
      exists b', w_out w' = w_out w ++ b' /\ forall b, json_encode fl t src = Ret b -> exists rest, b = b' ++ rest
  | Panic => json_encode fl t src = Panic
  | Undef => json_encode fl t src = Undef
  end.
Proof. intros fl pieces src t w H. exact (encode_exact fl pieces src H t w). Qed.
Print Assumptions encode_to_writer_exact.

Example encode_to_writer_exact_ex :
  let one := fun s : str => map (fun c => [c]) s in
  let t := TTuple [TPrim PU16; TUnit] in let src := val_source (VTuple [VPrim 300; VUnit]) in
  (forall s, concat (one s) = s) /\ textless t /\
  (exists w', encode_to jx_fl one src t {| w_answers := [Interrupted; Full; Short 1; Interrupted; Full]; w_out := [] |} = Ret (w', Ok tt) /\
     w_out w' = utf8_encode (lit "[300,null]") /\ w_answers w' = []) /\
  (exists w', encode_to jx_fl one src t {| w_answers := [Full; Full; Short 0]; w_out := [] |} = Ret (w', Err EWriteZero) /\
     w_out w' = utf8_encode (lit "[3")) /\
  (exists w', encode_to jx_fl one (val_source (VStr (utf8_encode (lit "abc")))) TString {| w_answers := [Full; Full; Interrupted]; w_out := [] |}
     = Ret (w', Err EInterrupted) /\ w_out w' = utf8_encode (lit """a")).
Proof.
  split; [intros s; induction s as [|c s IH]; [reflexivity|cbn [map concat app]; rewrite IH; reflexivity]|].
  split; [repeat constructor; discriminate|]. repeat split; eexists; (split; [vm_compute; reflexivity|]); vm_compute; try split; reflexivity.
Qed.

(** C69: any other writer gets the JSON, except that bytes at the ends of characters of labels, strings and characters may
    be missing; the result does not tell. *)
Theorem encode_to_writer : forall fl pieces src t w, (forall s, concat (pieces s) = s) ->
  match encode_to fl pieces src t w with
  | Ret (w', Ok _) => exists b b', json_encode fl t src = Ret b /\ w_out w' = w_out w ++ b' /\ shortened b' b
  | Ret (w', Err e) => In (culprit e) (w_answers w) /\
      exists b', w_out w' = w_out w ++ b' /\ forall b, json_encode fl t src = Ret b -> exists rest, shortened (b' ++ rest) b
  | Panic => json_encode fl t src = Panic
  | Undef => json_encode fl t src = Undef
  end.
Proof. intros fl pieces src t w H. exact (encode_short fl pieces src H t w). Qed.
Print Assumptions encode_to_writer.

Example encode_to_writer_ex : exists w',
  encode_to jx_fl (fun s => [s]) (val_source (VStr (utf8_encode [0x20AC; 97]%Z))) TString
    {| w_answers := [Full; Short 2]; w_out := [] |} = Ret (w', Ok tt) /\
  w_out w' = ["034"; "226"; "130"; "097"; "034"]%byte /\ utf8_decode (w_out w') = None.
Proof. eexists. split; [vm_compute; reflexivity|]. split; vm_compute; reflexivity. Qed.

(** C69: a writer that always takes something makes encoding succeed. *)
Theorem willing_writer_succeeds : forall fl pieces src t w, (forall s, concat (pieces s) = s) ->
  Forall willing (w_answers w) -> match encode_to fl pieces src t w with Ret (_, Err _) => False | _ => True end.
Proof. intros fl pieces src t w H. exact (encode_willing fl pieces src H t w). Qed.
Print Assumptions willing_writer_succeeds.

Example willing_writer_succeeds_ex : exists w',
  Forall willing (repeat (Short 3) 5) /\
  encode_to jx_fl (fun s => [s]) (val_source jx_val) jx_ty {| w_answers := repeat (Short 3) 5; w_out := [] |} = Ret (w', Ok tt).
Proof. eexists. split; [repeat constructor; cbn; lia|]. vm_compute. reflexivity. Qed.

(** C69: a successful result does not mean that the JSON was written: what was written can be the JSON of another value. *)
Theorem encode_to_writer_refuted : exists fl pieces src other w w' b, (forall s, concat (pieces s) = s) /\
  encode_to fl pieces src TString w = Ret (w', Ok tt) /\
  json_encode fl TString src = Ret b /\ json_encode fl TString other = Ret (w_out w') /\
  src_bytes src [] <> src_bytes other [] /\ b <> w_out w'.
Proof.
  exists jx_fl, (fun s => [s]), (val_source (VStr (utf8_encode (lit "abc")))), (val_source (VStr (utf8_encode (lit "bc")))), {| w_answers := [Full; Short 0]; w_out := [] |}.
  eexists _, _. split; [intros s; cbn [concat]; apply app_nil_r|]. split; [vm_compute; reflexivity|].
  split; [vm_compute; reflexivity|]. split; [vm_compute; reflexivity|]. split; vm_compute; discriminate.
Qed.
Print Assumptions encode_to_writer_refuted.

(** C69: an interrupted write makes encoding of text fail, although the standard library says to try again. *)
Theorem interrupted_write_refuted : exists fl pieces src w w', (forall s, concat (pieces s) = s) /\
  encode_to fl pieces src TString w = Ret (w', Err EInterrupted).
Proof.
  exists jx_fl, (fun s => [s]), (val_source (VStr (utf8_encode (lit "a")))), {| w_answers := [Full; Interrupted]; w_out := [] |}. eexists.
  split; [intros s; cbn [concat]; apply app_nil_r|]. vm_compute. reflexivity.
Qed.
Print Assumptions interrupted_write_refuted.
