(** * Property C109: the room a JSON text takes *)

From Coq Require Import Strings.String.
From Verif Require Import Base StrModel Utf8Model TypesModel MarshalModel MarshalSpec ValSource JsonModel JsonSpec JsonExamples JsonRoomSpec JsonRoomProofs.
From Verif Require Import LayoutProofs MarshalLimits NsmModel NsmSpec RecordSpec PipelineSpec PipelineProofs Prop_Pipeline JsonTellPage.
Local Open Scope list_scope.
Local Open Scope nat_scope.

(** Whatever presents the value, its text takes at most the room that can be told from the type, the tags and the lengths of
    the strings alone, apart from floating point numbers. *)
Theorem text_fits_room : forall fl t src v bs, presents src t [] v -> typed t v -> json_encode fl t src = Ret bs -> List.length bs <= room fl t v.
Proof. intros fl t src v bs. exact (emit_fits fl t src [] v bs). Qed.
Print Assumptions text_fits_room.

(** The dump of a page of records takes at most the room of all its values. *)
Theorem dump_fits_room : forall fl pf t l a pg rows vs outs, small t -> layout_new t = Ret l -> marshallable pf l ->
  holds a pg rows -> Forall2 (record_of pf t l) vs rows -> dump fl pf t l a pg = Ret outs ->
  List.length (concat outs) <= list_sum (map (room fl t) vs).
Proof.
  intros fl pf t l a pg rows vs outs Hs Hl Hm H R D. pose proof (dumped_shown fl pf t l a Hs Hl Hm pg rows vs outs H R D) as O.
  pose proof (all_typed _ _ _ _ _ R) as T. clear R D. induction O as [|v b vs outs Ov O IH]; [cbn; lia|]. inversion T; subst.
  cbn [concat map list_sum fold_right]. rewrite app_length. change (fold_right Nat.add 0) with list_sum.
  pose proof (emit_fits fl t _ [] v b (every_value_presented t v ltac:(assumption)) ltac:(assumption) Ov). specialize (IH ltac:(assumption)). lia.
Qed.
Print Assumptions dump_fits_room.

(** The room for each type of number, truth value and character is needed by some value. *)
Theorem prim_room_needed : forall fl p, p <> PF32 -> p <> PF64 -> exists z bs, in_range p z /\
  json_encode fl (TPrim p) (val_source (VPrim z)) = Ret bs /\ List.length bs = room fl (TPrim p) (VPrim z).
Proof.
  intros fl p A B. exists (match p with PBool => 0 | PChar => 1 | PU8 | PU16 | PU32 | PU64 | PU128 => 2 ^ (8 * Z.of_nat (prim_size p)) - 1
    | _ => - 2 ^ (8 * Z.of_nat (prim_size p) - 1) end)%Z.
  destruct p; try congruence; eexists; (split; [unfold in_range; cbn; first [reflexivity | lia]|]); (split; [vm_compute; reflexivity|vm_compute; reflexivity]).
Qed.
Print Assumptions prim_room_needed.

(** The room for a string is needed by strings of each length. *)
Theorem string_room_needed : forall fl n, exists v bs, List.length v = n /\
  json_encode fl TString (val_source (VStr v)) = Ret bs /\ List.length bs = room fl TString (VStr v).
Proof.
  intros fl n. exists (repeat x01 n). assert (E : utf8_decode (repeat x01 n) = Some (repeat 1%Z n)).
  { apply Utf8Facts.utf8_decode_iff. split; [induction n; constructor; auto|]. unfold utf8_encode. induction n as [|n IH]; [reflexivity|]. cbn [repeat flat_map]. rewrite IH. reflexivity. }
  eexists. split; [apply repeat_length|]. unfold json_encode. cbn [emit val_source src_bytes]. change (val_at (VStr (repeat x01 n)) []) with (Some (VStr (repeat x01 n))). cbn [bind]. rewrite E.
  split; [reflexivity|]. cbn [room]. rewrite repeat_length. unfold emit_utf8_string, string_room. rewrite !app_length. change (List.length (utf8_encode (lit """"))) with 1.
  assert (L : List.length (flat_map write_ch (repeat 1%Z n)) = 6 * n); [|lia].
  clear E. induction n as [|n IH]; [reflexivity|]. cbn [repeat flat_map]. rewrite app_length, IH. change (List.length (write_ch 1)) with 6. lia.
Qed.
Print Assumptions string_room_needed.

Definition rm_ty : ty := TStruct [(lit "n", TPrim PI16); (lit "e", TEnum [(lit "a", TUnit); (lit "b", TTuple [TString; TPrim PBool])])].
Definition rm_val : val := VStruct [VPrim (-300); VCase 1 (VTuple [VStr (utf8_encode (lit "x/y")); VPrim 1])].

Example text_fits_room_ex : typed rm_ty rm_val /\ presents (val_source rm_val) rm_ty [] rm_val /\ room jx_fl rm_ty rm_val = 83 /\
  json_encode jx_fl rm_ty (val_source rm_val) = Ret (utf8_encode (lit "{""n"":-300,""e"":{""kind"":""b"",""value"":[""x\/y"",true]}}")).
Proof.
  assert (T : typed rm_ty rm_val).
  { constructor. constructor; [constructor; cbn; lia|]. constructor; [|constructor]. eapply ty_enum; [reflexivity|]. constructor.
    constructor; [constructor; vm_compute; reflexivity|]. constructor; [constructor; cbn; tauto|constructor]. }
  split; [exact T|]. split; [exact (every_value_presented _ _ T)|]. split; vm_compute; reflexivity.
Qed.

Example prim_room_needed_ex : json_encode jx_fl (TPrim PI64) (val_source (VPrim (- 2 ^ 63))) = Ret (utf8_encode (lit "-9223372036854775808")).
Proof. vm_compute. reflexivity. Qed.

Example string_room_needed_ex : json_encode jx_fl TString (val_source (VStr [x01; x02])) = Ret (utf8_encode (lit """\u0001\u0002""")).
Proof. vm_compute. reflexivity. Qed.

Example dump_fits_room_ex : exists l page row, layout_new px_ty = Ret l /\ small px_ty /\ marshallable Debug l /\ holds 4 page [row] /\
  record_of Debug px_ty l (px_val (lit "A") 7) row /\ dump jx_fl Debug px_ty l 4 page = Ret [utf8_encode (lit "{""name"":""A"",""size"":7}")] /\
  room jx_fl px_ty (px_val (lit "A") 7) = 71.
Proof.
  destruct dump_loads_into_fresh_page_ex as (l & page & pg0 & row & L & H & R & _ & _ & D). exists l, page, row.
  split; [exact L|]. split; [vm_compute; reflexivity|]. split; [eapply (marshallable_type _ px_ty []); [vm_compute; reflexivity|repeat constructor|exact L]|].
  split; [exact H|]. split; [exact R|]. split; [exact D|]. vm_compute. reflexivity.
Qed.
