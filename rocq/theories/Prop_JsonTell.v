(** * Property C107: JSON texts determine the values they were written for *)

From Coq Require Import Strings.String.
From Verif Require Import Base StrModel Utf8Model TypesModel MarshalModel MarshalSpec ValSource JsonModel JsonSpec JsonExamples JsonTellSpec JsonTellProofs.
From Verif Require Import LayoutProofs MarshalLimits NsmModel NsmSpec RecordSpec PipelineSpec PipelineProofs Prop_Pipeline JsonTellPage.
Local Open Scope list_scope.
Local Open Scope Z_scope.

(** Two values have the same text exactly if they differ at most in floating point numbers that are displayed alike. This
    includes strings that the decoder does not give back. *)
Theorem text_tells_value : forall fl t src src' v v' bs bs', plain_floats fl -> cases_told t ->
  presents src t [] v -> presents src' t [] v' -> typed t v -> typed t v' ->
  json_encode fl t src = Ret bs -> json_encode fl t src' = Ret bs' -> (bs = bs' <-> alike fl t v v').
Proof.
  intros fl t src src' v v' bs bs' F C P P' T T' E E'. split.
  - intros <-. exact (text_tells fl F t src src' v v' bs C P P' T T' E E').
  - intros A. unfold json_encode in *. pose proof (alike_emitted fl t v v' src src' [] [] A P P') as X. congruence.
Qed.
Print Assumptions text_tells_value.

(** Without floating point numbers the values are the same. *)
Theorem text_tells_exactly : forall fl t src src' v v' bs, plain_floats fl -> cases_told t -> float_free t ->
  presents src t [] v -> presents src' t [] v' -> typed t v -> typed t v' ->
  json_encode fl t src = Ret bs -> json_encode fl t src' = Ret bs -> v = v'.
Proof. intros fl t src src' v v' bs F C N P P' T T' E E'. exact (alike_same fl t N v v' (text_tells fl F t src src' v v' bs C P P' T T' E E')). Qed.
Print Assumptions text_tells_exactly.

(** Two texts that are followed by a comma, a closing bracket or a closing brace, or by nothing, end at the same place if
    the bytes agree. *)
Theorem text_ends_once : forall fl t src src' v v' bs bs' r r', plain_floats fl -> cases_told t ->
  presents src t [] v -> presents src' t [] v' -> typed t v -> typed t v' -> json_encode fl t src = Ret bs -> json_encode fl t src' = Ret bs' ->
  (r = [] \/ exists b r0, r = b :: r0 /\ (b = x2c \/ b = x5d \/ b = x7d)) -> (r' = [] \/ exists b r0, r' = b :: r0 /\ (b = x2c \/ b = x5d \/ b = x7d)) ->
  bs ++ r = bs' ++ r' -> bs = bs' /\ r = r' /\ alike fl t v v'.
Proof.
  intros fl t src src' v v' bs bs' r r' F C P P' T T' E E' S S' X.
  assert (G : forall x, (x = [] \/ exists b r0, x = b :: r0 /\ (b = x2c \/ b = x5d \/ b = x7d)) -> stop x) by (intros x [->|(b & r0 & -> & H)]; [exact I|exact H]).
  destruct (emit_tells fl F t C src src' [] [] v v' bs bs' r r' P P' T T' E E' (G _ S) (G _ S') X) as (A & ->).
  apply app_inv_tail in X. auto.
Qed.
Print Assumptions text_ends_once.

(** Two pages of records of one type have the same dump exactly if their records have the same values in the same order,
    up to floating point numbers that are displayed alike. History, padding, alignment of rows and free space of the pages
    make no difference. *)
Theorem dump_tells_page : forall fl pf pf' t l a a' pg pg' rows rows' vs vs' outs outs', plain_floats fl -> cases_told t ->
  small t -> layout_new t = Ret l -> marshallable pf l -> marshallable pf' l ->
  holds a pg rows -> Forall2 (record_of pf t l) vs rows -> holds a' pg' rows' -> Forall2 (record_of pf' t l) vs' rows' ->
  dump fl pf t l a pg = Ret outs -> dump fl pf' t l a' pg' = Ret outs' -> (outs = outs' <-> Forall2 (alike fl t) vs vs').
Proof. exact dump_tells. Qed.
Print Assumptions dump_tells_page.

(** A string of control characters, which the decoder does not give back, an overlong character, and a case. *)
Definition tl_ty : ty := TTuple [TString; TEnum [(lit "a", TUnit); (lit "b", TPrim PI8)]].
Definition tl_one : val := VTuple [VStr (utf8_encode [0x1a; 0]); VCase 1 (VPrim (-5))].
Definition tl_two : val := VTuple [VStr (utf8_encode [0x9000; 0x1b]); VCase 0 VUnit].

Example text_tells_value_ex : plain_floats jx_fl /\ cases_told tl_ty /\ float_free tl_ty /\ typed tl_ty tl_one /\ typed tl_ty tl_two /\
  presents (val_source tl_one) tl_ty [] tl_one /\ presents (val_source tl_two) tl_ty [] tl_two /\
  json_encode jx_fl tl_ty (val_source tl_one) = Ret (utf8_encode (lit "[""\u001:\0"",{""kind"":""b"",""value"":-5}]")) /\
  exists bs, json_encode jx_fl tl_ty (val_source tl_two) = Ret bs /\ utf8_decode bs = None.
Proof.
  assert (T1 : typed tl_ty tl_one).
  { constructor. constructor; [constructor; vm_compute; reflexivity|]. constructor; [|constructor]. eapply ty_enum; [reflexivity|]. constructor. cbn. lia. }
  assert (T2 : typed tl_ty tl_two).
  { constructor. constructor; [constructor; vm_compute; reflexivity|]. constructor; [|constructor]. eapply ty_enum; [reflexivity|]. constructor. }
  split; [intros p z; exact (show_int_plain z)|]. split.
  { constructor. constructor; [constructor|]. constructor; [|constructor]. constructor; [|repeat constructor..].
    cbn. constructor; [intros [H|[]]; discriminate H|constructor; [intros []|constructor]]. }
  split; [constructor; constructor; [constructor|]; constructor; [|constructor]; constructor; constructor; [constructor|]; constructor; [|constructor]; constructor; discriminate|].
  split; [exact T1|]. split; [exact T2|]. split; [exact (every_value_presented _ _ T1)|]. split; [exact (every_value_presented _ _ T2)|].
  split; [vm_compute; reflexivity|]. eexists. split; vm_compute; reflexivity.
Qed.

Example text_tells_exactly_ex : exists v v' bs, typed tl_ty v /\ typed tl_ty v' /\ json_encode jx_fl tl_ty (val_source v) = Ret bs /\ json_encode jx_fl tl_ty (val_source v') = Ret bs.
Proof. exists tl_one, tl_one. eexists. destruct text_tells_value_ex as (_ & _ & _ & T & _). split; [exact T|]. split; [exact T|]. split; vm_compute; reflexivity. Qed.

Example text_ends_once_ex : exists bs, json_encode jx_fl (TPrim PI8) (val_source (VPrim 12)) = Ret bs /\ bs = [x31; x32] /\
  presents (val_source (VPrim 12)) (TPrim PI8) [] (VPrim 12) /\ typed (TPrim PI8) (VPrim 12) /\ cases_told (TPrim PI8).
Proof.
  assert (T : typed (TPrim PI8) (VPrim 12)) by (constructor; cbn; lia).
  eexists. split; [vm_compute; reflexivity|]. split; [vm_compute; reflexivity|]. split; [exact (every_value_presented _ _ T)|]. split; [exact T|constructor].
Qed.

Example dump_tells_page_ex : plain_floats jx_fl /\ cases_told px_ty /\ small px_ty /\ exists l page pg0 row,
  layout_new px_ty = Ret l /\ marshallable Debug l /\ holds 4 page [row] /\ record_of Debug px_ty l (px_val (lit "A") 7) row /\
  initialize_page 4 (repeat xff 48) = Ret pg0 /\ dump jx_fl Debug px_ty l 4 page = Ret [utf8_encode (lit "{""name"":""A"",""size"":7}")].
Proof.
  split; [intros p z; exact (show_int_plain z)|]. split; [repeat constructor|]. split; [vm_compute; reflexivity|].
  destruct dump_loads_into_fresh_page_ex as (l & page & pg0 & row & L & H & R & In & _ & D). exists l, page, pg0, row.
  split; [exact L|]. split; [|auto]. eapply (marshallable_type _ px_ty []); [vm_compute; reflexivity|repeat constructor|exact L].
Qed.

(** A repeated label makes different values have the same text. *)
Theorem repeated_case_untold_refuted : exists t v v' bs, typed t v /\ typed t v' /\ v <> v' /\
  json_encode jx_fl t (val_source v) = Ret bs /\ json_encode jx_fl t (val_source v') = Ret bs.
Proof.
  exists (TEnum [(lit "a", TUnit); (lit "a", TUnit)]), (VCase 0 VUnit), (VCase 1 VUnit). eexists.
  split; [eapply ty_enum; [reflexivity|constructor]|]. split; [eapply ty_enum; [reflexivity|constructor]|]. split; [discriminate|]. split; vm_compute; reflexivity.
Qed.
Print Assumptions repeated_case_untold_refuted.
