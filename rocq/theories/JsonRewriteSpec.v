(** * Specification vocabulary: JSON texts read and written again (C102) *)

From Verif Require Import Base StrModel Utf8Model TypesModel MarshalModel MarshalSpec JsonModel JsonSpec.
Local Open Scope list_scope.


(** The labels of the type are not repeated and consist of characters that JSON texts carry; no struct has 64 fields or more. *)
Inductive plain_labels : ty -> Prop :=
| pl_unit : plain_labels TUnit
| pl_prim p : plain_labels (TPrim p)
| pl_string : plain_labels TString
| pl_tuple ts : Forall plain_labels ts -> plain_labels (TTuple ts)
| pl_struct fs : (List.length fs < 64)%nat -> NoDup (map fst fs) -> Forall (fun f => Forall json_char (fst f) /\ plain_labels (snd f)) fs -> plain_labels (TStruct fs)
| pl_enum cs : NoDup (map fst cs) -> Forall (fun f => Forall json_char (fst f) /\ plain_labels (snd f)) cs -> plain_labels (TEnum cs).

(** [within t v u w]: the value [v] of type [t] is, or contains, the value [w] of type [u]. *)
Inductive within : ty -> val -> ty -> val -> Prop :=
| wi_here t v : within t v t v
| wi_tuple ts vs i t v u w : nth_error ts i = Some t -> nth_error vs i = Some v -> within t v u w -> within (TTuple ts) (VTuple vs) u w
| wi_struct fs vs i f v u w : nth_error fs i = Some f -> nth_error vs i = Some v -> within (snd f) v u w -> within (TStruct fs) (VStruct vs) u w
| wi_enum cs k c v u w : nth_error cs k = Some c -> within (snd c) v u w -> within (TEnum cs) (VCase k v) u w.

(** Every character of the value, alone or in a string, satisfies [P]. *)
Definition characters (P : Z -> Prop) (t : ty) (v : val) : Prop :=
  (forall c, within t v (TPrim PChar) (VPrim c) -> P c) /\
  (forall s, Forall (fun c => is_char c = true) s -> within t v TString (VStr (utf8_encode s)) -> Forall P s).

(** Every float of the value is read back from its text. *)
Definition floats_fit (fl : floats) (t : ty) (v : val) : Prop :=
  forall p z, p = PF32 \/ p = PF64 -> within t v (TPrim p) (VPrim z) -> float_ok fl p z.

(** The text is accepted for the type, and stands for the value. *)
Definition stands_for (alnum : Z -> bool) (fl : floats) (pf : profile) (t : ty) (text : str) (v : val) : Prop :=
  exists d, json_decode alnum fl pf t text [] = Ret (d, Ok tt) /\ presents (ds_source d) t [] v.

(** The text [s] is accepted, and writing what was read gives the text [s']. *)
Definition rewritten (alnum : Z -> bool) (fl : floats) (pf : profile) (t : ty) (s s' : str) : Prop :=
  exists d bs, json_decode alnum fl pf t s [] = Ret (d, Ok tt) /\ json_encode fl t (ds_source d) = Ret bs /\ utf8_decode bs = Some s'.
