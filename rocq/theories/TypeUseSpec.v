(** * Values of types that have a text *)

From Verif Require Import Base StrModel Utf8Model TypesModel MarshalModel MarshalSpec JsonModel JsonSpec.

(** The values JSON can carry if the labels of their types are no obstacle: as [jsonable], without its conditions on labels. *)
Inductive json_value (fl : floats) : ty -> val -> Prop :=
| jv_unit : json_value fl TUnit VUnit
| jv_prim p z : in_range p z -> (p = PChar -> json_char z) -> (p = PF32 \/ p = PF64 -> float_ok fl p z) -> json_value fl (TPrim p) (VPrim z)
| jv_string s : Forall json_char s -> json_value fl TString (VStr (utf8_encode s))
| jv_tuple ts vs : Forall2 (json_value fl) ts vs -> json_value fl (TTuple ts) (VTuple vs)
| jv_struct fs vs : (length fs < 64)%nat -> Forall2 (fun f v => json_value fl (snd f) v) fs vs -> json_value fl (TStruct fs) (VStruct vs)
| jv_enum cs k l t v : nth_error cs k = Some (l, t) -> json_value fl t v -> json_value fl (TEnum cs) (VCase k v).
