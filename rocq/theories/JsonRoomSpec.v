(** * Specification vocabulary: the room a JSON text may take (C109) *)

From Verif Require Import Base StrModel Utf8Model TypesModel MarshalModel MarshalSpec JsonModel.
Local Open Scope list_scope.

(** Bytes for a string of [n] bytes: quotes, and six bytes for each one. *)
Definition string_room (n : nat) : nat := 2 + 6 * n.

(** Bytes for the number farthest from zero. *)
Definition prim_room (fl : floats) (p : prim) (z : Z) : nat :=
  match p with
  | PBool => 5
  | PChar => 8
  | PU8 => 3 | PI8 => 4 | PU16 => 5 | PI16 => 6 | PU32 => 10 | PI32 => 11 | PU64 => 20 | PI64 => 20 | PU128 => 39 | PI128 => 40
  | PF32 | PF64 => length (utf8_encode (show_float fl p z))
  end.

Fixpoint room (fl : floats) (t : ty) (v : val) {struct t} : nat :=
  match t, v with
  | TUnit, _ => 4
  | TPrim p, VPrim z => prim_room fl p z
  | TString, VStr bs => string_room (length bs)
  | TTuple ts, VTuple vs =>
      2 + (fix go (ts : list ty) (vs : list val) : nat :=
             match ts, vs with t :: ts, v :: vs => 1 + room fl t v + go ts vs | _, _ => 0 end) ts vs
  | TStruct fs, VStruct vs =>
      2 + (fix go (fs : list (str * ty)) (vs : list val) : nat :=
             match fs, vs with
             | (l, t) :: fs, v :: vs => 2 + string_room (length (utf8_encode l)) + room fl t v + go fs vs
             | _, _ => 0
             end) fs vs
  | TEnum cs, VCase k v =>
      (fix go (cs : list (str * ty)) (k : nat) : nat :=
         match cs, k with
         | (l, t) :: _, O => 18 + string_room (length (utf8_encode l)) + room fl t v
         | _ :: cs, S k => go cs k
         | [], _ => 0
         end) cs k
  | _, _ => 0
  end.
