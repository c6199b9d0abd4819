(** * Specification vocabulary: changing one number of a value *)

From Verif Require Import Base StrModel TypesModel MarshalModel MarshalSpec.

(** A list with one entry replaced. *)
Definition replaced {A} (l : list A) (k : nat) (x : A) (l' : list A) : Prop :=
  length l' = length l /\ nth_error l' k = Some x /\ forall i, i <> k -> nth_error l' i = nth_error l i.

(** [changed t v r p z v']: the value [v] of the type [t] has a number of the primitive type [p] at the path [r], and
    [v'] is [v] with [z] in its place. The path goes through the payload of a case only if [v] is that case. *)
Inductive changed : ty -> val -> path -> prim -> Z -> val -> Prop :=
| ch_here p z0 z : changed (TPrim p) (VPrim z0) [] p z (VPrim z)
| ch_tuple ts vs k r p z t v v' vs' :
    nth_error ts k = Some t -> nth_error vs k = Some v -> changed t v r p z v' -> replaced vs k v' vs' ->
    changed (TTuple ts) (VTuple vs) (k :: r) p z (VTuple vs')
| ch_struct fs vs k r p z f v v' vs' :
    nth_error fs k = Some f -> nth_error vs k = Some v -> changed (snd f) v r p z v' -> replaced vs k v' vs' ->
    changed (TStruct fs) (VStruct vs) (k :: r) p z (VStruct vs')
| ch_case cs k r p z l t v v' :
    nth_error cs k = Some (l, t) -> changed t v r p z v' ->
    changed (TEnum cs) (VCase k v) (k :: r) p z (VCase k v').
