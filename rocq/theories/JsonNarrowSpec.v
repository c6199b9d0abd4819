(** * Specification vocabulary: JSON texts read with a narrower type (C108) *)

From Verif Require Import Base StrModel TypesModel MarshalModel MarshalSpec JsonModel JsonSpec JsonDocSpec JsonWidenSpec.
Local Open Scope list_scope.
Local Open Scope Z_scope.

(** [stretches t t']: a widening that changes no signed integer into an unsigned one or the other way round, and no
    character into a string. *)
Inductive stretches : ty -> ty -> Prop :=
| sx_unit : stretches TUnit TUnit
| sx_prim p : stretches (TPrim p) (TPrim p)
| sx_integer p p' : integer_prim p -> integer_prim p' -> (forall z, in_range p z -> in_range p' z) -> signed_prim p' = signed_prim p -> stretches (TPrim p) (TPrim p')
| sx_string : stretches TString TString
| sx_tuple ts ts' : Forall2 stretches ts ts' -> stretches (TTuple ts) (TTuple ts')
| sx_struct fs fs' :
    List.length fs' = List.length fs -> NoDup (map fst fs') ->
    (forall l t, In (l, t) fs -> exists t', In (l, t') fs' /\ stretches t t') -> stretches (TStruct fs) (TStruct fs')
| sx_enum cs cs' :
    (forall k l t, last_case cs k l t -> exists k' t', last_case cs' k' l t' /\ stretches t t') -> stretches (TEnum cs) (TEnum cs').
