(** * Specification vocabulary: JSON texts read with another type (C105) *)

From Verif Require Import Base StrModel Utf8Model TypesModel MarshalModel MarshalSpec JsonModel JsonSpec.
Local Open Scope list_scope.
Local Open Scope Z_scope.

(** The case that a label stands for: the last one with it. *)
Definition last_case (cs : list (str * ty)) (k : nat) (l : str) (t : ty) : Prop :=
  nth_error cs k = Some (l, t) /\ forall k' t', nth_error cs k' = Some (l, t') -> (k' <= k)%nat.

(** [widens t t']: integers may get a type with more values, characters may become strings, the fields of a struct may be
    put in another order, an enum may get more cases and its cases may be put in another order. *)
Inductive widens : ty -> ty -> Prop :=
| wd_unit : widens TUnit TUnit
| wd_prim p : widens (TPrim p) (TPrim p)
| wd_integer p p' : integer_prim p -> integer_prim p' -> (forall z, in_range p z -> in_range p' z) -> widens (TPrim p) (TPrim p')
| wd_char : widens (TPrim PChar) TString
| wd_string : widens TString TString
| wd_tuple ts ts' : Forall2 widens ts ts' -> widens (TTuple ts) (TTuple ts')
| wd_struct fs fs' :
    List.length fs' = List.length fs -> NoDup (map fst fs') ->
    (forall l t, In (l, t) fs -> exists t', In (l, t') fs' /\ widens t t') -> widens (TStruct fs) (TStruct fs')
| wd_enum cs cs' :
    (forall k l t, last_case cs k l t -> exists k' t', last_case cs' k' l t' /\ widens t t') -> widens (TEnum cs) (TEnum cs').

(** [carried t v t' v']: the value [v] of type [t] and the value [v'] of type [t'] have the same numbers, strings and
    labels. *)
Inductive carried : ty -> val -> ty -> val -> Prop :=
| ca_unit : carried TUnit VUnit TUnit VUnit
| ca_prim p z : carried (TPrim p) (VPrim z) (TPrim p) (VPrim z)
| ca_integer p p' z : integer_prim p -> integer_prim p' -> carried (TPrim p) (VPrim z) (TPrim p') (VPrim z)
| ca_char c : carried (TPrim PChar) (VPrim c) TString (VStr (utf8_encode [c]))
| ca_string b : carried TString (VStr b) TString (VStr b)
| ca_tuple ts vs ts' vs' :
    List.length ts' = List.length ts -> List.length vs' = List.length ts ->
    (forall i t v, nth_error ts i = Some t -> nth_error vs i = Some v ->
      exists t' v', nth_error ts' i = Some t' /\ nth_error vs' i = Some v' /\ carried t v t' v') ->
    carried (TTuple ts) (VTuple vs) (TTuple ts') (VTuple vs')
| ca_struct fs vs fs' vs' :
    List.length fs' = List.length fs -> List.length vs' = List.length fs' ->
    (forall i l t v, nth_error fs i = Some (l, t) -> nth_error vs i = Some v ->
      exists j t' v', nth_error fs' j = Some (l, t') /\ nth_error vs' j = Some v' /\ carried t v t' v') ->
    carried (TStruct fs) (VStruct vs) (TStruct fs') (VStruct vs')
| ca_case cs k v cs' k' v' l t t' :
    last_case cs k l t -> last_case cs' k' l t' -> carried t v t' v' ->
    carried (TEnum cs) (VCase k v) (TEnum cs') (VCase k' v').
