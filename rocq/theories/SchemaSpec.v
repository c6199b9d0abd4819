(** * Specification vocabulary: changing the type of stored records *)

From Verif Require Import Base StrModel TypesModel MarshalModel FormatSpec.

(** Bytes of the tag of an enum with [n] cases when it has a container of its own. *)
Definition tag_width (n : nat) : nat :=
  let z := Z.of_nat n in
  if (z <=? 2 ^ 8)%Z then 1 else if (z <=? 2 ^ 16)%Z then 2 else if (z <=? 2 ^ 32)%Z then 4
  else if (z <=? 2 ^ 64)%Z then 8 else 16.

(** The alignment of the records of a type. *)
Fixpoint type_alignment (t : ty) : nat :=
  match t with
  | TUnit => 1
  | TPrim p => width p
  | TString => 4
  | TTuple ts => greatest (map type_alignment ts)
  | TStruct fs => greatest (map (fun f => type_alignment (snd f)) fs)
  | TEnum cs => Nat.max (tag_width (length cs)) (greatest (map (fun c => type_alignment (snd c)) cs))
  end.

(** Tags for [n] cases have as many bits as tags for [m] cases. *)
Definition same_tag_bits (n m : nat) : Prop :=
  forall b, (0 <= b)%Z -> (Z.of_nat n <= 2 ^ b <-> Z.of_nat m <= 2 ^ b)%Z.

(** [extended t t']: [t'] is [t] with fields and cases renamed, and with cases added at the end of enums, at any depth.
    An enum may grow as long as its tag keeps the number of bits and no new case needs a larger alignment than the old
    cases. *)
Inductive extended : ty -> ty -> Prop :=
| ex_unit : extended TUnit TUnit
| ex_prim p : extended (TPrim p) (TPrim p)
| ex_string : extended TString TString
| ex_tuple ts ts' : extended_list ts ts' -> extended (TTuple ts) (TTuple ts')
| ex_struct fs fs' : extended_list (map snd fs) (map snd fs') -> extended (TStruct fs) (TStruct fs')
| ex_enum cs cs' more :
    extended_list (map snd cs) (map snd cs') -> same_tag_bits (length cs) (length (cs' ++ more)) ->
    (forall c, In c more -> type_alignment (snd c) <= greatest (map (fun c => type_alignment (snd c)) cs)) ->
    extended (TEnum cs) (TEnum (cs' ++ more))
with extended_list : list ty -> list ty -> Prop :=
| el_nil : extended_list [] []
| el_cons t t' ts ts' : extended t t' -> extended_list ts ts' -> extended_list (t :: ts) (t' :: ts').

Scheme extended_mind := Minimality for extended Sort Prop
  with extended_list_mind := Minimality for extended_list Sort Prop.
