(** * Model of core/types/mod.rs *)

From Verif Require Import Base StrModel.

(** src/core/types/mod.rs:30-46 [Primitive]. *)
Inductive prim : Type :=
| PBool | PChar | PU8 | PU16 | PU32 | PU64 | PU128 | PI8 | PI16 | PI32 | PI64 | PI128 | PF32 | PF64.

(** src/core/types/mod.rs:48-67 [Primitive::encoding_size]. *)
Definition prim_size (p : prim) : nat :=
  match p with
  | PBool | PU8 | PI8 => 1
  | PU16 | PI16 => 2
  | PChar | PU32 | PI32 | PF32 => 4
  | PU64 | PI64 | PF64 => 8
  | PU128 | PI128 => 16
  end.

(** src/core/types/mod.rs:98-149: [Field], [Case], [Kind], [Type]. A field or case is a (label, type) pair. *)
Inductive ty : Type :=
| TUnit
| TPrim (p : prim)
| TString
| TTuple (components : list ty)
| TStruct (fields : list (str * ty))
| TEnum (cases : list (str * ty)).

(** src/core/types/mod.rs:168-170 [Path]. *)
Definition path := list nat.

(** src/core/types/mod.rs:177-181 [with_component]. *)
Definition with_component (p : path) (i : nat) : path := p ++ [i].

(** src/core/types/mod.rs:114-122 and 126-134 [find_field_index], [find_case_index] (identical bodies). *)
Fixpoint find_label_from (k : nat) (l : list (str * ty)) (label : str) : option nat :=
  match l with
  | [] => None
  | (lab, _) :: l' => if str_eqb lab label then Some k else find_label_from (S k) l' label
  end.
Definition find_label (l : list (str * ty)) (label : str) : option nat := find_label_from 0 l label.

(** Indexing a composite type with one path component (the match in [extract]). *)
Definition child (t : ty) (i : nat) : outcome ty :=
  match t with
  | TEnum cs => match nth_error cs i with Some (_, t') => Ret t' | None => Panic end
  | TStruct fs => match nth_error fs i with Some (_, t') => Ret t' | None => Panic end
  | TTuple ts => match nth_error ts i with Some t' => Ret t' | None => Panic end
  | _ => Panic
  end.

(** src/core/types/mod.rs:152-165 [Type::extract]. *)
Fixpoint extract (t : ty) (p : path) : outcome ty :=
  match p with
  | [] => Ret t
  | i :: p' => t' <- child t i ;; extract t' p'
  end.

(** src/core/types/mod.rs:183-189 [is_prefix_of]. *)
Fixpoint path_eqb (p q : path) : bool :=
  match p, q with
  | [], [] => true
  | i :: p', j :: q' => (i =? j) && path_eqb p' q'
  | _, _ => false
  end.

Definition is_prefix_of (p q : path) : bool :=
  if length q <? length p then false else path_eqb p (firstn (length p) q).

(** src/core/types/mod.rs:191-197 [is_proper_prefix_of]. The comparison of [self.0.len()] with itself is the
    code's. *)
Definition is_proper_prefix_of (p q : path) : bool :=
  if length p =? length p then false else is_prefix_of p q.

(** src/core/types/mod.rs:261-275 [Ord for Path::cmp]: the loop over the common length, then the lengths. *)
Fixpoint cmp_common (p q : path) : comparison :=
  match p, q with
  | i :: p', j :: q' => if i <? j then Lt else if j <? i then Gt else cmp_common p' q'
  | _, _ => Eq
  end.

Definition path_cmp (p q : path) : comparison :=
  match cmp_common p q with
  | Eq => Nat.compare (length p) (length q)
  | c => c
  end.

(** Errors of [resolve_qualified_name]; the payload is the offending component. *)
Inductive resolve_error : Type :=
| InvalidCase (component : str)
| InvalidField (component : str)
| InvalidTuple (component : str)
| NotIndexable.

(** src/core/types/mod.rs:203-244 [resolve_qualified_name]: the loop over the components. *)
Fixpoint resolve_components (t : ty) (comps : list str) (acc : path) : result path resolve_error :=
  match comps with
  | [] => Ok acc
  | c :: rest =>
      match t with
      | TEnum cs =>
          match find_label cs c with
          | Some i => match nth_error cs i with
                      | Some (_, t') => resolve_components t' rest (acc ++ [i])
                      | None => Err (InvalidCase c) (* unreachable: find_label returns a valid index *)
                      end
          | None => Err (InvalidCase c)
          end
      | TStruct fs =>
          match find_label fs c with
          | Some i => match nth_error fs i with
                      | Some (_, t') => resolve_components t' rest (acc ++ [i])
                      | None => Err (InvalidField c) (* unreachable *)
                      end
          | None => Err (InvalidField c)
          end
      | TTuple ts =>
          match parse_usize c with
          | Some i => match nth_error ts i with
                      | Some t' => resolve_components t' rest (acc ++ [i])
                      | None => Err (InvalidTuple c)
                      end
          | None => Err (InvalidTuple c)
          end
      | _ => Err NotIndexable
      end
  end.

Definition resolve_qualified_name (t : ty) (name : str) : result path resolve_error :=
  resolve_components t (split_dot name) [].
