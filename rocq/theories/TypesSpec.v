(** * Specification vocabulary for types and paths *)

From Verif Require Import Base StrModel TypesModel.

(** [q] extends [p]. *)
Definition extends (p q : path) : Prop := exists s, q = p ++ s.
Definition strictly_extends (p q : path) : Prop := exists s, s <> [] /\ q = p ++ s.

(** The element of type [t] at path [p] exists and has type [t']. *)
Inductive at_path : ty -> path -> ty -> Prop :=
| at_here t : at_path t [] t
| at_tuple ts i t' p u : nth_error ts i = Some t' -> at_path t' p u -> at_path (TTuple ts) (i :: p) u
| at_struct fs i l t' p u : nth_error fs i = Some (l, t') -> at_path t' p u -> at_path (TStruct fs) (i :: p) u
| at_enum cs i l t' p u : nth_error cs i = Some (l, t') -> at_path t' p u -> at_path (TEnum cs) (i :: p) u.

(** Member [i] of a labelled list is the first one with label [l]. *)
Definition first_labelled (ms : list (str * ty)) (l : str) (i : nat) (t : ty) : Prop :=
  nth_error ms i = Some (l, t) /\ forall j t', j < i -> nth_error ms j <> Some (l, t').

(** Decimal digits, at least one, and the number they denote. *)
Inductive decimal : str -> Z -> Prop :=
| dec_one d : (0 <= d <= 9)%Z -> decimal [(48 + d)%Z] d
| dec_more s n d : decimal s n -> (0 <= d <= 9)%Z -> decimal (s ++ [(48 + d)%Z]) (10 * n + d)%Z.

(** An index below 2^64 in decimal digits, with an optional plus sign. *)
Definition index_text (c : str) (i : nat) : Prop :=
  (Z.of_nat i < 2 ^ 64)%Z /\ exists ds, (c = ds \/ c = 43%Z :: ds) /\ decimal ds (Z.of_nat i).

(** Walking [p] through [t] spells the components [cs]: labels at structs and enums, an index at tuples. *)
Inductive spells : ty -> list str -> path -> Prop :=
| sp_nil t : spells t [] []
| sp_tuple ts c i t' cs p :
    index_text c i -> nth_error ts i = Some t' -> spells t' cs p -> spells (TTuple ts) (c :: cs) (i :: p)
| sp_struct fs c i t' cs p : first_labelled fs c i t' -> spells t' cs p -> spells (TStruct fs) (c :: cs) (i :: p)
| sp_enum vs c i t' cs p : first_labelled vs c i t' -> spells t' cs p -> spells (TEnum vs) (c :: cs) (i :: p).

(** A name is its components with dots between them; no component has a dot. *)
Inductive dotted : list str -> str -> Prop :=
| dot_one c : ~ In 46%Z c -> dotted [c] c
| dot_more c cs s : ~ In 46%Z c -> dotted cs s -> dotted (c :: cs) (c ++ 46%Z :: s).

(** An element of type [u] has no member called [c], and this is the error that says so. *)
Definition refused (u : ty) (c : str) (e : resolve_error) : Prop :=
  match u, e with
  | TEnum cs, InvalidCase c' => c' = c /\ ~ In c (map fst cs)
  | TStruct fs, InvalidField c' => c' = c /\ ~ In c (map fst fs)
  | TTuple ts, InvalidTuple c' => c' = c /\ forall i, index_text c i -> length ts <= i
  | (TUnit | TPrim _ | TString), NotIndexable => True
  | _, _ => False
  end.

(** The dotted name of the element at a path. *)
Fixpoint name_components (t : ty) (p : path) : list str :=
  match p with
  | [] => []
  | i :: p' =>
      match t with
      | TTuple ts => match nth_error ts i with
                     | Some t' => show_int (Z.of_nat i) :: name_components t' p' | None => [] end
      | TStruct ms | TEnum ms => match nth_error ms i with
                     | Some (l, t') => l :: name_components t' p' | None => [] end
      | _ => []
      end
  end.

(** Sibling labels are distinct and dot-free, everywhere in the type. *)
Inductive good_labels : ty -> Prop :=
| gl_unit : good_labels TUnit
| gl_prim p : good_labels (TPrim p)
| gl_string : good_labels TString
| gl_tuple ts : Forall good_labels ts -> good_labels (TTuple ts)
| gl_struct fs : NoDup (map fst fs) -> Forall (fun f => ~ In 46%Z (fst f)) fs ->
                 Forall (fun f => good_labels (snd f)) fs -> good_labels (TStruct fs)
| gl_enum cs : NoDup (map fst cs) -> Forall (fun c => ~ In 46%Z (fst c)) cs ->
               Forall (fun c => good_labels (snd c)) cs -> good_labels (TEnum cs).
