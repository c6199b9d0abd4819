(** * Specification vocabulary for layouts and marshalling *)

From Verif Require Import Base StrModel TypesModel MarshalModel.

(** ** Values *)

Inductive val : Type :=
| VUnit
| VPrim (z : Z)
| VStr (bytes : list byte)
| VTuple (vs : list val)
| VStruct (vs : list val)
| VCase (k : nat) (v : val).

(** Values of the primitive types. *)
Definition in_range (p : prim) (z : Z) : Prop :=
  match p with
  | PBool => z = 0 \/ z = 1
  | PChar => is_char z = true
  | PU8 | PU16 | PU32 | PU64 | PU128 | PF32 | PF64 => 0 <= z < 2 ^ (8 * Z.of_nat (prim_size p))
  | PI8 | PI16 | PI32 | PI64 | PI128 =>
      - 2 ^ (8 * Z.of_nat (prim_size p) - 1) <= z < 2 ^ (8 * Z.of_nat (prim_size p) - 1)
  end%Z.

(** Values of a type. Strings are bounded by the 32-bit length field. *)
Inductive typed : ty -> val -> Prop :=
| ty_unit : typed TUnit VUnit
| ty_prim p z : in_range p z -> typed (TPrim p) (VPrim z)
| ty_string bs : (Z.of_nat (length bs) < 2 ^ 32)%Z -> typed TString (VStr bs)
| ty_tuple ts vs : typed_list ts vs -> typed (TTuple ts) (VTuple vs)
| ty_struct fs vs : typed_list (map snd fs) vs -> typed (TStruct fs) (VStruct vs)
| ty_enum cs k l t v : nth_error cs k = Some (l, t) -> typed t v -> typed (TEnum cs) (VCase k v)
with typed_list : list ty -> list val -> Prop :=
| tl_nil : typed_list [] []
| tl_cons t ts v vs : typed t v -> typed_list ts vs -> typed_list (t :: ts) (v :: vs).

Scheme typed_mind := Minimality for typed Sort Prop
  with typed_list_mind := Minimality for typed_list Sort Prop.

(** [presents s t q v]: asked for the elements of the type [t] rooted at path [q], following the enum cases it
    reports itself, the source [s] answers with the value [v]. *)
Inductive presents (s : source) : ty -> path -> val -> Prop :=
| pr_unit q : presents s TUnit q VUnit
| pr_prim p q z : src_prim s p q = Ret z -> presents s (TPrim p) q (VPrim z)
| pr_string q bs :
    src_len s q = Ret (length bs) -> src_bytes s q = Ret bs -> presents s TString q (VStr bs)
| pr_tuple ts q vs : presents_list s ts q 0 vs -> presents s (TTuple ts) q (VTuple vs)
| pr_struct fs q vs : presents_list s (map snd fs) q 0 vs -> presents s (TStruct fs) q (VStruct vs)
| pr_enum cs q k l t v :
    src_tag s q = Ret k -> nth_error cs k = Some (l, t) -> presents s t (q ++ [k]) v ->
    presents s (TEnum cs) q (VCase k v)
with presents_list (s : source) : list ty -> path -> nat -> list val -> Prop :=
| pl_nil q k : presents_list s [] q k []
| pl_cons t ts q k v vs :
    presents s t (q ++ [k]) v -> presents_list s ts q (S k) vs -> presents_list s (t :: ts) q k (v :: vs).

Scheme presents_mind := Minimality for presents Sort Prop
  with presents_list_mind := Minimality for presents_list Sort Prop.

(** ** Geometry of a layout *)

(** Bytes occupied by a fixed field: its own, or those of its bit-field container. *)
Definition bytes_disjoint (f g : ffield) : Prop :=
  f_offset f + field_size f <= f_offset g \/ f_offset g + field_size g <= f_offset f.

(** Two tags in the same container with disjoint bit ranges. *)
Definition bits_disjoint (f g : ffield) : Prop :=
  exists p o n o' n',
    f_kind f = FBit p o n /\ f_kind g = FBit p o' n' /\ f_offset f = f_offset g /\
    (o + n <= o' \/ o' + n' <= o).

Definition no_overlap (f g : ffield) : Prop := bytes_disjoint f g \/ bits_disjoint f g.

(** A fixed field lies in the fixed part [0, size), naturally aligned; a tag lies inside its container, which is an
    unsigned integer. *)
Definition well_placed (size : nat) (f : ffield) : Prop :=
  f_offset f + field_size f <= size /\
  Nat.divide (field_size f) (f_offset f) /\
  match f_kind f with
  | FBit p o n => is_unsigned p = true /\ o + n <= 8 * prim_size p
  | FContainer _ _ => False
  | _ => True
  end.

(** A layout and all layouts nested in it satisfy [P]. *)
Inductive everywhere (P : layout -> Prop) : layout -> Prop :=
| ew_intro l :
    P l ->
    (forall v cases c, In v (l_vars l) -> v_kind v = VEnum cases -> In c cases -> everywhere P c) ->
    everywhere P l.

(** Which tags can be stored: the tag must not fill its container, and in a debug build must not start at its
    end (possible for the empty tags of single-case enums). *)
Definition storable (pf : profile) (f : ffield) : Prop :=
  match f_kind f with
  | FBit p o n => n < 8 * prim_size p /\ (pf = Debug -> o < 8 * prim_size p)
  | _ => True
  end.

Definition marshallable (pf : profile) (l : layout) : Prop :=
  everywhere (fun l' => Forall (storable pf) (l_fixed l')) l.

(** Tuples, structs and enums have members, everywhere in the type. *)
Inductive inhabited_type : ty -> Prop :=
| ih_unit : inhabited_type TUnit
| ih_prim p : inhabited_type (TPrim p)
| ih_string : inhabited_type TString
| ih_tuple ts : ts <> [] -> Forall inhabited_type ts -> inhabited_type (TTuple ts)
| ih_struct fs : fs <> [] -> Forall (fun f => inhabited_type (snd f)) fs -> inhabited_type (TStruct fs)
| ih_enum cs : cs <> [] -> Forall (fun c => inhabited_type (snd c)) cs -> inhabited_type (TEnum cs).

(** Number of nodes of a type. *)
Fixpoint ty_size (t : ty) : nat :=
  match t with
  | TUnit | TPrim _ | TString => 1
  | TTuple ts => S (list_sum (map ty_size ts))
  | TStruct fs => S (list_sum (map (fun f => ty_size (snd f)) fs))
  | TEnum cs => S (list_sum (map (fun c => ty_size (snd c)) cs))
  end.

(** Fewer than 2^59 nodes, so that sizes do not overflow [usize]. *)
Definition small (t : ty) : Prop := (Z.of_nat (ty_size t) < 2 ^ 59)%Z.

(** Numbers of cases whose tag needs exactly 8, 16, 32 or 64 bits. *)
Definition bad_case_count (n : nat) : Prop :=
  (2 ^ 7 < Z.of_nat n <= 2 ^ 8 \/ 2 ^ 15 < Z.of_nat n <= 2 ^ 16 \/
   2 ^ 31 < Z.of_nat n <= 2 ^ 32 \/ 2 ^ 63 < Z.of_nat n <= 2 ^ 64)%Z.

(** All enums of a type, at any depth, have a number of cases satisfying [P]. *)
Inductive all_enums (P : nat -> Prop) : ty -> Prop :=
| ae_unit : all_enums P TUnit
| ae_prim p : all_enums P (TPrim p)
| ae_string : all_enums P TString
| ae_tuple ts : Forall (all_enums P) ts -> all_enums P (TTuple ts)
| ae_struct fs : Forall (fun f => all_enums P (snd f)) fs -> all_enums P (TStruct fs)
| ae_enum cs : P (length cs) -> Forall (fun c => all_enums P (snd c)) cs -> all_enums P (TEnum cs).

(** Number of nodes and string bytes of a value. *)
Fixpoint val_size (v : val) : nat :=
  match v with
  | VUnit | VPrim _ => 1
  | VStr bs => S (length bs)
  | VTuple vs | VStruct vs => S (list_sum (map val_size vs))
  | VCase _ v => S (val_size v)
  end.

(** [reaches t r u]: following the member numbers [r] from [t] through tuples and structs, but into no enum
    payload, leads to the type [u]. *)
Inductive reaches : ty -> path -> ty -> Prop :=
| re_here t : reaches t [] t
| re_tuple ts k t r u : nth_error ts k = Some t -> reaches t r u -> reaches (TTuple ts) (k :: r) u
| re_struct fs k f r u : nth_error fs k = Some f -> reaches (snd f) r u -> reaches (TStruct fs) (k :: r) u.

(** The kind of fixed field an element of type [u] gets: a primitive its value, a string its length, an enum a tag
    with the least number of bits that can count its cases. *)
Definition field_for (u : ty) (k : fkind) : Prop :=
  match u, k with
  | TPrim p, FPrim p' => p' = p
  | TString, FLength => True
  | TEnum cs, FBit _ _ n =>
      (Z.of_nat (length cs) <= 2 ^ Z.of_nat n)%Z /\
      forall m, (Z.of_nat (length cs) <= 2 ^ Z.of_nat m)%Z -> n <= m
  | _, _ => False
  end.

Definition is_element (u : ty) : Prop := match u with TPrim _ | TString | TEnum _ => True | _ => False end.
