(** * Specification vocabulary: the bytes of an encoded record *)

From Verif Require Import Base StrModel TypesModel MarshalModel.

(** ** Sizes *)

(** Bytes of a value of a primitive type. *)
Definition width (p : prim) : nat :=
  match p with
  | PBool | PU8 | PI8 => 1
  | PU16 | PI16 => 2
  | PChar | PU32 | PI32 | PF32 => 4
  | PU64 | PI64 | PF64 => 8
  | PU128 | PI128 => 16
  end.

Definition unsigned (p : prim) : Prop := In p [PU8; PU16; PU32; PU64; PU128].

(** Bytes of a fixed field: the value, the 32-bit length of a string, or the container of a tag. *)
Definition field_width (f : ffield) : nat :=
  match f_kind f with
  | FLength => 4
  | FPrim p | FContainer _ p | FBit p _ _ => width p
  end.

Definition is_tag (f : ffield) : Prop := match f_kind f with FBit _ _ _ => True | _ => False end.

(** The greatest of 1 and some numbers. *)
Definition greatest (l : list nat) : nat := fold_right Nat.max 1 l.

(** The payloads of an enum are aligned for each of its cases; strings are not aligned. *)
Definition part_alignment (v : vfield layout) : nat :=
  match v_kind v with
  | VString => 1
  | VEnum cases => greatest (map l_align cases)
  end.

(** [y] is the next multiple of [a] from [x] on. *)
Definition next_multiple (a x y : nat) : Prop :=
  Nat.divide a y /\ x <= y /\ forall m, Nat.divide a m -> x <= m -> y <= m.

(** ** Order *)

(** The order of elements in the text of a type: lexicographic order of paths. *)
Definition before (p q : path) : Prop :=
  exists r i j s u, p = r ++ i :: s /\ q = r ++ j :: u /\ i < j.

(** Order of the fixed fields: wide fields first; of the same width, the values and lengths in the order of the type,
    then the containers of tags. *)
Definition goes_first (f g : ffield) : Prop :=
  field_width g < field_width f \/
  field_width f = field_width g /\ (is_tag g \/ ~ is_tag f /\ before (f_path f) (f_path g)).

Definition tag_bits_of (f : ffield) : nat := match f_kind f with FBit _ _ n => n | _ => 0 end.

(** Order in which tags are packed: long ones first, then in the order of the type. *)
Definition packed_first (f g : ffield) : Prop :=
  tag_bits_of g < tag_bits_of f \/ tag_bits_of f = tag_bits_of g /\ before (f_path f) (f_path g).

(** Order of the variable parts: large alignments first, then in the order of the type. *)
Definition part_first (v w : vfield layout) : Prop :=
  part_alignment w < part_alignment v \/ part_alignment v = part_alignment w /\ before (v_path v) (v_path w).

(** Bits taken by the tags among [l] in the container at the offset [o]. *)
Fixpoint used (l : list ffield) (o : nat) : nat :=
  match l with
  | [] => 0
  | f :: l' => (if f_offset f =? o then tag_bits_of f else 0) + used l' o
  end.

(** The tag [f] after the tags in [pre]: it comes right after those in its container; the containers further to the left
    had no room for it; if it is the first in its container, that is the last one and the smallest that is large
    enough. *)
Definition packed_next (pre : list ffield) (f : ffield) : Prop :=
  match f_kind f with
  | FBit p o n =>
      unsigned p /\ o = used pre (f_offset f) /\ o + n <= 8 * width p /\
      (forall g, In g pre -> is_tag g -> f_offset g < f_offset f -> 8 * field_width g < used pre (f_offset g) + n) /\
      ((forall g, In g pre -> is_tag g -> f_offset g <> f_offset f) ->
       (forall g, In g pre -> is_tag g -> f_offset g < f_offset f) /\
       (forall p', unsigned p' -> n <= 8 * width p' -> width p <= width p'))
  | _ => True
  end.

(** ** Bits *)

(** Bit [x] of a buffer, counted from the lowest bit of the first byte. *)
Definition bit_of (buf : list byte) (x : nat) : option bool :=
  match nth_error buf (x / 8) with
  | Some b => Some (N.testbit (Byte.to_N b) (N.of_nat (x mod 8)))
  | None => None
  end.

(** First bit and number of bits of a fixed field. *)
Definition first_bit (f : ffield) : nat :=
  match f_kind f with FBit _ o _ => 8 * f_offset f + o | _ => 8 * f_offset f end.
Definition bit_count (f : ffield) : nat :=
  match f_kind f with FBit _ _ n => n | _ => 8 * field_width f end.
Definition in_field (f : ffield) (x : nat) : Prop := first_bit f <= x < first_bit f + bit_count f.

(** The number a source has for a fixed field. *)
Definition number_for (src : source) (f : ffield) (z : Z) : Prop :=
  match f_kind f with
  | FPrim p => src_prim src p (f_path f) = Ret z
  | FLength => exists n, src_len src (f_path f) = Ret n /\ z = Z.of_nat n
  | FBit _ _ _ => exists k, src_tag src (f_path f) = Ret k /\ z = Z.of_nat k
  | FContainer _ _ => False
  end.

(** [image src l old new n]: the first [n] bytes of [new] are the record which [src] presents, laid out by [l] and
    written over [old]. Numbers are in two's complement, lowest bit first. Bits that belong to nothing are those of
    [old]. The variable parts follow each other; a payload is the image of the case. *)
Inductive image (src : source) : layout -> list byte -> list byte -> nat -> Prop :=
| im_intro l old new o n :
    (forall f, In f (l_fixed l) -> exists z, number_for src f z /\
       forall j, j < bit_count f -> bit_of new (first_bit f + j) = Some (Z.testbit z (Z.of_nat j))) ->
    (forall x, x < 8 * l_var_off l -> (forall f, In f (l_fixed l) -> ~ in_field f x) -> bit_of new x = bit_of old x) ->
    parts src (l_vars l) old new (l_var_off l) o ->
    next_multiple (l_align l) o n ->
    (forall i, o <= i < n -> nth_error new i = nth_error old i) ->
    image src l old new n
with parts (src : source) : list (vfield layout) -> list byte -> list byte -> nat -> nat -> Prop :=
| ps_nil old new o : parts src [] old new o o
| ps_string v vs old new o o' bs :
    v_kind v = VString -> src_bytes src (v_path v) = Ret bs ->
    (forall i, i < length bs -> nth_error new (o + i) = nth_error bs i) ->
    parts src vs old new (o + length bs) o' -> parts src (v :: vs) old new o o'
| ps_case v vs old new o o' cases k c n :
    v_kind v = VEnum cases -> src_tag src (v_path v) = Ret k -> nth_error cases k = Some c ->
    image src c (skipn o old) (skipn o new) n ->
    parts src vs old new (o + n) o' -> parts src (v :: vs) old new o o'.

Scheme image_mind := Minimality for image Sort Prop
  with parts_mind := Minimality for parts Sort Prop.
