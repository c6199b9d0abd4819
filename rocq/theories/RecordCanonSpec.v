(** * Vocabulary for records found in bytes (C84) *)

From Verif Require Import Base StrModel TypesModel MarshalModel MarshalSpec.

(** The primitive type [p] is used somewhere in [t]. *)
Inductive uses (p : prim) : ty -> Prop :=
| us_prim : uses p (TPrim p)
| us_tuple t ts : In t ts -> uses p t -> uses p (TTuple ts)
| us_struct f fs : In f fs -> uses p (snd f) -> uses p (TStruct fs)
| us_enum c cs : In c cs -> uses p (snd c) -> uses p (TEnum cs).

(** Not every bit pattern of its size is a value of these two types. *)
Definition picky (p : prim) : Prop := p = PBool \/ p = PChar.

(** The bytes hold a whole record of the layout, [n] bytes long. *)
Definition whole_record (pf : profile) (l : layout) (data : list byte) (n : nat) : Prop :=
  encoding_size pf l data = Ret n /\ n <= length data.
