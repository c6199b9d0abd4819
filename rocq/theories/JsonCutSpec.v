(** * What the properties about cut and joined JSON documents say *)

From Verif Require Import Base StrModel TypesModel MarshalModel MarshalSpec.

(** Types whose documents are not numerals. *)
Definition not_numeric (t : ty) : Prop := forall p, t = TPrim p -> p = PBool \/ p = PChar.

(** [p] is the beginning of [a], and not all of it. *)
Definition cut (p a : str) : Prop := exists z, a = p ++ z /\ z <> [].
