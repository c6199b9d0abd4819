(** * Specification vocabulary: what a data source was told *)

From Verif Require Import Base StrModel TypesModel MarshalModel MarshalSpec.

(** What can be done to a data source. *)
Inductive ds_op : Type :=
| DPrimitive (q : path) (p : prim) (z : Z)
| DString (q : path) (s : str)
| DCaseTag (q : path) (n : nat)
| DClear.

(** The operation says something about the element at [q]. *)
Definition about (q : path) (op : ds_op) : Prop :=
  match op with
  | DPrimitive q' _ _ | DString q' _ | DCaseTag q' _ => q' = q
  | DClear => True
  end.

(** [op] is the last operation of the history [h] that says something about [q]. *)
Definition last_word (h : list ds_op) (q : path) (op : ds_op) : Prop :=
  exists before after, h = before ++ op :: after /\ about q op /\ Forall (fun o => ~ about q o) after.

(** The places below [q] at which a value of the type [t] has something to say: its primitives, its strings, the tags of its
    enums. *)
Inductive place : ty -> val -> path -> path -> Prop :=
| pc_prim p z q : place (TPrim p) (VPrim z) q q
| pc_string bs q : place TString (VStr bs) q q
| pc_tag cs k v q : place (TEnum cs) (VCase k v) q q
| pc_case cs k l t v q p : nth_error cs k = Some (l, t) -> place t v (q ++ [k]) p -> place (TEnum cs) (VCase k v) q p
| pc_tuple ts vs i t v q p : nth_error ts i = Some t -> nth_error vs i = Some v -> place t v (q ++ [i]) p -> place (TTuple ts) (VTuple vs) q p
| pc_struct fs vs i l t v q p : nth_error fs i = Some (l, t) -> nth_error vs i = Some v -> place t v (q ++ [i]) p -> place (TStruct fs) (VStruct vs) q p.

(** The source has something to say at [p]. *)
Definition speaks (s : source) (p : path) : Prop :=
  (exists t z, src_prim s t p = Ret z) \/ (exists k, src_tag s p = Ret k) \/ (exists bs, src_bytes s p = Ret bs).
