(** * Specification of records kept on slotted pages: a plain list of values *)

From Verif Require Import Base TypesModel MarshalModel MarshalSpec NsmModel NsmSpec.

(** Operations on the plain list of values. *)
Inductive val_op : Type :=
| VAppend (v : val)
| VInsert (index : nat) (v : val)
| VRemove (index : nat).

Definition val_step (vs : list val) (op : val_op) : list val :=
  match op with
  | VAppend v => vs ++ [v]
  | VInsert i v => firstn i vs ++ v :: skipn i vs
  | VRemove i => firstn i vs ++ skipn (S i) vs
  end.

(** [row] is what some call of the encoder left in front of its buffer for the value [v] of type [t]; the source and the
    previous content of the buffer are arbitrary. *)
Definition record_of (pf : profile) (t : ty) (l : layout) (v : val) (row : list byte) : Prop :=
  exists src n buf buf', presents src t [] v /\ typed t v /\ encoding_size_with_source src l = Ret n /\ n <= length buf /\
    encode_with_source pf src l buf = Ret (buf', n) /\ row = firstn n buf'.

(** The page operation that does to the page what [vop] does to the list. *)
Inductive stores (pf : profile) (t : ty) (l : layout) : val_op -> page_op -> Prop :=
| st_append v row : record_of pf t l v row -> stores pf t l (VAppend v) (OpAppend row)
| st_insert i v row : record_of pf t l v row -> stores pf t l (VInsert i v) (OpInsert i row)
| st_remove i : stores pf t l (VRemove i) (OpRemove i).
