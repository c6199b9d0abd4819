(** * Specification vocabulary: parts of JSON documents (C104) *)

From Verif Require Import Base StrModel TypesModel MarshalModel MarshalSpec.
Local Open Scope list_scope.

(** [component t v q u w]: the value [v] of type [t] has at the place [q] the value [w] of type [u]. A place is given by
    the number of the element, field or case at each level. *)
Inductive component : ty -> val -> list nat -> ty -> val -> Prop :=
| cp_here t v : component t v [] t v
| cp_tuple ts vs i t v q u w :
    nth_error ts i = Some t -> nth_error vs i = Some v -> component t v q u w -> component (TTuple ts) (VTuple vs) (i :: q) u w
| cp_struct fs vs i l t v q u w :
    nth_error fs i = Some (l, t) -> nth_error vs i = Some v -> component t v q u w -> component (TStruct fs) (VStruct vs) (i :: q) u w
| cp_case cs k l t v q u w :
    nth_error cs k = Some (l, t) -> component t v q u w -> component (TEnum cs) (VCase k v) (k :: q) u w.

(** [replaced q w v v']: the value [v'] is [v] with [w] at the place [q]. *)
Inductive replaced : list nat -> val -> val -> val -> Prop :=
| rp_here w v : replaced [] w v w
| rp_tuple a v v' b q w : replaced q w v v' -> replaced (List.length a :: q) w (VTuple (a ++ v :: b)) (VTuple (a ++ v' :: b))
| rp_struct a v v' b q w : replaced q w v v' -> replaced (List.length a :: q) w (VStruct (a ++ v :: b)) (VStruct (a ++ v' :: b))
| rp_case k v v' q w : replaced q w v v' -> replaced (k :: q) w (VCase k v) (VCase k v').
