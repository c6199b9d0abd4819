(** * Result columns, set operations, FROM clauses and schema histories (specification) *)

From Coq Require Import Strings.String.
From Verif Require Import Base StrModel SqlNameModel SqlModel SqlSpec.
Local Open Scope list_scope.

Section Spec.
Context (up : Z -> list Z).
Notation same := (name_eqb up).

(** ** Labels of result columns *)

(** A decimal numeral without leading zeros. *)
Definition decimal (k : nat) (s : list Z) : Prop :=
  Forall (fun c => 48 <= c <= 57)%Z s /\ hd_error s <> Some 48%Z /\ fold_left (fun v c => 10 * v + (c - 48))%Z s 0%Z = Z.of_nat k.

(** The columns so far, the latest first: the requested name and the label given. How often [n] was requested since
    the latest column labelled [n]. *)
Fixpoint since (n : name) (h : list (name * name)) : nat :=
  match h with
  | [] => 0
  | (q, r) :: h' => if same n r then 0 else (if same n q then 1 else 0) + since n h'
  end.

(** [labels h requested given]: after the columns [h] the requested names get these labels. A name not in use
    as a label is kept; otherwise a number is appended. *)
Inductive labels : list (name * name) -> list name -> list name -> Prop :=
| lb_nil h : labels h [] []
| lb_keep h n ns gs :
    Forall (fun p => same n (snd p) = false) h -> labels ((n, n) :: h) ns gs -> labels h (n :: ns) (n :: gs)
| lb_number h n s ns gs :
    ~ Forall (fun p => same n (snd p) = false) h -> decimal (S (since n h)) s ->
    labels ((n, n ++ s) :: h) ns gs -> labels h (n :: ns) ((n ++ s) :: gs).

(** ** Set operations *)

(** The columns of a set operation: as many as both operands have, with the names on the left. *)
Definition merged (l r res : list attribute) : Prop :=
  List.length res = Nat.min (List.length l) (List.length r) /\
  forall i a b, nth_error l i = Some a -> nth_error r i = Some b ->
    a_type a = a_type b /\
    nth_error res i = Some {| a_name := a_name a; a_type := a_type a; a_null := a_null a || a_null b |}.

(** ** FROM *)

(** The tables named by a FROM item, with joins, without subqueries. *)
Fixpoint from_names (t : table_expr) : list (list name) :=
  match t with
  | TNamed q _ => [q]
  | TSelect _ _ => []
  | TJoin l r _ _ => from_names l ++ from_names r
  end.

(** ** Schema creations *)

Fixpoint creates (db : database) (l : list name) : outcome (database * list (result unit unit)) :=
  match l with
  | [] => Ret (db, [])
  | n :: l' => '(db1, r) <- create_schema up db n ;; '(db2, rs) <- creates db1 l' ;; Ret (db2, r :: rs)
  end.

End Spec.
