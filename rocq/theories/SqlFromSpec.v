(** * FROM clauses and WITH contexts (specification) *)

From Coq Require Import Sorting.Permutation Sorting.Sorted.
From Verif Require Import Base SqlNameModel SqlModel SqlSpec.

Section Spec.
Context (up : Z -> list Z).
Notation same := (name_eqb up).

(** [scope_of x t rels attrs]: the FROM item [t] puts the relations [rels] in scope and adds the columns [attrs].
    A table is known by its alias or else its last name. A subquery contributes columns but no relation. Join
    operators and join conditions play no part. *)
Inductive scope_of (x : set_context) : table_expr -> relations -> list attribute -> Prop :=
| so_named q alias r id :
    resolve_table up x q = ok r -> id = match alias with Some a => a | None => last q [] end ->
    scope_of x (TNamed q alias) [(id, r_attrs r)] (r_attrs r)
| so_select s alias r : infer_select up x s = ok r -> scope_of x (TSelect s alias) [] (r_attrs r)
| so_join l r op c rels1 rels2 a1 a2 :
    scope_of x l rels1 a1 -> scope_of x r rels2 a2 -> scope_of x (TJoin l r op c) (rels1 ++ rels2) (a1 ++ a2).

(** The items of a FROM clause. *)
Inductive scopes_of (x : set_context) : list table_expr -> relations -> list attribute -> Prop :=
| ss_nil : scopes_of x [] [] []
| ss_cons t ts rels1 rels2 a1 a2 :
    scope_of x t rels1 a1 -> scopes_of x ts rels2 a2 -> scopes_of x (t :: ts) (rels1 ++ rels2) (a1 ++ a2).

(** An optional condition of logical type. *)
Definition condition (x : set_context) (y : symbols) (e : option expr) : Prop :=
  match e with
  | None => True
  | Some e => exists null, infer up x y e = ok (TyScalar DLogical null)
  end.

(** Grouping expressions have some type, the HAVING condition is logical. *)
Definition grouping (x : set_context) (y : symbols) (g : option (list expr * option expr)) : Prop :=
  match g with
  | None => True
  | Some (es, having) => Forall (fun e => exists t, infer up x y e = ok t) es /\ condition x y having
  end.

(** The same columns in strictly increasing order of their names. *)
Definition by_name (attrs l : list attribute) : Prop :=
  Permutation attrs l /\ StronglySorted (fun a b => name_cmp up (a_name a) (a_name b) = Lt) l.

(** What one member of a select list asks for: an expression with a name, or the columns of a relation by name. *)
Definition wanted (x : set_context) (y : symbols) (rels : relations) (c : result_column) (l : list attribute) : Prop :=
  match c with
  | RExpr e rename =>
      exists t null, infer up x y e = ok (TyScalar t null) /\
        l = [{| a_name := match rename with Some n => n | None => [99; 111; 108]%Z (* col *) end; a_type := t; a_null := null |}]
  | RAllFrom r => exists n attrs, In (n, attrs) rels /\ same r n = true /\ by_name attrs l
  end.

(** The first column of the given name. *)
Definition first_named (attrs : list attribute) (n : name) (a : attribute) : Prop :=
  exists l1 l2, attrs = l1 ++ a :: l2 /\ same (a_name a) n = true /\ Forall (fun b => same (a_name b) n = false) l1.

End Spec.
