(** * Statements on which validation does not panic (specification) *)

From Verif Require Import Base SqlNameModel SqlModel.

(** A row value. *)
Definition is_row (e : expr) : bool := match e with ETuple _ => true | _ => false end.

(** The WHEN clauses of a CASE: at least one, and if it is the only one its result is not a row value. *)
Definition case_shape (whens : list (expr * expr)) : bool :=
  match whens with
  | [] => false
  | [(_, body)] => negb (is_row body)
  | _ => true
  end.

Definition nonempty {A : Type} (l : list A) : bool := match l with [] => false | _ => true end.

(** No IN list, VALUES list or CASE is empty, and no CASE has a row value as its only result. *)
Fixpoint safe (e : expr) : bool :=
  match e with
  | ELiteral _ | EName _ => true
  | ETuple es => forallb safe es
  | ESelect s => safe_select s
  | EUnary _ e => safe e
  | EBinary _ l r | ECompare _ l r => safe l && safe r
  | EIn e s => safe e && safe_spec s
  | EBetween e lo hi => safe e && safe lo && safe hi
  | ECase o whens els =>
      match o with None => true | Some e => safe e end && case_shape whens &&
      forallb (fun p => safe (fst p) && safe (snd p)) whens && match els with None => true | Some e => safe e end
  end
with safe_spec (s : set_spec) : bool :=
  match s with
  | SpSelect s => safe_select s
  | SpList es => nonempty es && forallb safe es
  | SpName _ => true
  end
with safe_select (s : select) : bool :=
  match s with
  | Select common e order lim =>
      forallb safe_cte common && safe_set e && forallb (fun o => safe (fst (fst o))) order &&
      match lim with
      | None => true
      | Some (a, b) => safe a && match b with None => true | Some b => safe b end
      end
  end
with safe_cte (c : cte) : bool :=
  match c with
  | Cte _ _ q => safe_select q
  end
with safe_set (e : set_expr) : bool :=
  match e with
  | SValues rows => nonempty rows && forallb (forallb safe) rows
  | SQuery _ columns from wh group =>
      safe_columns columns && forallb safe_table from && match wh with None => true | Some e => safe e end &&
      match group with
      | None => true
      | Some (gs, having) => forallb safe gs && match having with None => true | Some e => safe e end
      end
  | SOp _ l r => safe_set l && safe_set r
  end
with safe_table (t : table_expr) : bool :=
  match t with
  | TNamed _ _ => true
  | TSelect s _ => safe_select s
  | TJoin l r _ _ => safe_table l && safe_table r
  end
with safe_columns (c : result_columns) : bool :=
  match c with
  | RAll => true
  | RList l => forallb safe_column l
  end
with safe_column (c : result_column) : bool :=
  match c with
  | RAllFrom _ => true
  | RExpr e _ => safe e
  end.

Definition safe_statement (s : statement) : bool :=
  match s with
  | StSelect s => safe_select s
  | StInsert i => safe_set (i_source i)
  | StDelete d => match d_where d with None => true | Some e => safe e end
  | StUpdate u => forallb (fun a => safe (snd a)) (u_assignments u) &&
                  match u_where u with None => true | Some e => safe e end
  end.

Definition safe_sql (s : sql_statement) : bool :=
  match s with
  | SqlStatement s | SqlExplain s => safe_statement s
  | SqlAttach _ _ | SqlDescribe _ => true
  end.

(** The default schema is one of the namespaces. *)
Definition registered (up : Z -> list Z) (x : set_context) : Prop := nget up (x_namespaces x) (x_default x) <> None.
