(** * Renaming (specification) *)

From Verif Require Import Base SqlNameModel SqlModel SqlRespell.

(** A renaming keeps names apart that differ, and names together that differ in case only. *)
Definition renaming (up : Z -> list Z) (f : name -> name) : Prop :=
  forall a b, name_eqb up (f a) (f b) = name_eqb up a b.

(** Exchanging two names. *)
Definition exchange (up : Z -> list Z) (a b : name) (n : name) : name :=
  if name_eqb up n a then b else if name_eqb up n b then a else n.

(** The types and the nullability of columns. *)
Definition column_types (l : list attribute) : list (data_type * bool) := map (fun a => (a_type a, a_null a)) l.

(** ** Statements in which generated names and the order of names do not matter

    No WITH, no [t.*] (whose columns come in the order of their names), and INSERT with a list of columns. *)

Fixpoint simple_expr (e : expr) : bool :=
  match e with
  | ELiteral _ | EName _ => true
  | ETuple es => forallb simple_expr es
  | ESelect s => simple_select s
  | EUnary _ e => simple_expr e
  | EBinary _ l r | ECompare _ l r => simple_expr l && simple_expr r
  | EIn e s => simple_expr e && simple_spec s
  | EBetween e lo hi => simple_expr e && (simple_expr lo && simple_expr hi)
  | ECase o whens els =>
      match o with None => true | Some e => simple_expr e end &&
      (forallb (fun p => simple_expr (fst p) && simple_expr (snd p)) whens &&
       match els with None => true | Some e => simple_expr e end)
  end
with simple_spec (s : set_spec) : bool :=
  match s with
  | SpSelect s => simple_select s
  | SpList es => forallb simple_expr es
  | SpName _ => true
  end
with simple_select (s : select) : bool :=
  match s with
  | Select common e order lim =>
      match common with [] => true | _ :: _ => false end &&
      (simple_set e && (forallb (fun o => simple_expr (fst (fst o))) order &&
       match lim with
       | None => true
       | Some l => simple_expr (fst l) && match snd l with None => true | Some e => simple_expr e end
       end))
  end
with simple_set (e : set_expr) : bool :=
  match e with
  | SValues rows => forallb (forallb simple_expr) rows
  | SQuery _ columns from wh group =>
      simple_columns columns && (forallb simple_from from && (match wh with None => true | Some e => simple_expr e end &&
      match group with
      | None => true
      | Some g => forallb simple_expr (fst g) && match snd g with None => true | Some e => simple_expr e end
      end))
  | SOp _ l r => simple_set l && simple_set r
  end
with simple_from (t : table_expr) : bool :=
  match t with
  | TNamed _ _ => true
  | TSelect s _ => simple_select s
  | TJoin l r _ _ => simple_from l && simple_from r
  end
with simple_columns (c : result_columns) : bool :=
  match c with
  | RAll => true
  | RList l => forallb simple_column l
  end
with simple_column (c : result_column) : bool :=
  match c with
  | RAllFrom _ => false
  | RExpr e _ => simple_expr e
  end.

Definition simple_where (o : option expr) : bool := match o with None => true | Some e => simple_expr e end.

Definition simple_statement (s : statement) : bool :=
  match s with
  | StSelect s => simple_select s
  | StInsert i => match i_columns i with None => false | Some _ => simple_set (i_source i) end
  | StDelete d => simple_where (d_where d)
  | StUpdate u => forallb (fun a => simple_expr (snd a)) (u_assignments u) && simple_where (u_where u)
  end.

Definition simple (s : sql_statement) : bool :=
  match s with
  | SqlStatement s | SqlExplain s => simple_statement s
  | SqlAttach _ _ | SqlDescribe _ => true
  end.

(** The names of a catalog. *)
Definition catalog_names (db : database) : list name :=
  flat_map (fun e => fst e :: s_name (snd e) ::
    flat_map (fun o => fst o :: map c_name (object_rows (snd o)) ++ match snd o with OTable _ key => key | OView _ _ => [] end) (s_objects (snd e))) db.
