(** * Tables with more columns (specification) *)

From Verif Require Import Base SqlNameModel SqlModel SqlRespell.

(** ** Columns added *)

(** The second list is the first with some elements put in, each of them [new]. *)
Inductive grown {A : Type} (new : A -> Prop) : list A -> list A -> Prop :=
| grown_nil : grown new [] []
| grown_keep a l l' : grown new l l' -> grown new (a :: l) (a :: l')
| grown_new a l l' : new a -> grown new l l' -> grown new l (a :: l').

(** One of the names, up to the case of letters. *)
Definition among (up : Z -> list Z) (names : list name) (n : name) : bool := existsb (name_eqb up n) names.

(** The second database is the first with columns of these names added to some tables. *)
Definition columns_added (up : Z -> list Z) (names : list name) (db db' : database) : Prop :=
  Forall2 (fun e e' => fst e' = fst e /\
    Forall2 (fun o o' => fst o' = fst o /\
      grown (fun c => among up names (c_name c) = true) (object_rows (snd o)) (object_rows (snd o')))
      (s_objects (snd e)) (s_objects (snd e'))) db db'.

(** The same, where the columns added are nullable and have names that the table did not have. *)
Definition null_columns_added (up : Z -> list Z) (names : list name) (db db' : database) : Prop :=
  Forall2 (fun e e' => fst e' = fst e /\
    Forall2 (fun o o' => fst o' = fst o /\
      grown (fun c => among up names (c_name c) = true /\ c_not_null c = false) (object_rows (snd o)) (object_rows (snd o')) /\
      (object_rows (snd o') = object_rows (snd o) \/
       Forall (fun c => among up names (c_name c) = false) (object_rows (snd o))))
      (s_objects (snd e)) (s_objects (snd e'))) db db'.

(** ** What a statement says about columns

    The references to columns, the wildcards, and the tables used as the set of an IN. The conditions of joins are never
    looked at. *)

Inductive use : Type :=
| UseColumn (q : list name)
| UseAll
| UseTable (q : list name).

Fixpoint uses_expr (e : expr) : list use :=
  match e with
  | ELiteral _ => []
  | EName q => [UseColumn q]
  | ETuple es => flat_map uses_expr es
  | ESelect s => uses_select s
  | EUnary _ e => uses_expr e
  | EBinary _ l r | ECompare _ l r => uses_expr l ++ uses_expr r
  | EIn e s => uses_expr e ++ uses_spec s
  | EBetween e lo hi => uses_expr e ++ uses_expr lo ++ uses_expr hi
  | ECase o whens els =>
      match o with None => [] | Some e => uses_expr e end ++
      flat_map (fun p => uses_expr (fst p) ++ uses_expr (snd p)) whens ++
      match els with None => [] | Some e => uses_expr e end
  end
with uses_spec (s : set_spec) : list use :=
  match s with
  | SpSelect s => uses_select s
  | SpList es => flat_map uses_expr es
  | SpName q => [UseTable q]
  end
with uses_select (s : select) : list use :=
  match s with
  | Select common e order lim =>
      flat_map uses_cte common ++ uses_set e ++ flat_map (fun o => uses_expr (fst (fst o))) order ++
      match lim with
      | None => []
      | Some l => uses_expr (fst l) ++ match snd l with None => [] | Some e => uses_expr e end
      end
  end
with uses_cte (c : cte) : list use :=
  match c with
  | Cte _ _ q => uses_select q
  end
with uses_set (e : set_expr) : list use :=
  match e with
  | SValues rows => flat_map (flat_map uses_expr) rows
  | SQuery _ columns from wh group =>
      uses_columns columns ++ flat_map uses_from from ++ match wh with None => [] | Some e => uses_expr e end ++
      match group with
      | None => []
      | Some g => flat_map uses_expr (fst g) ++ match snd g with None => [] | Some e => uses_expr e end
      end
  | SOp _ l r => uses_set l ++ uses_set r
  end
with uses_from (t : table_expr) : list use :=
  match t with
  | TNamed _ _ => []
  | TSelect s _ => uses_select s
  | TJoin l r _ _ => uses_from l ++ uses_from r
  end
with uses_columns (c : result_columns) : list use :=
  match c with
  | RAll => [UseAll]
  | RList l => flat_map uses_column l
  end
with uses_column (c : result_column) : list use :=
  match c with
  | RAllFrom _ => [UseAll]
  | RExpr e _ => uses_expr e
  end.

Definition uses_where (o : option expr) : list use := match o with None => [] | Some e => uses_expr e end.

(** The target columns of INSERT and UPDATE are columns too. *)
Definition uses_of (s : sql_statement) : list use :=
  match s with
  | SqlStatement s | SqlExplain s =>
      match s with
      | StSelect s => uses_select s
      | StInsert i => map (fun n => UseColumn [n]) match i_columns i with None => [] | Some l => l end ++ uses_set (i_source i)
      | StDelete d => uses_where (d_where d)
      | StUpdate u =>
          flat_map (fun a => map (fun n => UseColumn [n]) (fst a) ++ uses_expr (snd a)) (u_assignments u) ++
          uses_where (u_where u)
      end
  | SqlAttach _ _ | SqlDescribe _ => []
  end.

(** No wildcard, no table as a set, and no column of one of these names. *)
Definition spares (up : Z -> list Z) (names : list name) (us : list use) : Prop :=
  Forall (fun u => match u with
                   | UseColumn q => forall p n, q = p ++ [n] -> among up names n = false
                   | UseAll | UseTable _ => False
                   end) us.

(** An INSERT without a list of columns, and an INSERT of any kind. *)
Definition insert_of (s : sql_statement) : option insert :=
  match s with
  | SqlStatement (StInsert i) | SqlExplain (StInsert i) => Some i
  | _ => None
  end.
