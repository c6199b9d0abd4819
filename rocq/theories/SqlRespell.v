(** * Respelling the names of a statement, and the tables it mentions (specification) *)

From Verif Require Import Base SqlNameModel SqlModel.

(** ** Respelling *)

Section Respell.
Variable f : name -> name.

(** Every name replaced by [f]; literals are no names. *)
Fixpoint re_expr (e : expr) : expr :=
  match e with
  | ELiteral l => ELiteral l
  | EName q => EName (map f q)
  | ETuple es => ETuple (map re_expr es)
  | ESelect s => ESelect (re_select s)
  | EUnary op e => EUnary op (re_expr e)
  | EBinary op l r => EBinary op (re_expr l) (re_expr r)
  | ECompare op l r => ECompare op (re_expr l) (re_expr r)
  | EIn e s => EIn (re_expr e) (re_spec s)
  | EBetween e lo hi => EBetween (re_expr e) (re_expr lo) (re_expr hi)
  | ECase o whens els =>
      ECase (option_map re_expr o) (map (fun p => (re_expr (fst p), re_expr (snd p))) whens) (option_map re_expr els)
  end
with re_spec (s : set_spec) : set_spec :=
  match s with
  | SpSelect s => SpSelect (re_select s)
  | SpList es => SpList (map re_expr es)
  | SpName q => SpName (map f q)
  end
with re_select (s : select) : select :=
  match s with
  | Select common e order lim =>
      Select (map re_cte common) (re_set e)
        (map (fun o => (re_expr (fst (fst o)), option_map f (snd (fst o)), snd o)) order)
        (option_map (fun l => (re_expr (fst l), option_map re_expr (snd l))) lim)
  end
with re_cte (c : cte) : cte :=
  match c with
  | Cte id columns q => Cte (f id) (option_map (map f) columns) (re_select q)
  end
with re_set (e : set_expr) : set_expr :=
  match e with
  | SValues rows => SValues (map (map re_expr) rows)
  | SQuery mode columns from wh group =>
      SQuery mode (re_columns columns) (map re_table from) (option_map re_expr wh)
        (option_map (fun g => (map re_expr (fst g), option_map re_expr (snd g))) group)
  | SOp op l r => SOp op (re_set l) (re_set r)
  end
with re_table (t : table_expr) : table_expr :=
  match t with
  | TNamed q alias => TNamed (map f q) (option_map f alias)
  | TSelect s alias => TSelect (re_select s) (option_map f alias)
  | TJoin l r op c => TJoin (re_table l) (re_table r) op (re_constraint c)
  end
with re_constraint (c : join_constraint) : join_constraint :=
  match c with
  | JExpr e => JExpr (re_expr e)
  | JColumns l => JColumns (map f l)
  end
with re_columns (c : result_columns) : result_columns :=
  match c with
  | RAll => RAll
  | RList l => RList (map re_column l)
  end
with re_column (c : result_column) : result_column :=
  match c with
  | RAllFrom n => RAllFrom (f n)
  | RExpr e rename => RExpr (re_expr e) (option_map f rename)
  end.

Definition re_statement (s : statement) : statement :=
  match s with
  | StSelect s => StSelect (re_select s)
  | StInsert i =>
      StInsert {| i_table := map f (i_table i); i_columns := option_map (map f) (i_columns i); i_source := re_set (i_source i) |}
  | StDelete d => StDelete {| d_table := map f (d_table d); d_where := option_map re_expr (d_where d) |}
  | StUpdate u =>
      StUpdate {| u_table := map f (u_table u);
                  u_assignments := map (fun a => (map f (fst a), re_expr (snd a))) (u_assignments u);
                  u_where := option_map re_expr (u_where u) |}
  end.

Definition respell (s : sql_statement) : sql_statement :=
  match s with
  | SqlStatement s => SqlStatement (re_statement s)
  | SqlExplain s => SqlExplain (re_statement s)
  | SqlAttach q path => SqlAttach (map f q) path
  | SqlDescribe q => SqlDescribe (map f q)
  end.

(** The names of schemas, tables, views and columns of a database. *)
Definition re_column_def (c : column) : column :=
  {| c_name := f (c_name c); c_not_null := c_not_null c; c_primary := c_primary c; c_type := c_type c |}.

Definition re_object (o : schema_object) : schema_object :=
  match o with
  | OTable rows key => OTable (map re_column_def rows) (map f key)
  | OView rows query => OView (map re_column_def rows) query
  end.

Definition re_schema (s : schema) : schema :=
  {| s_name := f (s_name s); s_objects := map (fun e => (f (fst e), re_object (snd e))) (s_objects s) |}.

Definition re_database (db : database) : database := map (fun e => (f (fst e), re_schema (snd e))) db.
End Respell.

(** The same up to the case of letters in names: equal once all names are written in upper case. *)
Definition same_statement (up : Z -> list Z) (s s' : sql_statement) : Prop := respell (upper up) s = respell (upper up) s'.
Definition same_query (up : Z -> list Z) (s s' : select) : Prop := re_select (upper up) s = re_select (upper up) s'.
Definition same_database (up : Z -> list Z) (db db' : database) : Prop := re_database (upper up) db = re_database (upper up) db'.
Definition same_columns (up : Z -> list Z) (l l' : list attribute) : Prop :=
  map (fun a => (upper up (a_name a), a_type a, a_null a)) l = map (fun a => (upper up (a_name a), a_type a, a_null a)) l'.

(** ** The tables mentioned; the conditions of joins are never looked at. *)

Fixpoint tables_expr (e : expr) : list (list name) :=
  match e with
  | ELiteral _ | EName _ => []
  | ETuple es => flat_map tables_expr es
  | ESelect s => tables_select s
  | EUnary _ e => tables_expr e
  | EBinary _ l r | ECompare _ l r => tables_expr l ++ tables_expr r
  | EIn e s => tables_expr e ++ tables_spec s
  | EBetween e lo hi => tables_expr e ++ tables_expr lo ++ tables_expr hi
  | ECase o whens els =>
      match o with None => [] | Some e => tables_expr e end ++
      flat_map (fun p => tables_expr (fst p) ++ tables_expr (snd p)) whens ++
      match els with None => [] | Some e => tables_expr e end
  end
with tables_spec (s : set_spec) : list (list name) :=
  match s with
  | SpSelect s => tables_select s
  | SpList es => flat_map tables_expr es
  | SpName q => [q]
  end
with tables_select (s : select) : list (list name) :=
  match s with
  | Select common e order lim =>
      flat_map tables_cte common ++ tables_set e ++ flat_map (fun o => tables_expr (fst (fst o))) order ++
      match lim with
      | None => []
      | Some l => tables_expr (fst l) ++ match snd l with None => [] | Some e => tables_expr e end
      end
  end
with tables_cte (c : cte) : list (list name) :=
  match c with
  | Cte _ _ q => tables_select q
  end
with tables_set (e : set_expr) : list (list name) :=
  match e with
  | SValues rows => flat_map (flat_map tables_expr) rows
  | SQuery _ columns from wh group =>
      tables_columns columns ++ flat_map tables_from from ++ match wh with None => [] | Some e => tables_expr e end ++
      match group with
      | None => []
      | Some g => flat_map tables_expr (fst g) ++ match snd g with None => [] | Some e => tables_expr e end
      end
  | SOp _ l r => tables_set l ++ tables_set r
  end
with tables_from (t : table_expr) : list (list name) :=
  match t with
  | TNamed q _ => [q]
  | TSelect s _ => tables_select s
  | TJoin l r _ _ => tables_from l ++ tables_from r
  end
with tables_columns (c : result_columns) : list (list name) :=
  match c with
  | RAll => []
  | RList l => flat_map tables_column l
  end
with tables_column (c : result_column) : list (list name) :=
  match c with
  | RAllFrom _ => []
  | RExpr e _ => tables_expr e
  end.

Definition tables_where (o : option expr) : list (list name) := match o with None => [] | Some e => tables_expr e end.

Definition tables_of (s : sql_statement) : list (list name) :=
  match s with
  | SqlStatement s | SqlExplain s =>
      match s with
      | StSelect s => tables_select s
      | StInsert i => i_table i :: tables_set (i_source i)
      | StDelete d => d_table d :: tables_where (d_where d)
      | StUpdate u => u_table u :: flat_map (fun a => tables_expr (snd a)) (u_assignments u) ++ tables_where (u_where u)
      end
  | SqlAttach _ _ => []
  | SqlDescribe q => [q]
  end.
