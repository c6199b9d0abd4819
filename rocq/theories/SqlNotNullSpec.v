(** * Columns made nullable or not null (specification) *)

From Verif Require Import Base SqlNameModel SqlModel SqlRespell.

(** ** Columns that differ in their nullability only *)

(** [R null null'] relates the nullability before and after. *)
Definition retyped (R : bool -> bool -> Prop) (a a' : attribute) : Prop :=
  a_name a' = a_name a /\ a_type a' = a_type a /\ R (a_null a) (a_null a').

(** The same columns, some of them nullable now. *)
Definition looser : list attribute -> list attribute -> Prop := Forall2 (retyped (fun n n' => n = true -> n' = true)).

(** The same columns, some of them not null now. *)
Definition stricter : list attribute -> list attribute -> Prop := Forall2 (retyped (fun n n' => n' = true -> n = true)).

(** Every one of these tables is still there, with columns so related. *)
Definition tables_become (R : list attribute -> list attribute -> Prop) (table table' : list name -> list attribute -> Prop)
  (qs : list (list name)) : Prop :=
  forall q attrs, In q qs -> table q attrs -> exists attrs', table' q attrs' /\ R attrs attrs'.

(** ** The places where nullability decides

    All IN expressions of a statement, and all LIMIT and OFFSET expressions. *)

Inductive part : Type :=
| PartIn (e : expr) (s : set_spec)
| PartLimit (e : expr).

Fixpoint parts_expr (e : expr) : list part :=
  match e with
  | ELiteral _ | EName _ => []
  | ETuple es => flat_map parts_expr es
  | ESelect s => parts_select s
  | EUnary _ e => parts_expr e
  | EBinary _ l r | ECompare _ l r => parts_expr l ++ parts_expr r
  | EIn e s => PartIn e s :: parts_expr e ++ parts_spec s
  | EBetween e lo hi => parts_expr e ++ parts_expr lo ++ parts_expr hi
  | ECase o whens els =>
      match o with None => [] | Some e => parts_expr e end ++
      flat_map (fun p => parts_expr (fst p) ++ parts_expr (snd p)) whens ++
      match els with None => [] | Some e => parts_expr e end
  end
with parts_spec (s : set_spec) : list part :=
  match s with
  | SpSelect s => parts_select s
  | SpList es => flat_map parts_expr es
  | SpName _ => []
  end
with parts_select (s : select) : list part :=
  match s with
  | Select common e order lim =>
      flat_map parts_cte common ++ parts_set e ++ flat_map (fun o => parts_expr (fst (fst o))) order ++
      match lim with
      | None => []
      | Some l =>
          (PartLimit (fst l) :: parts_expr (fst l)) ++
          match snd l with None => [] | Some e => PartLimit e :: parts_expr e end
      end
  end
with parts_cte (c : cte) : list part :=
  match c with
  | Cte _ _ q => parts_select q
  end
with parts_set (e : set_expr) : list part :=
  match e with
  | SValues rows => flat_map (flat_map parts_expr) rows
  | SQuery _ columns from wh group =>
      parts_columns columns ++ flat_map parts_from from ++ match wh with None => [] | Some e => parts_expr e end ++
      match group with
      | None => []
      | Some g => flat_map parts_expr (fst g) ++ match snd g with None => [] | Some e => parts_expr e end
      end
  | SOp _ l r => parts_set l ++ parts_set r
  end
with parts_from (t : table_expr) : list part :=
  match t with
  | TNamed _ _ => []
  | TSelect s _ => parts_select s
  | TJoin l r _ _ => parts_from l ++ parts_from r
  end
with parts_columns (c : result_columns) : list part :=
  match c with
  | RAll => []
  | RList l => flat_map parts_column l
  end
with parts_column (c : result_column) : list part :=
  match c with
  | RAllFrom _ => []
  | RExpr e _ => parts_expr e
  end.

Definition where_tables (o : option expr) : list (list name) := match o with None => [] | Some e => tables_expr e end.
Definition parts_where (o : option expr) : list part := match o with None => [] | Some e => parts_expr e end.

(** No LIMIT or OFFSET expression mentions a table (literals do not). *)
Definition limits_closed (ps : list part) : Prop :=
  Forall (fun p => match p with PartLimit e => tables_expr e = [] | PartIn _ _ => True end) ps.

(** No IN. *)
Definition without_in (ps : list part) : Prop :=
  Forall (fun p => match p with PartLimit _ => True | PartIn _ _ => False end) ps.

(** ** A database whose NOT NULL constraints are changed *)

Definition altered (R : bool -> bool -> Prop) (db db' : database) : Prop :=
  Forall2 (fun e e' => fst e' = fst e /\
    Forall2 (fun o o' => fst o' = fst o /\
      Forall2 (fun c c' => c_name c' = c_name c /\ c_type c' = c_type c /\ R (c_not_null c) (c_not_null c'))
        (object_rows (snd o)) (object_rows (snd o')))
      (s_objects (snd e)) (s_objects (snd e'))) db db'.

(** NOT NULL dropped from some columns, or added to some. *)
Definition not_null_dropped : database -> database -> Prop := altered (fun c c' => c' = true -> c = true).
Definition not_null_added : database -> database -> Prop := altered (fun c c' => c = true -> c' = true).
