(** * Statements all of whose parts pass a check (specification) *)

From Coq Require Import Strings.String.
From Verif Require Import Base StrModel SqlNameModel SqlModel SqlGrammar SqlWords SqlSafeSpec.
Local Open Scope list_scope.

Section Each.
Context {A : Type} (P : A -> Prop).
Fixpoint each (l : list A) : Prop := match l with [] => True | a :: l' => P a /\ each l' end.
Definition maybe (o : option A) : Prop := match o with Some a => P a | None => True end.
End Each.

(** What to check: expressions and set expressions (at every level), the rows of an INSERT, names, lists of names,
    qualified names of tables and columns, those of ATTACH and DESCRIBE, lists of assignments, paths of files;
    [in_joins]: look into the conditions of joins. *)
Record checks : Type := {
  on_expr : expr -> Prop;
  on_set : set_expr -> Prop;
  on_source : set_expr -> Prop;
  on_name : name -> Prop;
  on_names : list name -> Prop;
  on_path : list name -> Prop;
  on_short : list name -> Prop;
  on_assigned : list (list name * expr) -> Prop;
  on_file : list Z -> Prop;
  in_joins : bool
}.

Section All.
Variable k : checks.

Fixpoint all_expr (e : expr) : Prop :=
  on_expr k e /\
  match e with
  | ELiteral _ => True
  | EName q => on_path k q
  | ETuple es => each all_expr es
  | ESelect s => all_select s
  | EUnary _ e => all_expr e
  | EBinary _ l r | ECompare _ l r => all_expr l /\ all_expr r
  | EIn e s => all_expr e /\ all_spec s
  | EBetween e lo hi => all_expr e /\ all_expr lo /\ all_expr hi
  | ECase o whens els => maybe all_expr o /\ each (fun p => all_expr (fst p) /\ all_expr (snd p)) whens /\ maybe all_expr els
  end
with all_spec (s : set_spec) : Prop :=
  match s with
  | SpSelect s => all_select s
  | SpList es => each all_expr es
  | SpName q => on_path k q
  end
with all_select (s : select) : Prop :=
  match s with
  | Select common e order lim =>
      each all_cte common /\ all_set e /\ each (fun o => all_expr (fst (fst o)) /\ maybe (on_name k) (snd (fst o))) order /\
      maybe (fun l => all_expr (fst l) /\ maybe all_expr (snd l)) lim
  end
with all_cte (c : cte) : Prop :=
  match c with
  | Cte id columns q => on_name k id /\ maybe (on_names k) columns /\ all_select q
  end
with all_set (e : set_expr) : Prop :=
  on_set k e /\
  match e with
  | SValues rows => each (each all_expr) rows
  | SQuery _ columns from wh group =>
      all_columns columns /\ each all_table from /\ maybe all_expr wh /\
      maybe (fun g => each all_expr (fst g) /\ maybe all_expr (snd g)) group
  | SOp _ l r => all_set l /\ all_set r
  end
with all_table (t : table_expr) : Prop :=
  match t with
  | TNamed q alias => on_path k q /\ maybe (on_name k) alias
  | TSelect s alias => all_select s /\ maybe (on_name k) alias
  | TJoin l r _ c => all_table l /\ all_table r /\ if in_joins k then all_constraint c else True
  end
with all_constraint (c : join_constraint) : Prop :=
  match c with
  | JExpr e => all_expr e
  | JColumns l => on_names k l
  end
with all_columns (c : result_columns) : Prop :=
  match c with
  | RAll => True
  | RList l => each all_column l
  end
with all_column (c : result_column) : Prop :=
  match c with
  | RAllFrom n => on_name k n
  | RExpr e rename => all_expr e /\ maybe (on_name k) rename
  end.

Definition all_statement (s : statement) : Prop :=
  match s with
  | StSelect s => all_select s
  | StInsert i => on_path k (i_table i) /\ maybe (on_names k) (i_columns i) /\ on_source k (i_source i) /\ all_set (i_source i)
  | StDelete d => on_path k (d_table d) /\ maybe all_expr (d_where d)
  | StUpdate u => on_path k (u_table u) /\ on_assigned k (u_assignments u) /\
                  each (fun a => on_names k (fst a) /\ all_expr (snd a)) (u_assignments u) /\
                  maybe all_expr (u_where u)
  end.

Definition all_sql (s : sql_statement) : Prop :=
  match s with
  | SqlStatement s | SqlExplain s => all_statement s
  | SqlAttach q file => on_short k q /\ on_file k file
  | SqlDescribe q => on_short k q
  end.
End All.

(** What the grammar guarantees. Names are identifiers and not keywords. *)
Definition proper_name (n : name) : Prop := identifier n /\ forall t, sql_word t n -> t = terminal "ID".

Definition proper_literal (l : literal) : Prop :=
  match l with
  | LNumeric s => number s \/ fraction s \/ hexadecimal s
  | LString s | LDate s | LTime s | LTimestamp s => Forall quotable s
  | LNull | LCurrentTime | LCurrentDate | LCurrentTimestamp => True
  end.

Definition grammatical : checks := {|
  on_expr e :=
    match e with
    | ELiteral l => proper_literal l
    | ETuple es => 2 <= List.length es
    | ECase _ whens _ => whens <> []
    | _ => True
    end;
  on_set e :=
    match e with
    | SValues rows => rows <> [] /\ ~ In [] rows
    | SQuery _ columns _ _ group => columns <> RList [] /\ maybe (fun g => fst g <> []) group
    | SOp _ _ r => match r with SOp _ _ _ => False | _ => True end
    end;
  on_source e := match e with SOp _ _ _ => False | _ => True end;
  on_name := proper_name;
  on_names l := l <> [] /\ each proper_name l;
  on_path q := 1 <= List.length q <= 3 /\ each proper_name q;
  on_short q := 1 <= List.length q <= 2 /\ each proper_name q;
  on_assigned l := l <> [];
  on_file := Forall quotable;
  in_joins := true
|}.

(** What the writer of a statement must see to: no empty IN list, and no CASE with only one WHEN and a row value as its
    result. *)
Definition careful : checks := {|
  on_expr e :=
    match e with
    | EIn _ (SpList []) => False
    | ECase _ [(_, ETuple _)] _ => False
    | _ => True
    end;
  on_set _ := True;
  on_source _ := True;
  on_name _ := True;
  on_names _ := True;
  on_path _ := True;
  on_short _ := True;
  on_assigned _ := True;
  on_file _ := True;
  in_joins := false
|}.
