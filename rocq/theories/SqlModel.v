(** * SQL syntax trees and their types

    src/sql/ast/mod.rs and src/sql/ast/typing.rs. Error messages are dropped: every error is [Err tt]
    ([SqlMessageModel] has them). *)

From Coq Require Import Strings.String.
From Verif Require Import Base StrModel SqlNameModel.
Local Open Scope list_scope.
Local Open Scope nat_scope.

(** A call returning [Result]: it may also panic. *)
Definition res (A : Type) : Type := outcome (result A unit).

Definition ok {A : Type} (a : A) : res A := Ret (Ok a).
Definition err {A : Type} : res A := Ret (Err tt).

(** The [?] operator. *)
Definition rbind {A B : Type} (x : res A) (f : A -> res B) : res B :=
  r <- x ;; match r with Ok a => f a | Err e => Ret (Err e) end.

Notation "x <-? e ;; f" := (rbind e (fun x => f)) (at level 61, e at next level, right associativity) : outcome_scope.
Notation "' pat <-? e ;; f" := (rbind e (fun x => match x with pat => f end))
  (at level 61, pat pattern, e at next level, right associativity) : outcome_scope.

(** [Option::ok_or] and a pure [Result]. *)
Definition ok_or {A : Type} (o : option A) : res A := match o with Some a => ok a | None => err end.
Definition pure {A : Type} (r : result A unit) : res A := Ret r.

(** src/sql/ast/typing.rs:657-672 [fold_err]. *)
Section FoldErr.
Context {S A : Type} (f : S -> A -> res S).
Fixpoint fold_err (s : S) (l : list A) : res S :=
  match l with
  | [] => ok s
  | a :: l' => s' <-? f s a ;; fold_err s' l'
  end.
End FoldErr.

(** ** Syntax: ast/mod.rs *)

(** src/sql/ast/mod.rs:323-332, 335-356, 359-380. *)
Inductive unary_op : Type := UNegate | UNot | UIsNull.
Inductive binary_op : Type := BMultiply | BDivide | BAdd | BSubtract | BConcat | BAnd | BOr.
Inductive compare_op : Type := CEqual | CNotEqual | CLess | CLessEqual | CGreater | CGreaterEqual | CLike.

(** src/sql/ast/mod.rs:470-500 [Literal]. *)
Inductive literal : Type :=
| LString (s : list Z) | LNumeric (s : list Z) | LNull | LCurrentTime | LCurrentDate | LCurrentTimestamp
| LDate (s : list Z) | LTime (s : list Z) | LTimestamp (s : list Z).

(** [SelectMode], [SetOperator], [JoinOperator], [OrderingDirection]; no function of typing.rs looks at them. *)
Inductive select_mode : Type := MAll | MDistinct.
Inductive set_op : Type := SIntersect | SExcept | SUnion | SUnionAll.
Inductive join_type : Type := JInner | JLeft | JRight | JFull.
Inductive join_op : Type := JJoin (t : join_type) | JNatural (t : join_type) | JCross.
Inductive direction : Type := Ascending | Descending.

(** src/sql/ast/mod.rs: [Expression], [SetSpecification] with [WhenClause] as a pair, [SelectStatement] with
    [Ordering] as a triple and [Limit] as a pair, [CommonTableExpression], [SetExpression] with [GroupBy] as a pair,
    [TableExpression], [JoinConstraint], [ResultColumns], [ResultColumn]. *)
Inductive expr : Type :=
| ELiteral (l : literal)
| EName (q : list name)
| ETuple (es : list expr)
| ESelect (s : select)
| EUnary (op : unary_op) (e : expr)
| EBinary (op : binary_op) (l r : expr)
| ECompare (op : compare_op) (l r : expr)
| EIn (e : expr) (s : set_spec)
| EBetween (e lo hi : expr)
| ECase (e : option expr) (whens : list (expr * expr)) (els : option expr)
with set_spec : Type :=
| SpSelect (s : select)
| SpList (es : list expr)
| SpName (q : list name)
with select : Type :=
| Select (common : list cte) (e : set_expr) (order_by : list (expr * option name * direction))
         (lim : option (expr * option expr))
with cte : Type :=
| Cte (id : name) (columns : option (list name)) (query : select)
with set_expr : Type :=
| SValues (rows : list (list expr))
| SQuery (mode : select_mode) (columns : result_columns) (from : list table_expr) (where_expr : option expr)
         (group_by : option (list expr * option expr))
| SOp (op : set_op) (l r : set_expr)
with table_expr : Type :=
| TNamed (q : list name) (alias : option name)
| TSelect (s : select) (alias : option name)
| TJoin (l r : table_expr) (op : join_op) (c : join_constraint)
with join_constraint : Type :=
| JExpr (e : expr)
| JColumns (l : list name)
with result_columns : Type :=
| RAll
| RList (l : list result_column)
with result_column : Type :=
| RAllFrom (n : name)
| RExpr (e : expr) (rename : option name).

(** src/sql/ast/mod.rs:64-75 [InsertStatement], 107-126 [DeleteStatement], [UpdateStatement], 203-206 [Assignment],
    128-135 [AttachStatement], 167-171 [DescribeStatement], 56-61 [Statement], 41-54 [SqlStatement]. *)
Record insert : Type := { i_table : list name; i_columns : option (list name); i_source : set_expr }.
Record delete : Type := { d_table : list name; d_where : option expr }.
Record update : Type := { u_table : list name; u_assignments : list (list name * expr); u_where : option expr }.

Inductive statement : Type :=
| StSelect (s : select) | StInsert (i : insert) | StDelete (d : delete) | StUpdate (u : update).

Inductive sql_statement : Type :=
| SqlStatement (s : statement) | SqlExplain (s : statement)
| SqlAttach (q : list name) (path : list Z) | SqlDescribe (q : list name).

(** ** Types: ast/typing.rs *)

(** src/sql/ast/typing.rs:27-32 [ScalarType]. *)
Inductive stype : Type :=
| TyTuple (ts : list stype)
| TyScalar (t : data_type) (null : bool).

(** src/sql/ast/typing.rs:35-76 [is_compatible]. The fold visits every pair; the first error is the result. *)
Section Compat.
Context (f : stype -> stype -> result bool unit).
Fixpoint compat_fold (acc : result bool unit) (l1 l2 : list stype) : result bool unit :=
  match l1, l2 with
  | a :: l1', b :: l2' =>
      compat_fold (match acc, f a b with
                   | Err e, _ => Err e
                   | Ok _, Err e => Err e
                   | Ok x, Ok y => Ok (x && y)
                   end) l1' l2'
  | _, _ => acc
  end.
End Compat.

Fixpoint is_compatible (a b : stype) : result bool unit :=
  match a, b with
  | TyScalar t1 n1, TyScalar t2 n2 => if dt_eqb t1 t2 then Ok (n1 || n2) else Err tt
  | TyTuple l1, TyTuple l2 =>
      if negb (List.length l1 =? List.length l2) then Err tt else compat_fold is_compatible (Ok false) l1 l2
  | _, _ => Err tt
  end.

(** src/sql/ast/typing.rs:78-119 [unify]. *)
Section Unify.
Context (f : stype -> stype -> result stype unit).
Fixpoint unify_fold (acc : list stype) (l1 l2 : list stype) : result (list stype) unit :=
  match l1, l2 with
  | a :: l1', b :: l2' => match f a b with Ok x => unify_fold (acc ++ [x]) l1' l2' | Err e => Err e end
  | _, _ => Ok acc
  end.
End Unify.

Fixpoint unify (a b : stype) : result stype unit :=
  match a, b with
  | TyScalar t1 n1, TyScalar t2 n2 => if dt_eqb t1 t2 then Ok (TyScalar t1 (n1 || n2)) else Err tt
  | TyTuple l1, TyTuple l2 =>
      if negb (List.length l1 =? List.length l2) then Err tt
      else match unify_fold unify [] l1 l2 with Ok l => Ok (TyTuple l) | Err e => Err e end
  | _, _ => Err tt
  end.

(** src/sql/ast/typing.rs:733-738 [Attribute]. *)
Record attribute : Type := { a_name : name; a_type : data_type; a_null : bool }.

Definition attr_type (a : attribute) : stype := TyScalar (a_type a) (a_null a).

(** src/sql/ast/typing.rs:746-751 [RowType]. *)
Record row_type : Type := {
  r_attrs : list attribute;
  r_primary : list name;
  r_order : list (name * direction)
}.

Definition plain_row (l : list attribute) : row_type := {| r_attrs := l; r_primary := []; r_order := [] |}.

(** src/sql/ast/typing.rs:753-783 [RowType::from]. *)
Definition row_of_set (rows : row_set) : row_type := {|
  r_attrs := map (fun c => {| a_name := c_name c; a_type := c_type c; a_null := negb (c_not_null c) |}) rows;
  r_primary := map c_name (filter c_primary rows);
  r_order := []
|}.

(** src/sql/ast/typing.rs:675-730 [Literal::infer_type]. *)
Definition literal_type (l : literal) : stype :=
  match l with
  | LString _ => TyScalar DVarchar false
  | LNumeric _ => TyScalar DNumeric false
  | LNull => TyScalar DGeneric true
  | LCurrentTime => TyScalar DTime false
  | LCurrentDate => TyScalar DDate false
  | LCurrentTimestamp => TyScalar DTimestamp false
  | LDate _ => TyScalar DDate false
  | LTime _ => TyScalar DTime false
  | LTimestamp _ => TyScalar DTimestamp false
  end.

(** Fixed texts of the program. *)
Definition lit (s : string) : list Z := map (fun a => Z.of_nat (Ascii.nat_of_ascii a)) (list_ascii_of_string s).

Section Typing.
Context (up : Z -> list Z).
Notation nget := (nget up).
Notation nput := (nput up).

(** src/sql/ast/typing.rs:785-786 and 826-835 [SetContext]. *)
Record set_context : Type := {
  x_namespaces : nmap (nmap row_type);
  x_default : name;
  x_tables : nmap row_type
}.

(** src/sql/ast/typing.rs:788-822 [ObjectTypes::from], [Namespaces::from]. *)
Definition object_types (s : schema) : nmap row_type :=
  ncollect up (map (fun e => (fst e, row_of_set (object_rows (snd e)))) (s_objects s)).

Definition namespaces_of (db : database) : nmap (nmap row_type) :=
  ncollect up (map (fun e => (fst e, object_types (snd e))) db).

(** src/sql/ast/typing.rs:838-844 [SetContext::new]. *)
Definition set_context_new (db : database) (dflt : name) : set_context :=
  {| x_namespaces := namespaces_of db; x_default := dflt; x_tables := [] |}.

(** src/sql/ast/typing.rs:846-854 [define_relation]: the entry is replaced even if an error is reported. *)
Definition define_relation (x : set_context) (n : name) (t : row_type) : set_context * result unit unit :=
  ({| x_namespaces := x_namespaces x; x_default := x_default x; x_tables := nput (x_tables x) n t |},
   match nget (x_tables x) n with None => Ok tt | Some _ => Err tt end).

(** src/sql/ast/typing.rs:856-903 [resolve_table_name]. *)
Definition resolve_table (x : set_context) (q : list name) : res row_type :=
  match q with
  | [n] =>
      match nget (x_tables x) n with
      | Some t => ok t
      | None =>
          match nget (x_namespaces x) (x_default x) with
          | None => Panic
          | Some ns => ok_or (nget ns n)
          end
      end
  | [s; n] =>
      match nget (x_tables x) s with
      | Some _ => err
      | None =>
          match nget (x_namespaces x) s with
          | None => err
          | Some ns => ok_or (nget ns n)
          end
      end
  | _ => err
  end.

(** src/sql/ast/typing.rs:122-131 [ScalarContextSymbol]. *)
Inductive symbol : Type :=
| SyAttribute (t : stype)
| SyConflict
| SyRelation (m : nmap stype).

(** src/sql/ast/typing.rs:135-149 [ScalarContext]: the symbols; the reference to the [SetContext] is a separate
    argument below. *)
Definition symbols : Type := nmap symbol.

(** src/sql/ast/typing.rs:157-173: the loop over the attributes. *)
Definition add_attribute (y : symbols) (a : attribute) : symbols :=
  match nget y (a_name a) with
  | None => nput y (a_name a) (SyAttribute (attr_type a))
  | Some (SyAttribute _) => nput y (a_name a) SyConflict
  | Some SyConflict => y
  | Some (SyRelation _) => y
  end.

(** src/sql/ast/typing.rs:151-201 [add_relation]. *)
Definition add_relation (y : symbols) (n : name) (attrs : list attribute) : result symbols unit :=
  let y1 := fold_left add_attribute attrs y in
  let m := ncollect up (map (fun a => (a_name a, attr_type a)) attrs) in
  match nget y1 n with
  | Some (SyRelation _) => Err tt
  | _ => Ok (nput y1 n (SyRelation m))
  end.

(** src/sql/ast/typing.rs:203-239 [ScalarContext::infer_type]. *)
Definition name_type (y : symbols) (q : list name) : result stype unit :=
  match q with
  | [n] =>
      match nget y n with
      | Some (SyAttribute t) => Ok t
      | _ => Err tt
      end
  | [r; n] =>
      match nget y r with
      | Some (SyRelation m) => match nget m n with Some t => Ok t | None => Err tt end
      | _ => Err tt
      end
  | _ => Err tt
  end.

(** src/sql/ast/typing.rs:741-743 [is_assignable_to] (not called). *)
Definition is_assignable_to (a other : attribute) : bool :=
  dt_eqb (a_type a) (a_type other) && (a_null other || negb (a_null a)).

(** src/sql/ast/typing.rs:264-295: the operator of a unary expression. *)
Definition unary_type (op : unary_op) (t : stype) : result stype unit :=
  match op, t with
  | UNegate, TyScalar DNumeric _ => Ok t
  | UNot, TyScalar DLogical _ => Ok t
  | UIsNull, TyScalar _ _ => Ok t
  | _, _ => Err tt
  end.

(** src/sql/ast/typing.rs:307-376: the operator of a binary expression. *)
Definition binary_type (op : binary_op) (l r : stype) : result stype unit :=
  match op with
  | BMultiply | BDivide | BAdd | BSubtract =>
      match l, r with
      | TyScalar DNumeric n1, TyScalar DNumeric n2 => Ok (TyScalar DNumeric (n1 || n2))
      | _, _ => Err tt
      end
  | BConcat =>
      match l, r with
      | TyScalar DVarchar n1, TyScalar DVarchar n2 => Ok (TyScalar DVarchar (n1 || n2))
      | _, _ => Err tt
      end
  | BAnd | BOr =>
      match l, r with
      | TyScalar DLogical n1, TyScalar DLogical n2 => Ok (TyScalar DLogical (n1 || n2))
      | _, _ => Err tt
      end
  end.

(** src/sql/ast/typing.rs:388-445: the operator of a comparison. *)
Definition compare_type (op : compare_op) (l r : stype) : result stype unit :=
  match op with
  | CEqual | CNotEqual =>
      match is_compatible l r with
      | Ok n => Ok (TyScalar DLogical n)
      | Err e => Err e
      end
  | CLess | CLessEqual | CGreater | CGreaterEqual =>
      match l, r with
      | TyScalar t1 n1, TyScalar t2 n2 =>
          if dt_eqb t1 t2 && is_ordered t1 then Ok (TyScalar DLogical (n1 || n2)) else Err tt
      | _, _ => Err tt
      end
  | CLike =>
      match l, r with
      | TyScalar DVarchar n1, TyScalar DVarchar n2 => Ok (TyScalar DLogical (n1 || n2))
      | _, _ => Err tt
      end
  end.

(** src/sql/ast/typing.rs:458-485: range checks. *)
Definition between_type (e lo hi : stype) : result stype unit :=
  match e, lo, hi with
  | TyScalar t1 n1, TyScalar t2 n2, TyScalar t3 n3 =>
      if dt_eqb t1 t2 && dt_eqb t1 t3 && is_ordered t1 then Ok (TyScalar DLogical (n1 || n2 || n3)) else Err tt
  | _, _, _ => Err tt
  end.

(** src/sql/ast/typing.rs:511-523: one step of the fold over the bodies of a CASE. *)
Definition case_step (acc body : stype) : result stype unit :=
  match is_compatible body acc with
  | Err e => Err e
  | Ok n1 =>
      match body with
      | TyTuple _ => Err tt
      | TyScalar t n => Ok (TyScalar t (n || n1))
      end
  end.

(** src/sql/ast/typing.rs:618-634: membership. *)
Definition in_type (t : stype) (set : row_type) : result stype unit :=
  match r_attrs set with
  | [a] =>
      match is_compatible t (attr_type a) with
      | Ok true => Ok (TyScalar DLogical false)
      | Ok false => Err tt
      | Err e => Err e
      end
  | _ => Err tt
  end.

(** src/sql/ast/typing.rs:642-651: a select statement as an expression. *)
Definition select_scalar (t : row_type) : result stype unit :=
  match r_attrs t with
  | [a] => Ok (attr_type a)
  | _ => Err tt
  end.

(** "must evaluate to a BOOLEAN" (src/sql/ast/typing.rs:1003-1013, 1029-1039, 1496-1506, 1523-1533). *)
Definition logical (t : stype) : result unit unit :=
  match t with
  | TyScalar DLogical _ => Ok tt
  | _ => Err tt
  end.

Definition scalar (t : stype) : result (data_type * bool) unit :=
  match t with
  | TyScalar d n => Ok (d, n)
  | TyTuple _ => Err tt
  end.

(** [Display] of [usize]. *)
Definition show_nat (n : nat) : list Z := show_int (Z.of_nat n).

(** src/sql/ast/typing.rs:1093-1112 [generate_column_name]. *)
Definition generate_column_name (n : name) (g : nmap nat) : name * nmap nat :=
  match nget g n with
  | Some counter =>
      let result := n ++ show_nat (S counter) in
      (result, nput (nput g n (S counter)) result 0)
  | None => (n, nput g n 0)
  end.

(** Appending one result column (src/sql/ast/typing.rs:1127-1132, 1147-1153, 1180-1184). *)
Definition push_column (st : list attribute * nmap nat) (n : name) (t : data_type) (null : bool) :=
  let '(n', g) := generate_column_name n (snd st) in
  (fst st ++ [{| a_name := n'; a_type := t; a_null := null |}], g).

(** src/sql/ast/typing.rs:1126-1133: all columns. *)
Definition all_columns (attrs : list attribute) : list attribute :=
  fst (fold_left (fun st a => push_column st (a_name a) (a_type a) (a_null a)) attrs ([], [])).

(** src/sql/ast/typing.rs:1141-1159: all columns of one relation. *)
Definition relation_columns (st : list attribute * nmap nat) (m : nmap stype) : outcome (list attribute * nmap nat) :=
  fold_left (fun o e => st <- o ;; match snd e with
                                   | TyScalar t n => Ret (push_column st (fst e) t n)
                                   | TyTuple _ => Panic
                                   end) m (Ret st).

(** src/sql/ast/typing.rs:1056-1081: unifying the columns of two row types by position. *)
Fixpoint unify_columns (l r : list attribute) : result (list attribute) unit :=
  match l, r with
  | a :: l', b :: r' =>
      match unify (attr_type a) (attr_type b) with
      | Ok (TyScalar t n) =>
          match unify_columns l' r' with
          | Ok rest => Ok ({| a_name := a_name a; a_type := t; a_null := n |} :: rest)
          | Err e => Err e
          end
      | Ok (TyTuple _) => Err tt
      | Err e => Err e
      end
  | _, _ => Ok []
  end.

(** src/sql/ast/typing.rs:1597-1610: the columns of a common table expression with a column list. *)
Fixpoint find_column (attrs : list attribute) (n : name) : option attribute :=
  match attrs with
  | [] => None
  | a :: attrs' => if name_eqb up (a_name a) n then Some a else find_column attrs' n
  end.

Fixpoint pick_columns (attrs : list attribute) (names : list name) : result (list attribute) unit :=
  match names with
  | [] => Ok []
  | n :: names' =>
      match find_column attrs n with
      | None => Err tt
      | Some a =>
          match pick_columns attrs names' with
          | Ok rest => Ok ({| a_name := n; a_type := a_type a; a_null := a_null a |} :: rest)
          | Err e => Err e
          end
      end
  end.

(** src/sql/ast/typing.rs:1554-1585 [Limit::validate_type], once for the number of rows and once for the offset. *)
Definition limit_number (t : stype) : result unit unit :=
  match t with
  | TyScalar DNumeric false => Ok tt
  | _ => Err tt
  end.

(** *** Inference *)

(** Evaluating the members of a list in order up to the first error ([collect] into a [Result]). *)
Section Collect.
Context {A B : Type} (f : A -> res B).
Fixpoint collect (l : list A) : res (list B) :=
  match l with
  | [] => ok []
  | a :: l' => b <-? f a ;; bs <-? collect l' ;; ok (b :: bs)
  end.
End Collect.

(** src/sql/ast/typing.rs:495-505 and 559-569: the guards are inferred up to the first error, and the result is
    dropped. [g] judges the type of a guard. *)
Section Guards.
Context (f : expr -> res stype) (g : stype -> result unit unit).
Fixpoint guards (l : list (expr * expr)) : outcome unit :=
  match l with
  | [] => Ret tt
  | (e, _) :: l' => r <- f e ;; match r with
                                | Err _ => Ret tt
                                | Ok t => match g t with Ok _ => guards l' | Err _ => Ret tt end
                                end
  end.
End Guards.

(** src/sql/ast/typing.rs:508-523 (and 572-587): the bodies. *)
Section Bodies.
Context (f : expr -> res stype).
Fixpoint bodies_rest (acc : stype) (l : list (expr * expr)) : res stype :=
  match l with
  | [] => ok acc
  | (_, e) :: l' => t <-? f e ;; acc' <-? pure (case_step acc t) ;; bodies_rest acc' l'
  end.

Definition bodies (l : list (expr * expr)) : res stype :=
  match l with
  | [] => Panic
  | (_, e) :: l' => t <-? f e ;; bodies_rest t l'
  end.
End Bodies.

(** src/sql/ast/typing.rs:526-546 (and 590-610): the ELSE part. *)
Definition else_type (els : option (res stype)) (t : stype) : res stype :=
  match els, t with
  | None, TyScalar d _ => ok (TyScalar d true)
  | Some body, TyScalar d n =>
      b <-? body ;; n1 <-? pure (is_compatible b t) ;; ok (TyScalar d (n1 || n))
  | _, TyTuple _ => Panic
  end.

(** src/sql/ast/typing.rs:1262-1268: a list of values. Later members are inferred even after an error. *)
Section Members.
Context (f : expr -> res stype).
Fixpoint members_rest (acc : result stype unit) (l : list expr) : res stype :=
  match l with
  | [] => pure acc
  | e :: l' =>
      r <- f e ;;
      members_rest (match r with
                    | Err e => Err e
                    | Ok t => match acc with Err e => Err e | Ok a => unify a t end
                    end) l'
  end.

Definition members (l : list expr) : res stype :=
  match l with
  | [] => Panic
  | e :: l' => r <- f e ;; members_rest r l'
  end.
End Members.

(** src/sql/ast/typing.rs:931-945: the first row of VALUES. *)
Section FirstRow.
Context (f : expr -> res stype).
Fixpoint first_row (count : nat) (l : list expr) : res (list attribute) :=
  match l with
  | [] => ok []
  | e :: l' =>
      t <-? f e ;;
      '(d, n) <-? pure (scalar t) ;;
      rest <-? first_row (S count) l' ;;
      ok ({| a_name := lit "_col" ++ show_nat count; a_type := d; a_null := n |} :: rest)
  end.

(** src/sql/ast/typing.rs:950-974: a further row, as far as both lists go. *)
Fixpoint next_row (types : list attribute) (l : list expr) {struct l} : res (list attribute) :=
  match l, types with
  | e :: l', a :: types' =>
      t <-? f e ;;
      u <-? pure (unify (attr_type a) t) ;;
      match u with
      | TyScalar d n =>
          rest <-? next_row types' l' ;;
          ok ({| a_name := a_name a; a_type := d; a_null := n |} :: rest)
      | TyTuple _ => Panic
      end
  | _, _ => ok []
  end.
End FirstRow.

(** src/sql/ast/typing.rs:928-982: VALUES. *)
Definition values_type (f : expr -> res stype) (rows : list (list expr)) : res row_type :=
  match rows with
  | [] => Panic
  | r :: rows' =>
      types <-? first_row f 0 r ;;
      types' <-? fold_err (next_row f) types rows' ;;
      ok (plain_row types')
  end.

(** src/sql/ast/typing.rs:1218, 1456, 1518: [name.last().unwrap()]. *)
Definition last_name (q : list name) : outcome name :=
  match rev q with
  | n :: _ => Ret n
  | [] => Panic
  end.

(** The [identifier] of a common table expression. *)
Definition cte_id (c : cte) : name := match c with Cte id _ _ => id end.

(** src/sql/ast/typing.rs:242-655 [Expression::infer_type], 1251-1288 [SetSpecification::infer_type], 1336-1359
    [SelectStatement::infer_type], 1589-1619 [CommonTableExpression::infer_type], 926-1090
    [SetExpression::infer_type], 1202-1247 [TableExpression::infer_type], 1115-1196 [ResultColumns::infer_type]. *)
Fixpoint infer (x : set_context) (y : symbols) (e : expr) : res stype :=
  match e with
  | ELiteral l => ok (literal_type l)
  | EName q => pure (name_type y q)
  | ETuple es => ts <-? collect (infer x y) es ;; ok (TyTuple ts)
  | EUnary op e => t <-? infer x y e ;; pure (unary_type op t)
  | EBinary op l r => t1 <-? infer x y l ;; t2 <-? infer x y r ;; pure (binary_type op t1 t2)
  | ECompare op l r => t1 <-? infer x y l ;; t2 <-? infer x y r ;; pure (compare_type op t1 t2)
  | EBetween e lo hi =>
      t <-? infer x y e ;; t1 <-? infer x y lo ;; t2 <-? infer x y hi ;; pure (between_type t t1 t2)
  | ECase None whens els =>
      _ <- guards (infer x y) logical whens ;;
      t <-? bodies (infer x y) whens ;;
      else_type (match els with None => None | Some e => Some (infer x y e) end) t
  | ECase (Some e) whens els =>
      te <-? infer x y e ;;
      _ <- guards (infer x y) (fun t => match is_compatible t te with Ok true => Ok tt | _ => Err tt end) whens ;;
      t <-? bodies (infer x y) whens ;;
      else_type (match els with None => None | Some e => Some (infer x y e) end) t
  | EIn e s => t <-? infer x y e ;; r <-? infer_spec x y s ;; pure (in_type t r)
  | ESelect s => r <-? infer_select x s ;; pure (select_scalar r)
  end
with infer_spec (x : set_context) (y : symbols) (s : set_spec) : res row_type :=
  match s with
  | SpSelect s => infer_select x s
  | SpName q => resolve_table x q
  | SpList es =>
      t <-? members (infer x y) es ;;
      '(d, n) <-? pure (scalar t) ;;
      ok (plain_row [{| a_name := lit "_col0"; a_type := d; a_null := n |}])
  end
with infer_select (x : set_context) (s : select) : res row_type :=
  match s with
  | Select common e order lim =>
      y <-? fold_err (fun y c => t <-? infer_cte x c ;; pure (add_relation y (cte_id c) (r_attrs t))) [] common ;;
      t <-? infer_set x e ;;
      (* 1542-1551 [Ordering::validate_type] *)
      _ <-? fold_err (fun _ o => t <-? infer x y (fst (fst o)) ;; _ <-? pure (scalar t) ;; ok tt) tt order ;;
      match lim with
      | None => ok t
      | Some (rows, offset) =>
          n <-? infer x [] rows ;;
          _ <-? pure (limit_number n) ;;
          match offset with
          | None => ok t
          | Some o => n <-? infer x [] o ;; _ <-? pure (limit_number n) ;; ok t
          end
      end
  end
with infer_cte (x : set_context) (c : cte) : res row_type :=
  match c with
  | Cte _ columns q =>
      t <-? infer_select x q ;;
      match columns with
      | None => ok t
      | Some names =>
          attrs <-? pure (pick_columns (r_attrs t) names) ;;
          ok {| r_attrs := attrs; r_primary := r_primary t; r_order := r_order t |}
      end
  end
with infer_set (x : set_context) (e : set_expr) : res row_type :=
  match e with
  | SValues rows => values_type (infer x []) rows
  | SQuery _ columns from wh group =>
      '(y, attrs) <-? fold_err (fun '(y, attrs) t =>
                         '(y', attrs') <-? infer_table x y t ;; ok (y', attrs ++ attrs')) ([], []) from ;;
      _ <-? match wh with
            | None => ok tt
            | Some e => t <-? infer x y e ;; pure (logical t)
            end ;;
      _ <-? match group with
            | None => ok tt
            | Some (gs, having) =>
                _ <-? fold_err (fun _ e => _ <-? infer x y e ;; ok tt) tt gs ;;
                match having with
                | None => ok tt
                | Some e => t <-? infer x y e ;; pure (logical t)
                end
            end ;;
      infer_columns x y attrs columns
  | SOp _ l r =>
      t1 <-? infer_set x l ;;
      t2 <-? infer_set x r ;;
      attrs <-? pure (unify_columns (r_attrs t1) (r_attrs t2)) ;;
      ok (plain_row attrs)
  end
with infer_table (x : set_context) (y : symbols) (t : table_expr) : res (symbols * list attribute) :=
  match t with
  | TNamed q alias =>
      r <-? resolve_table x q ;;
      id <- match alias with Some id => Ret id | None => last_name q end ;;
      y' <-? pure (add_relation y id (r_attrs r)) ;;
      ok (y', r_attrs r)
  | TSelect s _ => r <-? infer_select x s ;; ok (y, r_attrs r)
  | TJoin l r _ _ =>
      '(y1, attrs1) <-? infer_table x y l ;;
      '(y2, attrs2) <-? infer_table x y1 r ;;
      ok (y2, attrs1 ++ attrs2)
  end
with infer_columns (x : set_context) (y : symbols) (attrs : list attribute) (c : result_columns) : res row_type :=
  match c with
  | RAll => ok (plain_row (all_columns attrs))
  | RList l =>
      '(cols, _) <-? fold_err (fun st c => infer_column x y st c) ([], []) l ;;
      ok (plain_row cols)
  end
with infer_column (x : set_context) (y : symbols) (st : list attribute * nmap nat) (c : result_column)
  : res (list attribute * nmap nat) :=
  match c with
  | RAllFrom n =>
      match nget y n with
      | Some (SyRelation m) => st' <- relation_columns st m ;; ok st'
      | _ => err
      end
  | RExpr e rename =>
      t <-? infer x y e ;;
      '(d, n) <-? pure (scalar t) ;;
      ok (push_column st (match rename with None => lit "col" | Some n => n end) d n)
  end.

(** src/sql/ast/typing.rs:906-922 [SetContext::initialize]. *)
Definition initialize (db : database) (dflt : name) (ctes : list cte) : res set_context :=
  fold_err (fun x c => t <-? infer_cte x c ;;
                       match define_relation x (cte_id c) t with
                       | (x', Ok _) => ok x'
                       | (_, Err e) => pure (Err e)
                       end) (set_context_new db dflt) ctes.

(** *** Statements *)

(** src/sql/ast/typing.rs:1365-1370 and 1450-1454: column name to type and nullability. *)
Definition row_type_map (t : row_type) : nmap (data_type * bool) :=
  ncollect up (map (fun a => (a_name a, (a_type a, a_null a))) (r_attrs t)).

(** src/sql/ast/typing.rs:1379-1394 and 1410-1425: the value of one column; 1396 and 1427: its removal. *)
Definition insert_column (m : nmap (data_type * bool)) (a : attribute) (n : name)
  : result (nmap (data_type * bool)) unit :=
  match nget m n with
  | None => Err tt
  | Some (t, null) =>
      if negb (dt_eqb t (a_type a)) || (negb null && a_null a) then Err tt else Ok (nremove up m n)
  end.

(** src/sql/ast/typing.rs:1363-1443 [InsertStatement::validate_type]. *)
Definition validate_insert (x : set_context) (i : insert) : res unit :=
  t <-? resolve_table x (i_table i) ;;
  v <-? infer_set x (i_source i) ;;
  m <-? match i_columns i with
        | None => fold_err (fun m a => pure (insert_column m a (a_name a))) (row_type_map t) (r_attrs v)
        | Some columns =>
            if negb (List.length columns =? List.length (r_attrs v)) then err
            else fold_err (fun m e => pure (insert_column m (fst e) (snd e))) (row_type_map t)
                          (combine (r_attrs v) columns)
        end ;;
  if existsb (fun e => negb (snd (snd e))) m then err else ok tt.

(** src/sql/ast/typing.rs:1464-1490: the columns of one assignment. The set of assigned columns is a map to [unit]. *)
Definition assign_column (m : nmap (data_type * bool)) (t : data_type) (null : bool) (assigned : nmap unit) (n : name)
  : result (nmap unit) unit :=
  match nget assigned n with
  | Some _ => Err tt
  | None =>
      match nget m n with
      | None => Err tt
      | Some (ct, cnull) =>
          if negb (dt_eqb ct t) || (null && negb cnull) then Err tt else Ok (nput assigned n tt)
      end
  end.

(** src/sql/ast/typing.rs:1447-1511 [UpdateStatement::validate_type]. *)
Definition validate_update (x : set_context) (u : update) : res unit :=
  t <-? resolve_table x (u_table u) ;;
  id <- last_name (u_table u) ;;
  y <-? pure (add_relation [] id (r_attrs t)) ;;
  _ <-? fold_err (fun assigned a =>
                    st <-? infer x y (snd a) ;;
                    '(d, n) <-? pure (scalar st) ;;
                    fold_err (fun assigned c => pure (assign_column (row_type_map t) d n assigned c)) assigned (fst a))
                 [] (u_assignments u) ;;
  match u_where u with
  | None => ok tt
  | Some e => st <-? infer x y e ;; pure (logical st)
  end.

(** src/sql/ast/typing.rs:1515-1538 [DeleteStatement::validate_type]. *)
Definition validate_delete (x : set_context) (d : delete) : res unit :=
  t <-? resolve_table x (d_table d) ;;
  id <- last_name (d_table d) ;;
  y <-? pure (add_relation [] id (r_attrs t)) ;;
  match d_where d with
  | None => ok tt
  | Some e => st <-? infer x y e ;; pure (logical st)
  end.

(** src/sql/ast/typing.rs:1322-1332 [Statement::validate_type]. *)
Definition validate_statement (x : set_context) (s : statement) : res unit :=
  match s with
  | StSelect s => _ <-? infer_select x s ;; ok tt
  | StInsert i => validate_insert x i
  | StUpdate u => validate_update x u
  | StDelete d => validate_delete x d
  end.

(** src/sql/ast/typing.rs:1292-1305 [SqlStatement::validate_type], 1309-1311 [AttachStatement], 1315-1318
    [DescribeStatement]. *)
Definition validate (x : set_context) (s : sql_statement) : res unit :=
  match s with
  | SqlStatement s | SqlExplain s => validate_statement x s
  | SqlAttach _ _ => ok tt
  | SqlDescribe q => _ <-? resolve_table x q ;; ok tt
  end.

End Typing.
