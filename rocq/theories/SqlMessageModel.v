(** * The error messages of validation

    src/sql/ast/typing.rs once more, now with the errors it reports. [SqlModel] has the same functions with every
    error as [Err tt]; [validate_message_drop] (C79) says that the two agree. *)

From Coq Require Import Strings.String.
From Verif Require Import Base StrModel SqlNameModel SqlModel.
Local Open Scope list_scope.
Local Open Scope nat_scope.

(** One constructor per text; the texts are in [message]. *)
Inductive complaint : Type :=
| CIncompatible                           (* typing.rs:50, 74, 96, 117 *)
| CLengths                                (* 56, 102 *)
| CDuplicateRelation (n : name)           (* 191 *)
| CUndefined (n : name)                   (* 207 *)
| CAmbiguous (n : name)                   (* 212 *)
| CIsRelation (n : name)                  (* 216 *)
| CNoAttribute (n r : name)               (* 226 *)
| CNotRelation (n : name)                 (* 231 *)
| CNameLength                             (* 236 *)
| CNegate | CNot | CIsNull                (* 273, 285, 292 *)
| CArithmetic | CConcatText | CLogical    (* 328, 350, 372 *)
| COrdered | CScalarOperands | CLikeText  (* 419, 423, 442 *)
| CRangeOrdered | CRangeScalar            (* 479, 483 *)
| CThenScalar                             (* 516, 580 *)
| CInColumns | CInTypes                   (* 620, 633 *)
| CSelectColumns                          (* 649 *)
| CDuplicateCommon (n : name)             (* 850 *)
| CNoTable (n : name)                     (* 872, 895 *)
| CHidden                                 (* 881 *)
| CNoSchema (n : name)                    (* 891 *)
| CTableName                              (* 900 *)
| CValueScalar                            (* 938 *)
| CWhere                                  (* 1010, 1503, 1530 *)
| CHaving                                 (* 1036 *)
| CEmbedded                               (* 1078 *)
| CUndefinedCollection (n : name)         (* 1138 *)
| CRangeVariable (n : name)               (* 1163 *)
| CColumnScalar                           (* 1173 *)
| CSetScalar                              (* 1283 *)
| CColumnUndefined (n : name) (q : list name) (* 1382, 1413 *)
| CCannotAssign (v n : name)              (* 1389, 1420 *)
| CColumnCount                            (* 1403 *)
| CMissing (n : name)                     (* 1436 *)
| CAssignedTwice (n : name)               (* 1467 *)
| CAssignUndefined (n : name)             (* 1475 *)
| CAssignIncompatible (n : name)          (* 1482 *)
| CAssignScalar                           (* 1491 *)
| COrderScalar                            (* 1548 *)
| CLimit | COffset                        (* 1565, 1578 *)
| CColumnNotFound (n : name).             (* 1604 *)

(** The texts, letter by letter. [debug] is what [{:?}] shows for a table name. *)
Definition message (debug : list name -> list Z) (c : complaint) : list Z :=
  match c with
  | CIncompatible => lit "Incompatible types"
  | CLengths => lit "Incompatible tuple types due to different lengths"
  | CDuplicateRelation n => lit "Duplicate relation name '" ++ n ++ lit "'"
  | CUndefined n => lit "Undefined attribute name '" ++ n ++ lit "'"
  | CAmbiguous n => lit "Ambiguous attribute name '" ++ n ++ lit "'"
  | CIsRelation n => lit "Name '" ++ n ++ lit "' refers to a relation"
  | CNoAttribute n r => lit "Name '" ++ n ++ lit "' does not refer to an attribute of relation '" ++ r ++ lit "'"
  | CNotRelation n => lit "Name '" ++ n ++ lit "' does not refer to a relation"
  | CNameLength => lit "Qualfied name needs to have 1 or 2 path components"
  | CNegate => lit "Negate operation can only be applied to numeric type"
  | CNot => lit "Not operation can only be applied to logical type"
  | CIsNull => lit "Null test operation can only be applied to scalar type"
  | CArithmetic => lit "Arithmetic operation can only be applied to numeric type"
  | CConcatText => lit "Concat operation can only be applied to string type"
  | CLogical => lit "Logical operation can only be applied to logical type"
  | COrdered => lit "Operands of comparison operator need be of an ordered scalar type"
  | CScalarOperands => lit "Operands of comparison operator need be of scalar type"
  | CLikeText => lit "Operands of Like operator need be of string type"
  | CRangeOrdered => lit "Operands of range check expression need be of an ordered scalar type"
  | CRangeScalar => lit "Operands of range check expression need be of scalar type"
  | CThenScalar => lit "THEN clause must evaluate to scalar expression"
  | CInColumns => lit "Set for IN expression needs to evaluate to row set with a single column"
  | CInTypes => lit "Incompatible types for IN expression"
  | CSelectColumns => lit "SELECT statement should evaluate to a single column"
  | CDuplicateCommon n => lit "Duplicate name '" ++ n ++ lit "' for common table expression"
  | CNoTable n => lit "Table name " ++ n ++ lit " not found in schema"
  | CHidden => lit "Schema name is hidden by common table expression"
  | CNoSchema n => lit "Namespace " ++ n ++ lit " not present in database"
  | CTableName => lit "Table name references should have 1 or 2 components"
  | CValueScalar => lit "Expecting a scalar expression"
  | CWhere => lit "WHERE clause must evaluate to a BOOLEAN predicate"
  | CHaving => lit "HAVING clause must evaluate to BOOLEAN value"
  | CEmbedded => lit "Embedded tuples are not allowed in row sets"
  | CUndefinedCollection n => lit "Undefined collection named " ++ n
  | CRangeVariable n => lit "Symbol " ++ n ++ lit " needs to be a range variable"
  | CColumnScalar => lit "Result column needs to be a scalar type"
  | CSetScalar => lit "Expressions for set specification must be of scalar type"
  | CColumnUndefined n q => lit "Column '" ++ n ++ lit "' not defined in table '" ++ debug q ++ lit "'"
  | CCannotAssign v n => lit "Cannot assign value '" ++ v ++ lit "' to column '" ++ n ++ lit "'"
  | CColumnCount => lit "Length mismatch between column name list and value set provided"
  | CMissing n => lit "Missing value for non-null column '" ++ n ++ lit "'"
  | CAssignedTwice n => lit "Duplicate assignment of column '" ++ n ++ lit "'"
  | CAssignUndefined n => lit "Assignment to undefined column '" ++ n ++ lit "'"
  | CAssignIncompatible n => lit "Assignment incompatible value to column '" ++ n ++ lit "'"
  | CAssignScalar => lit "Assigned value needs to be of scalar type"
  | COrderScalar => lit "Expressions in ORDER BY clause need to be of scalar type"
  | CLimit => lit "LIMIT expression must evaluate to non-null numeric value"
  | COffset => lit "OFFSET expression must evaluate to non-null numeric value"
  | CColumnNotFound n => lit "Column " ++ n ++ lit " not found"
  end.

(** A call returning [Result] with a message. *)
Definition mres (A : Type) : Type := outcome (result A complaint).

Definition mok {A : Type} (a : A) : mres A := Ret (Ok a).
Definition merr {A : Type} (c : complaint) : mres A := Ret (Err c).

(** The [?] operator. *)
Definition mbind {A B : Type} (m : mres A) (f : A -> mres B) : mres B :=
  r <- m ;; match r with Ok a => f a | Err c => Ret (Err c) end.

Notation "x <-! e ;; f" := (mbind e (fun x => f)) (at level 61, e at next level, right associativity) : outcome_scope.
Notation "' pat <-! e ;; f" := (mbind e (fun x => match x with pat => f end))
  (at level 61, pat pattern, e at next level, right associativity) : outcome_scope.

(** A function of [SqlModel] with one way to fail, and its message. *)
Definition or_say {A : Type} (c : complaint) (r : result A unit) : mres A :=
  match r with Ok a => mok a | Err _ => merr c end.

(** Without the message. *)
Definition drop {A : Type} (m : mres A) : res A :=
  r <- m ;; Ret (match r with Ok a => Ok a | Err _ => Err tt end).

(** src/sql/ast/typing.rs:657-672 [fold_err]. *)
Section FoldSay.
Context {S A : Type} (f : S -> A -> mres S).
Fixpoint fold_say (s : S) (l : list A) : mres S :=
  match l with
  | [] => mok s
  | a :: l' => s' <-! f s a ;; fold_say s' l'
  end.
End FoldSay.

(** src/sql/ast/typing.rs:35-76 [is_compatible]. *)
Section CompatSay.
Context (f : stype -> stype -> result bool complaint).
Fixpoint compat_say_fold (acc : result bool complaint) (l1 l2 : list stype) : result bool complaint :=
  match l1, l2 with
  | a :: l1', b :: l2' =>
      compat_say_fold (match acc, f a b with
                       | Err e, _ => Err e
                       | Ok _, Err e => Err e
                       | Ok x, Ok y => Ok (x && y)
                       end) l1' l2'
  | _, _ => acc
  end.
End CompatSay.

Fixpoint compat_say (a b : stype) : result bool complaint :=
  match a, b with
  | TyScalar t1 n1, TyScalar t2 n2 => if dt_eqb t1 t2 then Ok (n1 || n2) else Err CIncompatible
  | TyTuple l1, TyTuple l2 =>
      if negb (List.length l1 =? List.length l2) then Err CLengths else compat_say_fold compat_say (Ok false) l1 l2
  | _, _ => Err CIncompatible
  end.

(** src/sql/ast/typing.rs:78-119 [unify]. *)
Section UnifySay.
Context (f : stype -> stype -> result stype complaint).
Fixpoint unify_say_fold (acc : list stype) (l1 l2 : list stype) : result (list stype) complaint :=
  match l1, l2 with
  | a :: l1', b :: l2' => match f a b with Ok x => unify_say_fold (acc ++ [x]) l1' l2' | Err e => Err e end
  | _, _ => Ok acc
  end.
End UnifySay.

Fixpoint unify_say (a b : stype) : result stype complaint :=
  match a, b with
  | TyScalar t1 n1, TyScalar t2 n2 => if dt_eqb t1 t2 then Ok (TyScalar t1 (n1 || n2)) else Err CIncompatible
  | TyTuple l1, TyTuple l2 =>
      if negb (List.length l1 =? List.length l2) then Err CLengths
      else match unify_say_fold unify_say [] l1 l2 with Ok l => Ok (TyTuple l) | Err e => Err e end
  | _, _ => Err CIncompatible
  end.

Section Messages.
Context (up : Z -> list Z).
Notation nget := (nget up).
Notation nput := (nput up).

(** src/sql/ast/typing.rs:846-854 [define_relation]. *)
Definition define_relation_say (x : set_context) (n : name) (t : row_type) : set_context * result unit complaint :=
  ({| x_namespaces := x_namespaces x; x_default := x_default x; x_tables := nput (x_tables x) n t |},
   match nget (x_tables x) n with None => Ok tt | Some _ => Err (CDuplicateCommon n) end).

(** src/sql/ast/typing.rs:856-903 [resolve_table_name]. *)
Definition resolve_say (x : set_context) (q : list name) : mres row_type :=
  match q with
  | [n] =>
      match nget (x_tables x) n with
      | Some t => mok t
      | None =>
          match nget (x_namespaces x) (x_default x) with
          | None => Panic
          | Some ns => match nget ns n with Some t => mok t | None => merr (CNoTable n) end
          end
      end
  | [s; n] =>
      match nget (x_tables x) s with
      | Some _ => merr CHidden
      | None =>
          match nget (x_namespaces x) s with
          | None => merr (CNoSchema s)
          | Some ns => match nget ns n with Some t => mok t | None => merr (CNoTable n) end
          end
      end
  | _ => merr CTableName
  end.

(** src/sql/ast/typing.rs:203-239 [ScalarContext::infer_type]. *)
Definition name_say (y : symbols) (q : list name) : result stype complaint :=
  match q with
  | [n] =>
      match nget y n with
      | None => Err (CUndefined n)
      | Some (SyAttribute t) => Ok t
      | Some SyConflict => Err (CAmbiguous n)
      | Some (SyRelation _) => Err (CIsRelation n)
      end
  | [r; n] =>
      match nget y r with
      | Some (SyRelation m) => match nget m n with Some t => Ok t | None => Err (CNoAttribute n r) end
      | _ => Err (CNotRelation r)
      end
  | _ => Err CNameLength
  end.

(** src/sql/ast/typing.rs:189-199: the only error of [add_relation]. *)
Definition relation_say (y : symbols) (n : name) (attrs : list attribute) : mres symbols :=
  or_say (CDuplicateRelation n) (add_relation up y n attrs).

(** src/sql/ast/typing.rs:264-295. *)
Definition unary_say (op : unary_op) (t : stype) : mres stype :=
  or_say (match op with UNegate => CNegate | UNot => CNot | UIsNull => CIsNull end) (unary_type op t).

(** src/sql/ast/typing.rs:307-376. *)
Definition binary_say (op : binary_op) (l r : stype) : mres stype :=
  or_say (match op with
          | BMultiply | BDivide | BAdd | BSubtract => CArithmetic
          | BConcat => CConcatText
          | BAnd | BOr => CLogical
          end) (binary_type op l r).

(** src/sql/ast/typing.rs:388-445. *)
Definition compare_say (op : compare_op) (l r : stype) : mres stype :=
  match op with
  | CEqual | CNotEqual => Ret (match compat_say l r with Ok n => Ok (TyScalar DLogical n) | Err e => Err e end)
  | CLess | CLessEqual | CGreater | CGreaterEqual =>
      match l, r with
      | TyScalar t1 n1, TyScalar t2 n2 =>
          if dt_eqb t1 t2 && is_ordered t1 then mok (TyScalar DLogical (n1 || n2)) else merr COrdered
      | _, _ => merr CScalarOperands
      end
  | CLike =>
      match l, r with
      | TyScalar DVarchar n1, TyScalar DVarchar n2 => mok (TyScalar DLogical (n1 || n2))
      | _, _ => merr CLikeText
      end
  end.

(** src/sql/ast/typing.rs:458-485. *)
Definition between_say (e lo hi : stype) : mres stype :=
  match e, lo, hi with
  | TyScalar t1 n1, TyScalar t2 n2, TyScalar t3 n3 =>
      if dt_eqb t1 t2 && dt_eqb t1 t3 && is_ordered t1 then mok (TyScalar DLogical (n1 || n2 || n3)) else merr CRangeOrdered
  | _, _, _ => merr CRangeScalar
  end.

(** src/sql/ast/typing.rs:511-523. *)
Definition case_step_say (acc body : stype) : result stype complaint :=
  match compat_say body acc with
  | Err e => Err e
  | Ok n1 =>
      match body with
      | TyTuple _ => Err CThenScalar
      | TyScalar t n => Ok (TyScalar t (n || n1))
      end
  end.

(** src/sql/ast/typing.rs:618-634. *)
Definition in_say (t : stype) (set : row_type) : result stype complaint :=
  match r_attrs set with
  | [a] =>
      match compat_say t (attr_type a) with
      | Ok true => Ok (TyScalar DLogical false)
      | Ok false => Err CInTypes
      | Err e => Err e
      end
  | _ => Err CInColumns
  end.

(** src/sql/ast/typing.rs:1056-1081. *)
Fixpoint unify_columns_say (l r : list attribute) : result (list attribute) complaint :=
  match l, r with
  | a :: l', b :: r' =>
      match unify_say (attr_type a) (attr_type b) with
      | Ok (TyScalar t n) =>
          match unify_columns_say l' r' with
          | Ok rest => Ok ({| a_name := a_name a; a_type := t; a_null := n |} :: rest)
          | Err e => Err e
          end
      | Ok (TyTuple _) => Err CEmbedded
      | Err e => Err e
      end
  | _, _ => Ok []
  end.

(** src/sql/ast/typing.rs:1597-1610. *)
Fixpoint pick_columns_say (attrs : list attribute) (names : list name) : result (list attribute) complaint :=
  match names with
  | [] => Ok []
  | n :: names' =>
      match find_column up attrs n with
      | None => Err (CColumnNotFound n)
      | Some a =>
          match pick_columns_say attrs names' with
          | Ok rest => Ok ({| a_name := n; a_type := a_type a; a_null := a_null a |} :: rest)
          | Err e => Err e
          end
      end
  end.

(** Evaluating the members of a list in order up to the first error. *)
Section CollectSay.
Context {A B : Type} (f : A -> mres B).
Fixpoint collect_say (l : list A) : mres (list B) :=
  match l with
  | [] => mok []
  | a :: l' => b <-! f a ;; bs <-! collect_say l' ;; mok (b :: bs)
  end.
End CollectSay.

(** src/sql/ast/typing.rs:508-523 (and 572-587): the bodies of a CASE. *)
Section BodiesSay.
Context (f : expr -> mres stype).
Fixpoint bodies_say_rest (acc : stype) (l : list (expr * expr)) : mres stype :=
  match l with
  | [] => mok acc
  | (_, e) :: l' => t <-! f e ;; acc' <-! Ret (case_step_say acc t) ;; bodies_say_rest acc' l'
  end.

Definition bodies_say (l : list (expr * expr)) : mres stype :=
  match l with
  | [] => Panic
  | (_, e) :: l' => t <-! f e ;; bodies_say_rest t l'
  end.
End BodiesSay.

(** src/sql/ast/typing.rs:526-546 (and 590-610). *)
Definition else_say (els : option (mres stype)) (t : stype) : mres stype :=
  match els, t with
  | None, TyScalar d _ => mok (TyScalar d true)
  | Some body, TyScalar d n =>
      b <-! body ;; n1 <-! Ret (compat_say b t) ;; mok (TyScalar d (n1 || n))
  | _, TyTuple _ => Panic
  end.

(** src/sql/ast/typing.rs:1262-1268: an error of a later member replaces an earlier one. *)
Section MembersSay.
Context (f : expr -> mres stype).
Fixpoint members_say_rest (acc : result stype complaint) (l : list expr) : mres stype :=
  match l with
  | [] => Ret acc
  | e :: l' =>
      r <- f e ;;
      members_say_rest (match r with
                        | Err e => Err e
                        | Ok t => match acc with Err e => Err e | Ok a => unify_say a t end
                        end) l'
  end.

Definition members_say (l : list expr) : mres stype :=
  match l with
  | [] => Panic
  | e :: l' => r <- f e ;; members_say_rest r l'
  end.
End MembersSay.

(** src/sql/ast/typing.rs:931-974: the rows of VALUES. *)
Section RowsSay.
Context (f : expr -> mres stype).
Fixpoint first_row_say (count : nat) (l : list expr) : mres (list attribute) :=
  match l with
  | [] => mok []
  | e :: l' =>
      t <-! f e ;;
      '(d, n) <-! or_say CValueScalar (scalar t) ;;
      rest <-! first_row_say (S count) l' ;;
      mok ({| a_name := lit "_col" ++ show_nat count; a_type := d; a_null := n |} :: rest)
  end.

Fixpoint next_row_say (types : list attribute) (l : list expr) {struct l} : mres (list attribute) :=
  match l, types with
  | e :: l', a :: types' =>
      t <-! f e ;;
      u <-! Ret (unify_say (attr_type a) t) ;;
      match u with
      | TyScalar d n =>
          rest <-! next_row_say types' l' ;;
          mok ({| a_name := a_name a; a_type := d; a_null := n |} :: rest)
      | TyTuple _ => Panic
      end
  | _, _ => mok []
  end.
End RowsSay.

Definition values_say (f : expr -> mres stype) (rows : list (list expr)) : mres row_type :=
  match rows with
  | [] => Panic
  | r :: rows' =>
      types <-! first_row_say f 0 r ;;
      types' <-! fold_say (next_row_say f) types rows' ;;
      mok (plain_row types')
  end.

(** The functions of [SqlModel.infer] with messages; the same lines of src/sql/ast/typing.rs. *)
Fixpoint infer_say (x : set_context) (y : symbols) (e : expr) : mres stype :=
  match e with
  | ELiteral l => mok (literal_type l)
  | EName q => Ret (name_say y q)
  | ETuple es => ts <-! collect_say (infer_say x y) es ;; mok (TyTuple ts)
  | EUnary op e => t <-! infer_say x y e ;; unary_say op t
  | EBinary op l r => t1 <-! infer_say x y l ;; t2 <-! infer_say x y r ;; binary_say op t1 t2
  | ECompare op l r => t1 <-! infer_say x y l ;; t2 <-! infer_say x y r ;; compare_say op t1 t2
  | EBetween e lo hi =>
      t <-! infer_say x y e ;; t1 <-! infer_say x y lo ;; t2 <-! infer_say x y hi ;; between_say t t1 t2
  | ECase None whens els =>
      _ <- guards (fun e => drop (infer_say x y e)) logical whens ;;
      t <-! bodies_say (infer_say x y) whens ;;
      else_say (match els with None => None | Some e => Some (infer_say x y e) end) t
  | ECase (Some e) whens els =>
      te <-! infer_say x y e ;;
      _ <- guards (fun e => drop (infer_say x y e)) (fun t => match is_compatible t te with Ok true => Ok tt | _ => Err tt end) whens ;;
      t <-! bodies_say (infer_say x y) whens ;;
      else_say (match els with None => None | Some e => Some (infer_say x y e) end) t
  | EIn e s => t <-! infer_say x y e ;; r <-! infer_spec_say x y s ;; Ret (in_say t r)
  | ESelect s => r <-! infer_select_say x s ;; or_say CSelectColumns (select_scalar r)
  end
with infer_spec_say (x : set_context) (y : symbols) (s : set_spec) : mres row_type :=
  match s with
  | SpSelect s => infer_select_say x s
  | SpName q => resolve_say x q
  | SpList es =>
      t <-! members_say (infer_say x y) es ;;
      '(d, n) <-! or_say CSetScalar (scalar t) ;;
      mok (plain_row [{| a_name := lit "_col0"; a_type := d; a_null := n |}])
  end
with infer_select_say (x : set_context) (s : select) : mres row_type :=
  match s with
  | Select common e order lim =>
      y <-! fold_say (fun y c => t <-! infer_cte_say x c ;; relation_say y (cte_id c) (r_attrs t)) [] common ;;
      t <-! infer_set_say x e ;;
      _ <-! fold_say (fun _ o => t <-! infer_say x y (fst (fst o)) ;; _ <-! or_say COrderScalar (scalar t) ;; mok tt) tt order ;;
      match lim with
      | None => mok t
      | Some (rows, offset) =>
          n <-! infer_say x [] rows ;;
          _ <-! or_say CLimit (limit_number n) ;;
          match offset with
          | None => mok t
          | Some o => n <-! infer_say x [] o ;; _ <-! or_say COffset (limit_number n) ;; mok t
          end
      end
  end
with infer_cte_say (x : set_context) (c : cte) : mres row_type :=
  match c with
  | Cte _ columns q =>
      t <-! infer_select_say x q ;;
      match columns with
      | None => mok t
      | Some names =>
          attrs <-! Ret (pick_columns_say (r_attrs t) names) ;;
          mok {| r_attrs := attrs; r_primary := r_primary t; r_order := r_order t |}
      end
  end
with infer_set_say (x : set_context) (e : set_expr) : mres row_type :=
  match e with
  | SValues rows => values_say (infer_say x []) rows
  | SQuery _ columns from wh group =>
      '(y, attrs) <-! fold_say (fun '(y, attrs) t =>
                         '(y', attrs') <-! infer_table_say x y t ;; mok (y', attrs ++ attrs')) ([], []) from ;;
      _ <-! match wh with
            | None => mok tt
            | Some e => t <-! infer_say x y e ;; or_say CWhere (logical t)
            end ;;
      _ <-! match group with
            | None => mok tt
            | Some (gs, having) =>
                _ <-! fold_say (fun _ e => _ <-! infer_say x y e ;; mok tt) tt gs ;;
                match having with
                | None => mok tt
                | Some e => t <-! infer_say x y e ;; or_say CHaving (logical t)
                end
            end ;;
      infer_columns_say x y attrs columns
  | SOp _ l r =>
      t1 <-! infer_set_say x l ;;
      t2 <-! infer_set_say x r ;;
      attrs <-! Ret (unify_columns_say (r_attrs t1) (r_attrs t2)) ;;
      mok (plain_row attrs)
  end
with infer_table_say (x : set_context) (y : symbols) (t : table_expr) : mres (symbols * list attribute) :=
  match t with
  | TNamed q alias =>
      r <-! resolve_say x q ;;
      id <- match alias with Some id => Ret id | None => last_name q end ;;
      y' <-! relation_say y id (r_attrs r) ;;
      mok (y', r_attrs r)
  | TSelect s _ => r <-! infer_select_say x s ;; mok (y, r_attrs r)
  | TJoin l r _ _ =>
      '(y1, attrs1) <-! infer_table_say x y l ;;
      '(y2, attrs2) <-! infer_table_say x y1 r ;;
      mok (y2, attrs1 ++ attrs2)
  end
with infer_columns_say (x : set_context) (y : symbols) (attrs : list attribute) (c : result_columns) : mres row_type :=
  match c with
  | RAll => mok (plain_row (all_columns up attrs))
  | RList l =>
      '(cols, _) <-! fold_say (fun st c => infer_column_say x y st c) ([], []) l ;;
      mok (plain_row cols)
  end
with infer_column_say (x : set_context) (y : symbols) (st : list attribute * nmap nat) (c : result_column)
  : mres (list attribute * nmap nat) :=
  match c with
  | RAllFrom n =>
      match nget y n with
      | None => merr (CUndefinedCollection n)
      | Some (SyRelation m) => st' <- relation_columns up st m ;; mok st'
      | Some _ => merr (CRangeVariable n)
      end
  | RExpr e rename =>
      t <-! infer_say x y e ;;
      '(d, n) <-! or_say CColumnScalar (scalar t) ;;
      mok (push_column up st (match rename with None => lit "col" | Some n => n end) d n)
  end.

(** src/sql/ast/typing.rs:906-922 [SetContext::initialize]. *)
Definition initialize_say (db : database) (dflt : name) (ctes : list cte) : mres set_context :=
  fold_say (fun x c => t <-! infer_cte_say x c ;;
                       match define_relation_say x (cte_id c) t with
                       | (x', Ok _) => mok x'
                       | (_, Err e) => merr e
                       end) (set_context_new up db dflt) ctes.

(** src/sql/ast/typing.rs:1379-1396 and 1410-1427; [q] is the name of the table. *)
Definition insert_column_say (q : list name) (m : nmap (data_type * bool)) (a : attribute) (n : name)
  : mres (nmap (data_type * bool)) :=
  match nget m n with
  | None => merr (CColumnUndefined n q)
  | Some (t, null) =>
      if negb (dt_eqb t (a_type a)) || (negb null && a_null a) then merr (CCannotAssign (a_name a) n) else mok (nremove up m n)
  end.

(** src/sql/ast/typing.rs:1363-1443 [InsertStatement::validate_type]. *)
Definition validate_insert_say (x : set_context) (i : insert) : mres unit :=
  t <-! resolve_say x (i_table i) ;;
  v <-! infer_set_say x (i_source i) ;;
  m <-! match i_columns i with
        | None => fold_say (fun m a => insert_column_say (i_table i) m a (a_name a)) (row_type_map up t) (r_attrs v)
        | Some columns =>
            if negb (List.length columns =? List.length (r_attrs v)) then merr CColumnCount
            else fold_say (fun m e => insert_column_say (i_table i) m (fst e) (snd e)) (row_type_map up t)
                          (combine (r_attrs v) columns)
        end ;;
  match find (fun e => negb (snd (snd e))) m with
  | Some e => merr (CMissing (fst e))
  | None => mok tt
  end.

(** src/sql/ast/typing.rs:1464-1490. *)
Definition assign_column_say (m : nmap (data_type * bool)) (t : data_type) (null : bool) (assigned : nmap unit) (n : name)
  : mres (nmap unit) :=
  match nget assigned n with
  | Some _ => merr (CAssignedTwice n)
  | None =>
      match nget m n with
      | None => merr (CAssignUndefined n)
      | Some (ct, cnull) =>
          if negb (dt_eqb ct t) || (null && negb cnull) then merr (CAssignIncompatible n) else mok (nput assigned n tt)
      end
  end.

(** src/sql/ast/typing.rs:1447-1511 [UpdateStatement::validate_type]. *)
Definition validate_update_say (x : set_context) (u : update) : mres unit :=
  t <-! resolve_say x (u_table u) ;;
  id <- last_name (u_table u) ;;
  y <-! relation_say [] id (r_attrs t) ;;
  _ <-! fold_say (fun assigned a =>
                    st <-! infer_say x y (snd a) ;;
                    '(d, n) <-! or_say CAssignScalar (scalar st) ;;
                    fold_say (fun assigned c => assign_column_say (row_type_map up t) d n assigned c) assigned (fst a))
                 [] (u_assignments u) ;;
  match u_where u with
  | None => mok tt
  | Some e => st <-! infer_say x y e ;; or_say CWhere (logical st)
  end.

(** src/sql/ast/typing.rs:1515-1538 [DeleteStatement::validate_type]. *)
Definition validate_delete_say (x : set_context) (d : delete) : mres unit :=
  t <-! resolve_say x (d_table d) ;;
  id <- last_name (d_table d) ;;
  y <-! relation_say [] id (r_attrs t) ;;
  match d_where d with
  | None => mok tt
  | Some e => st <-! infer_say x y e ;; or_say CWhere (logical st)
  end.

(** src/sql/ast/typing.rs:1322-1332. *)
Definition validate_statement_say (x : set_context) (s : statement) : mres unit :=
  match s with
  | StSelect s => _ <-! infer_select_say x s ;; mok tt
  | StInsert i => validate_insert_say x i
  | StUpdate u => validate_update_say x u
  | StDelete d => validate_delete_say x d
  end.

(** src/sql/ast/typing.rs:1292-1318. *)
Definition validate_say (x : set_context) (s : sql_statement) : mres unit :=
  match s with
  | SqlStatement s | SqlExplain s => validate_statement_say x s
  | SqlAttach _ _ => mok tt
  | SqlDescribe q => _ <-! resolve_say x q ;; mok tt
  end.

End Messages.
