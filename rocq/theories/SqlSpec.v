(** * Specification side of the SQL properties: scopes, values and a reference evaluator

    Nothing here refers to the inference functions, except [add_relations], which iterates
    [add_relation] the way a FROM clause does. *)

From Verif Require Import Base SqlNameModel SqlModel.

Section Spec.
Context (up : Z -> list Z).
Notation same := (name_eqb up).

(** ** Scopes: the relations of a FROM clause with their attributes *)

Definition relations : Type := list (name * list attribute).

(** The relations entered one after the other. *)
Fixpoint add_relations (y : symbols) (rels : relations) : result symbols unit :=
  match rels with
  | [] => Ok y
  | (n, attrs) :: rels' =>
      match add_relation up y n attrs with
      | Ok y' => add_relations y' rels'
      | Err e => Err e
      end
  end.

(** No two names are equal up to letter case. *)
Definition distinct (l : list name) : Prop := ForallOrdPairs (fun a b => same a b = false) l.

(** [a] occurs in [l] and no later attribute has an equal name. *)
Definition last_named (l : list attribute) (a : attribute) : Prop :=
  exists l1 l2, l = l1 ++ a :: l2 /\ Forall (fun b => same (a_name a) (a_name b) = false) l2.

(** The attributes named [n]. *)
Definition named (n : name) (l : list attribute) : list attribute := filter (fun a => same n (a_name a)) l.

(** ** Values *)

(** A value: NULL, a truth value, a datum of another data type, or a row value. *)
Inductive value : Type :=
| VNull
| VBool (b : bool)
| VData (t : data_type) (p : list Z)
| VRow (l : list value).

(** The operations of the data types are arbitrary functions; [None] is an arithmetic error. *)
Record world : Type := {
  w_arith : binary_op -> list Z -> list Z -> option (list Z);
  w_negate : list Z -> option (list Z);
  w_equal : data_type -> list Z -> list Z -> bool;
  w_less : data_type -> list Z -> list Z -> bool;
  w_like : list Z -> list Z -> bool;
  w_literal : literal -> list Z
}.

(** A value of a data type; NULL belongs to each. *)
Definition of_type (v : value) (t : data_type) : Prop :=
  match v with
  | VNull => True
  | VBool _ => t = DLogical
  | VData t' _ => t' = t /\ t <> DLogical
  | VRow _ => False
  end.

(** A value of a scalar or row type (nullability is not looked at). *)
Inductive of_stype : value -> stype -> Prop :=
| of_scalar v t n : of_type v t -> of_stype v (TyScalar t n)
| of_tuple vs ts : of_stypes vs ts -> of_stype (VRow vs) (TyTuple ts)
with of_stypes : list value -> list stype -> Prop :=
| of_nil : of_stypes [] []
| of_cons v t vs ts : of_stype v t -> of_stypes vs ts -> of_stypes (v :: vs) (t :: ts).

(** The current row of every relation in scope. *)
Definition env : Type := list (name * list (name * value)).

Definition conforms (rels : relations) (en : env) : Prop :=
  Forall2 (fun r e =>
    fst r = fst e /\
    Forall2 (fun a c => a_name a = fst c /\ of_type (snd c) (a_type a) /\ (a_null a = false -> snd c <> VNull))
            (snd r) (snd e)) rels en.

(** ** Reference evaluation with SQL's three-valued logic *)

(** [Outside]: a construct this evaluator does not cover (sub-selects). *)
Inductive answer : Type :=
| Val (v : value)
| TypeError
| Arithmetic
| Outside.

Definition and_then (r : answer) (f : value -> answer) : answer :=
  match r with Val v => f v | _ => r end.

(** A column reference must denote exactly one column of exactly one relation. *)
Definition lookup (en : env) (q : list name) : answer :=
  match q with
  | [a] =>
      match filter (fun c => same a (fst c)) (flat_map snd en) with
      | [(_, v)] => Val v
      | _ => TypeError
      end
  | [r; a] =>
      match filter (fun e => same r (fst e)) en with
      | [(_, cols)] =>
          match filter (fun c => same a (fst c)) cols with
          | [(_, v)] => Val v
          | _ => TypeError
          end
      | _ => TypeError
      end
  | _ => TypeError
  end.

Context (w : world).

Definition eval_literal (l : literal) : value :=
  match l with
  | LNull => VNull
  | LString s => VData DVarchar s
  | LNumeric _ => VData DNumeric (w_literal w l)
  | LDate _ | LCurrentDate => VData DDate (w_literal w l)
  | LTime _ | LCurrentTime => VData DTime (w_literal w l)
  | LTimestamp _ | LCurrentTimestamp => VData DTimestamp (w_literal w l)
  end.

(** A number, or NULL. *)
Definition as_number (v : value) : option (option (list Z)) :=
  match v with
  | VNull => Some None
  | VData DNumeric p => Some (Some p)
  | _ => None
  end.

Definition as_text (v : value) : option (option (list Z)) :=
  match v with
  | VNull => Some None
  | VData DVarchar p => Some (Some p)
  | _ => None
  end.

Definition as_truth (v : value) : option (option bool) :=
  match v with
  | VNull => Some None
  | VBool b => Some (Some b)
  | _ => None
  end.

Definition number (o : option (list Z)) : answer :=
  match o with Some p => Val (VData DNumeric p) | None => Arithmetic end.

Definition truth (o : option bool) : value :=
  match o with Some b => VBool b | None => VNull end.

(** Kleene's connectives. *)
Definition and3 (a b : option bool) : option bool :=
  match a, b with
  | Some false, _ | _, Some false => Some false
  | Some true, Some true => Some true
  | _, _ => None
  end.

Definition or3 (a b : option bool) : option bool :=
  match a, b with
  | Some true, _ | _, Some true => Some true
  | Some false, Some false => Some false
  | _, _ => None
  end.

Definition not3 (a : option bool) : option bool := match a with Some b => Some (negb b) | None => None end.

Definition eval_unary (op : unary_op) (v : value) : answer :=
  match op with
  | UNegate => match as_number v with
               | None => TypeError
               | Some None => Val VNull
               | Some (Some p) => number (w_negate w p)
               end
  | UNot => match as_truth v with None => TypeError | Some t => Val (truth (not3 t)) end
  | UIsNull => match v with
               | VRow _ => TypeError
               | VNull => Val (VBool true)
               | _ => Val (VBool false)
               end
  end.

Definition eval_binary (op : binary_op) (a b : value) : answer :=
  match op with
  | BMultiply | BDivide | BAdd | BSubtract =>
      match as_number a, as_number b with
      | Some (Some p), Some (Some q) => number (w_arith w op p q)
      | Some _, Some _ => Val VNull
      | _, _ => TypeError
      end
  | BConcat =>
      match as_text a, as_text b with
      | Some (Some p), Some (Some q) => Val (VData DVarchar (p ++ q))
      | Some _, Some _ => Val VNull
      | _, _ => TypeError
      end
  | BAnd | BOr =>
      match as_truth a, as_truth b with
      | Some p, Some q => Val (truth (match op with BAnd => and3 p q | _ => or3 p q end))
      | _, _ => TypeError
      end
  end.

(** Equality: [None] is a type error. Rows are equal when all their components are. *)
Section Equals.
Context (f : value -> value -> option (option bool)).
Fixpoint equal_rows (l1 l2 : list value) : option (option bool) :=
  match l1, l2 with
  | [], [] => Some (Some true)
  | a :: l1', b :: l2' =>
      match f a b, equal_rows l1' l2' with
      | Some p, Some q => Some (and3 p q)
      | _, _ => None
      end
  | _, _ => None
  end.
End Equals.

Fixpoint equal3 (a b : value) : option (option bool) :=
  match a, b with
  | VRow l1, VRow l2 => equal_rows equal3 l1 l2
  | VRow _, _ | _, VRow _ => None
  | VNull, _ | _, VNull => Some None
  | VBool p, VBool q => Some (Some (Bool.eqb p q))
  | VData t p, VData u q => if dt_eqb t u then Some (Some (w_equal w t p q)) else None
  | _, _ => None
  end.

(** Order: only the data types with an order, and only within one of them. *)
Definition less3 (a b : value) : option (option bool) :=
  match a, b with
  | VRow _, _ | _, VRow _ => None
  | VNull, _ | _, VNull => Some None
  | VData t p, VData u q => if dt_eqb t u && is_ordered t then Some (Some (w_less w t p q)) else None
  | _, _ => None
  end.

Definition judged (o : option (option bool)) : answer :=
  match o with None => TypeError | Some t => Val (truth t) end.

Definition negated (o : option (option bool)) : option (option bool) :=
  match o with None => None | Some t => Some (not3 t) end.

Definition eval_compare (op : compare_op) (a b : value) : answer :=
  match op with
  | CEqual => judged (equal3 a b)
  | CNotEqual => judged (negated (equal3 a b))
  | CLess => judged (less3 a b)
  | CGreater => judged (less3 b a)
  | CLessEqual => judged (negated (less3 b a))
  | CGreaterEqual => judged (negated (less3 a b))
  | CLike => match as_text a, as_text b with
             | Some (Some p), Some (Some q) => Val (VBool (w_like w p q))
             | Some _, Some _ => Val VNull
             | _, _ => TypeError
             end
  end.

(** [e BETWEEN lo AND hi] is [lo <= e AND e <= hi]. *)
Definition eval_between (e lo hi : value) : answer :=
  match negated (less3 e lo), negated (less3 hi e) with
  | Some p, Some q => Val (truth (and3 p q))
  | _, _ => TypeError
  end.

(** Evaluating the members of a list in order. *)
Section EvalList.
Context (f : expr -> answer).
Fixpoint eval_list (l : list expr) : answer :=
  match l with
  | [] => Val (VRow [])
  | e :: l' =>
      and_then (f e) (fun v => and_then (eval_list l') (fun r =>
        match r with VRow vs => Val (VRow (v :: vs)) | _ => TypeError end))
  end.

(** [v IN (l)]: the disjunction of the equalities. *)
Fixpoint eval_in (v : value) (l : list expr) : answer :=
  match l with
  | [] => Val (VBool false)
  | e :: l' =>
      and_then (f e) (fun u => and_then (eval_in v l') (fun r =>
        match equal3 v u, as_truth r with
        | Some p, Some q => Val (truth (or3 p q))
        | _, _ => TypeError
        end))
  end.

(** The WHEN clauses: the first whose guard holds is taken. *)
Fixpoint eval_when (holds : value -> option (option bool)) (whens : list (expr * expr)) (els : answer) : answer :=
  match whens with
  | [] => els
  | (g, b) :: whens' =>
      and_then (f g) (fun v =>
        match holds v with
        | None => TypeError
        | Some (Some true) => f b
        | Some _ => eval_when holds whens' els
        end)
  end.
End EvalList.

Fixpoint eval (en : env) (e : expr) : answer :=
  match e with
  | ELiteral l => Val (eval_literal l)
  | EName q => lookup en q
  | ETuple es => eval_list (eval en) es
  | EUnary op e => and_then (eval en e) (eval_unary op)
  | EBinary op l r => and_then (eval en l) (fun a => and_then (eval en r) (eval_binary op a))
  | ECompare op l r => and_then (eval en l) (fun a => and_then (eval en r) (eval_compare op a))
  | EBetween e lo hi =>
      and_then (eval en e) (fun v => and_then (eval en lo) (fun a => and_then (eval en hi) (eval_between v a)))
  | EIn e (SpList l) => and_then (eval en e) (fun v => eval_in (eval en) v l)
  | ECase None whens els =>
      eval_when (eval en) as_truth whens (match els with None => Val VNull | Some e => eval en e end)
  | ECase (Some e) whens els =>
      and_then (eval en e) (fun v =>
        eval_when (eval en) (equal3 v) whens (match els with None => Val VNull | Some e => eval en e end))
  | EIn _ _ | ESelect _ => Outside
  end.

(** ** The fragment: literals, columns, arithmetic, concatenation, comparison, BETWEEN, LIKE, AND, OR, NOT; row values
    only if [rows] is set. *)
Section Fragment.
Context (rows : bool).
Fixpoint plain (e : expr) : bool :=
  match e with
  | ELiteral _ | EName _ => true
  | ETuple es => rows && forallb plain es
  | EUnary UIsNull _ => false
  | EUnary _ e => plain e
  | EBinary _ l r => plain l && plain r
  | ECompare _ l r => plain l && plain r
  | EBetween e lo hi => plain e && plain lo && plain hi
  | EIn _ _ | ECase _ _ _ | ESelect _ => false
  end.
End Fragment.

End Spec.
