(** * Writing statements

    For every statement that passes [grammatical] a text the parser turns into it. Parentheses stand only where the
    precedence of the operators asks for them. *)

From Coq Require Import Strings.String.
From Verif Require Import Base StrModel JsonModel SqlNameModel SqlModel LrModel SqlGrammar SqlWords.
Local Open Scope list_scope.

Definition kw (s : string) : LrModel.token := (terminal s, JsonModel.lit s).

Section Sep.
Context {A : Type} (f : A -> list LrModel.token) (c : LrModel.token).
Fixpoint sep (l : list A) : list LrModel.token :=
  match l with
  | [] => []
  | [a] => f a
  | a :: l' => f a ++ [c] ++ sep l'
  end.
End Sep.

Definition show_name (n : name) : list LrModel.token := [(terminal "ID", n)].
Definition show_names (l : list name) : list LrModel.token := sep show_name (kw ",") l.
Definition show_path (q : list name) : list LrModel.token := sep show_name (kw ".") q.
Definition show_string (s : str) : list LrModel.token := [(terminal "STRING_LIT", 39%Z :: s ++ [39%Z])].

Definition show_number (s : str) : list LrModel.token :=
  if (nth 0 s 0 =? 46)%Z then [(terminal "NUMERIC_LIT_2", s)]
  else if (nth 1 s 0 =? 120)%Z then [(terminal "HEX_LIT", s)]
  else [(terminal "NUMERIC_LIT_1", s)].

Definition show_literal (l : literal) : list LrModel.token :=
  match l with
  | LNumeric s => show_number s
  | LString s => show_string s
  | LNull => [kw "NULL"]
  | LCurrentTime => [kw "CURRENT_TIME"]
  | LCurrentDate => [kw "CURRENT_DATE"]
  | LCurrentTimestamp => [kw "CURRENT_TIMESTAMP"]
  | LDate s => kw "DATE" :: show_string s
  | LTime s => kw "TIME" :: show_string s
  | LTimestamp s => kw "TIMESTAMP" :: show_string s
  end.

Definition paren (l : list LrModel.token) : list LrModel.token := [kw "("] ++ l ++ [kw ")"].

Definition binary_token (op : binary_op) : LrModel.token :=
  match op with
  | BMultiply => kw "*" | BDivide => kw "/" | BAdd => kw "+" | BSubtract => kw "-" | BConcat => kw "||" | BAnd => kw "AND" | BOr => kw "OR"
  end.
Definition compare_token (op : compare_op) : LrModel.token :=
  match op with
  | CEqual => kw "=" | CNotEqual => kw "!=" | CLess => kw "<" | CLessEqual => kw "<=" | CGreater => kw ">" | CGreaterEqual => kw ">="
  | CLike => kw "LIKE"
  end.
Definition set_op_tokens (op : set_op) : list LrModel.token :=
  match op with SIntersect => [kw "INTERSECT"] | SExcept => [kw "EXCEPT"] | SUnion => [kw "UNION"] | SUnionAll => [kw "UNION"; kw "ALL"] end.
Definition join_type_token (t : join_type) : LrModel.token :=
  match t with JInner => kw "INNER" | JLeft => kw "LEFT" | JRight => kw "RIGHT" | JFull => kw "FULL" end.
Definition join_tokens (op : join_op) : list LrModel.token :=
  match op with
  | JJoin t => [join_type_token t; kw "JOIN"]
  | JNatural t => [kw "NATURAL"; join_type_token t; kw "JOIN"]
  | JCross => [kw "CROSS"; kw "JOIN"]
  end.

Section Opts.
Context {A : Type} (f : A -> list LrModel.token).
Definition opt_show (before : list LrModel.token) (o : option A) : list LrModel.token :=
  match o with Some a => before ++ f a | None => [] end.
End Opts.

(** How tightly the outermost operator binds: OR 0, AND 1, NOT 2, CASE 3, comparisons 4, [+] [-] [||] 5, [*] [/] 6,
    the sign 7; 8 for what needs no parentheses anywhere. *)
Definition level (e : expr) : nat :=
  match e with
  | EBinary BOr _ _ => 0
  | EBinary BAnd _ _ => 1
  | EUnary UNot _ => 2
  | ECase _ _ _ => 3
  | ECompare _ _ _ | EUnary UIsNull _ | EIn _ _ | EBetween _ _ _ => 4
  | EBinary (BAdd | BSubtract | BConcat) _ _ => 5
  | EBinary (BMultiply | BDivide) _ _ => 6
  | EUnary UNegate _ => 7
  | ELiteral _ | EName _ | ETuple _ | ESelect _ => 8
  end.

(** [w], the text of [e], where an operand binding at least as tightly as [l] is wanted. *)
Definition wrap (l : nat) (e : expr) (w : list LrModel.token) : list LrModel.token := if l <=? level e then w else paren w.

(** Operators of the same level group to the left. *)
Fixpoint show (e : expr) : list LrModel.token :=
  match e with
  | ELiteral l => show_literal l
  | EName q => show_path q
  | ETuple es => paren (sep show (kw ",") es)
  | ESelect s => paren (show_select s)
  | EUnary UNegate e => [kw "-"] ++ wrap 7 e (show e)
  | EUnary UNot e => [kw "NOT"] ++ wrap 3 e (show e)
  | EUnary UIsNull e => wrap 4 e (show e) ++ [kw "ISNULL"]
  | EBinary ((BMultiply | BDivide) as op) l r => wrap 6 l (show l) ++ [binary_token op] ++ wrap 7 r (show r)
  | EBinary ((BAdd | BSubtract | BConcat) as op) l r => wrap 5 l (show l) ++ [binary_token op] ++ wrap 6 r (show r)
  | EBinary BAnd l r => wrap 1 l (show l) ++ [kw "AND"] ++ wrap 2 r (show r)
  | EBinary BOr l r => wrap 0 l (show l) ++ [kw "OR"] ++ wrap 1 r (show r)
  | ECompare op l r => wrap 4 l (show l) ++ [compare_token op] ++ wrap 5 r (show r)
  | EIn e s => wrap 4 e (show e) ++ [kw "IN"] ++ show_spec s
  | EBetween e lo hi => wrap 4 e (show e) ++ [kw "BETWEEN"] ++ wrap 5 lo (show lo) ++ [kw "AND"] ++ wrap 5 hi (show hi)
  | ECase o whens els =>
      [kw "CASE"] ++ opt_show show [] o ++
      List.concat (map (fun p => [kw "WHEN"] ++ show (fst p) ++ [kw "THEN"] ++ show (snd p)) whens) ++
      opt_show show [kw "ELSE"] els ++ [kw "END"]
  end
with show_spec (s : set_spec) : list LrModel.token :=
  match s with
  | SpSelect s => paren (show_select s)
  | SpList es => paren (sep show (kw ",") es)
  | SpName q => show_path q
  end
with show_select (s : select) : list LrModel.token :=
  match s with
  | Select common e order lim =>
      match common with [] => [] | _ => [kw "WITH"] ++ sep show_cte (kw ",") common end ++ show_set e ++
      match order with
      | [] => []
      | _ => [kw "ORDER"; kw "BY"] ++ sep (fun o => show (fst (fst o)) ++ opt_show show_name [kw "COLLATE"] (snd (fst o)) ++
          [match snd o with Ascending => kw "ASC" | Descending => kw "DESC" end]) (kw ",") order
      end ++
      opt_show (fun l => show (fst l) ++ opt_show show [kw "OFFSET"] (snd l)) [kw "LIMIT"] lim
  end
with show_cte (c : cte) : list LrModel.token :=
  match c with
  | Cte id columns q => show_name id ++ match columns with Some l => paren (show_names l) | None => [] end ++ [kw "AS"] ++ paren (show_select q)
  end
with show_set (e : set_expr) : list LrModel.token :=
  match e with
  | SValues rows => [kw "VALUES"] ++ sep (fun row => paren (sep show (kw ",") row)) (kw ",") rows
  | SQuery mode columns from wh group =>
      [kw "SELECT"; match mode with MAll => kw "ALL" | MDistinct => kw "DISTINCT" end] ++ show_columns columns ++
      match from with [] => [] | _ => [kw "FROM"] ++ sep show_table (kw ",") from end ++
      opt_show show [kw "WHERE"] wh ++
      opt_show (fun g => sep show (kw ",") (fst g) ++ opt_show show [kw "HAVING"] (snd g)) [kw "GROUP"; kw "BY"] group
  | SOp op l r => show_set l ++ set_op_tokens op ++ show_set r
  end
with show_table (t : table_expr) : list LrModel.token :=
  match t with
  | TNamed q alias => show_path q ++ opt_show show_name [kw "AS"] alias
  | TSelect s alias => paren (show_select s) ++ opt_show show_name [kw "AS"] alias
  | TJoin l r op c => paren (show_table l ++ join_tokens op ++ show_table r ++ show_constraint c)
  end
with show_constraint (c : join_constraint) : list LrModel.token :=
  match c with
  | JExpr e => [kw "ON"] ++ show e
  | JColumns l => [kw "USING"] ++ paren (show_names l)
  end
with show_columns (c : result_columns) : list LrModel.token :=
  match c with
  | RAll => [kw "*"]
  | RList l => sep show_column (kw ",") l
  end
with show_column (c : result_column) : list LrModel.token :=
  match c with
  | RAllFrom n => show_name n ++ [kw "."; kw "*"]
  | RExpr e rename => show e ++ opt_show show_name [kw "AS"] rename
  end.

Definition show_statement (s : statement) : list LrModel.token :=
  match s with
  | StSelect s => show_select s
  | StInsert i =>
      [kw "INSERT"; kw "INTO"] ++ show_path (i_table i) ++ match i_columns i with Some l => paren (show_names l) | None => [] end ++
      show_set (i_source i)
  | StDelete d => [kw "DELETE"; kw "FROM"] ++ show_path (d_table d) ++ opt_show show [kw "WHERE"] (d_where d)
  | StUpdate u =>
      [kw "UPDATE"] ++ show_path (u_table u) ++ [kw "SET"] ++
      sep (fun a => show_names (fst a) ++ [kw "="] ++ show (snd a)) (kw ",") (u_assignments u) ++ opt_show show [kw "WHERE"] (u_where u)
  end.

Definition show_sql (s : sql_statement) : list LrModel.token :=
  match s with
  | SqlStatement s => show_statement s
  | SqlExplain s => kw "EXPLAIN" :: show_statement s
  | SqlAttach q file => [kw "ATTACH"; kw "FILE"] ++ show_string file ++ [kw "AS"] ++ show_path q
  | SqlDescribe q => [kw "DESCRIBE"] ++ show_path q
  end.

(** The words one after the other, each followed by a space. *)
Definition text_of (toks : list LrModel.token) : str := flat_map (fun t : LrModel.token => snd t ++ [32%Z]) toks.
