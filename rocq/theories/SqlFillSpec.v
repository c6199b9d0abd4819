(** * Putting other strings and numerals into a statement (specification) *)

From Coq Require Import Strings.String.
From Verif Require Import Base StrModel SqlNameModel SqlModel LrModel SqlGrammar.
Local Open Scope list_scope.

Section Put.
(** What becomes of the strings, and of the numerals. *)
Variables (g h : str -> str).

Definition put_literal (l : literal) : literal :=
  match l with
  | LString s => LString (g s)
  | LNumeric s => LNumeric (h s)
  | LDate s => LDate (g s)
  | LTime s => LTime (g s)
  | LTimestamp s => LTimestamp (g s)
  | LNull | LCurrentTime | LCurrentDate | LCurrentTimestamp => l
  end.

Fixpoint put_expr (e : expr) : expr :=
  match e with
  | ELiteral l => ELiteral (put_literal l)
  | EName q => EName q
  | ETuple es => ETuple (map put_expr es)
  | ESelect s => ESelect (put_select s)
  | EUnary op e => EUnary op (put_expr e)
  | EBinary op l r => EBinary op (put_expr l) (put_expr r)
  | ECompare op l r => ECompare op (put_expr l) (put_expr r)
  | EIn e s => EIn (put_expr e) (put_spec s)
  | EBetween e lo hi => EBetween (put_expr e) (put_expr lo) (put_expr hi)
  | ECase o whens els =>
      ECase (option_map put_expr o) (map (fun p => (put_expr (fst p), put_expr (snd p))) whens) (option_map put_expr els)
  end
with put_spec (s : set_spec) : set_spec :=
  match s with
  | SpSelect s => SpSelect (put_select s)
  | SpList es => SpList (map put_expr es)
  | SpName q => SpName q
  end
with put_select (s : select) : select :=
  match s with
  | Select common e order lim =>
      Select (map put_cte common) (put_set e) (map (fun o => (put_expr (fst (fst o)), snd (fst o), snd o)) order)
        (option_map (fun l => (put_expr (fst l), option_map put_expr (snd l))) lim)
  end
with put_cte (c : cte) : cte :=
  match c with
  | Cte id columns q => Cte id columns (put_select q)
  end
with put_set (e : set_expr) : set_expr :=
  match e with
  | SValues rows => SValues (map (map put_expr) rows)
  | SQuery mode columns from wh group =>
      SQuery mode (put_columns columns) (map put_table from) (option_map put_expr wh)
        (option_map (fun g => (map put_expr (fst g), option_map put_expr (snd g))) group)
  | SOp op l r => SOp op (put_set l) (put_set r)
  end
with put_table (t : table_expr) : table_expr :=
  match t with
  | TNamed q alias => TNamed q alias
  | TSelect s alias => TSelect (put_select s) alias
  | TJoin l r op c => TJoin (put_table l) (put_table r) op (put_constraint c)
  end
with put_constraint (c : join_constraint) : join_constraint :=
  match c with
  | JExpr e => JExpr (put_expr e)
  | JColumns l => JColumns l
  end
with put_columns (c : result_columns) : result_columns :=
  match c with
  | RAll => RAll
  | RList l => RList (map put_column l)
  end
with put_column (c : result_column) : result_column :=
  match c with
  | RAllFrom n => RAllFrom n
  | RExpr e rename => RExpr (put_expr e) rename
  end.

Definition put_statement (s : statement) : statement :=
  match s with
  | StSelect s => StSelect (put_select s)
  | StInsert i => StInsert {| i_table := i_table i; i_columns := i_columns i; i_source := put_set (i_source i) |}
  | StDelete d => StDelete {| d_table := d_table d; d_where := option_map put_expr (d_where d) |}
  | StUpdate u =>
      StUpdate {| u_table := u_table u; u_assignments := map (fun a => (fst a, put_expr (snd a))) (u_assignments u);
                  u_where := option_map put_expr (u_where u) |}
  end.

(** The path of an ATTACH is a string, too. *)
Definition put (s : sql_statement) : sql_statement :=
  match s with
  | SqlStatement s => SqlStatement (put_statement s)
  | SqlExplain s => SqlExplain (put_statement s)
  | SqlAttach q path => SqlAttach q (g path)
  | SqlDescribe q => SqlDescribe q
  end.

(** The word [b] is the word [a] with another string or numeral in it; names stay as they are. *)
Definition put_word (a b : LrModel.token) : Prop :=
  fst a = fst b /\
  (fst a = terminal "ID" -> snd a = snd b) /\
  (fst a = terminal "STRING_LIT" -> removelast (tl (snd b)) = g (removelast (tl (snd a)))) /\
  (In (fst a) (map terminal ["HEX_LIT"; "NUMERIC_LIT_1"; "NUMERIC_LIT_2"]%string) -> snd b = h (snd a)).
End Put.

(** [x] between quotes. *)
Definition in_quotes (x : str) : str := (39 :: x ++ [39])%Z.

(** [y] in place of [m]. *)
Definition instead (m y s : str) : str := if list_eq_dec Z.eq_dec s m then y else s.
