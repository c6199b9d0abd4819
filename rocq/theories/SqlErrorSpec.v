(** * When the SQL parser should report which error *)

From Coq Require Import Strings.String.
From Verif Require Import Base StrModel JsonModel LrModel LexSpec SqlGrammar SqlWords SqlParseModel.
Local Open Scope nat_scope.

(** Some statement has these words first. *)
Definition begins (l : list LrModel.token) : Prop :=
  exists s more st, sql_lexes s (l ++ more) [] /\ gram GSqlStatement (l ++ more) st.

(** When [e] is the right answer. *)
Definition fails (s : str) (e : parse_error) : Prop :=
  match e with
  | UnrecognizedTokenErr t => exists l r, sql_lexes s (l ++ [t]) r /\ begins l /\ ~ begins (l ++ [t])
  | UnrecognizedEofErr => exists toks, sql_lexes s toks [] /\ begins toks /\ ~ exists st, gram GSqlStatement toks st
  | InvalidTokenAt p => exists toks r, sql_lexes s toks r /\ stuck sql_word is_whitespace r /\ p = length s - length r /\ begins toks
  | ExtraTokenErr _ => False
  end.

(** ** The list of expected words *)

(** [l]: the words before the error. *)
Definition stops_after (s : str) (e : parse_error) (l : list LrModel.token) : Prop :=
  begins l /\
  match e with
  | UnrecognizedTokenErr t => (exists r, sql_lexes s (l ++ [t]) r) /\ ~ begins (l ++ [t])
  | UnrecognizedEofErr => sql_lexes s l [] /\ ~ exists st, gram GSqlStatement l st
  | _ => False
  end.

(** A word of kind [u] can be next. *)
Definition may_follow (l : list LrModel.token) (u : nat) : Prop := exists w, begins (l ++ [(u, w)]).

(** Words that are never the last of a phrase. *)
Definition opening_words : list string := [
  "!="; "("; "+"; ","; "-"; "/"; "<"; "<="; "="; ">"; ">="; "AND"; "AS"; "ATTACH"; "BETWEEN"; "BY"; "CASE"; "COLLATE"; "CROSS"; "DATE";
  "DELETE"; "DESCRIBE"; "ELSE"; "EXPLAIN"; "FILE"; "FROM"; "GROUP"; "HAVING"; "IN"; "INSERT"; "INTO"; "IS"; "LIKE"; "LIMIT"; "NATURAL";
  "NOT"; "OFFSET"; "ON"; "OR"; "ORDER"; "PLAN"; "QUERY"; "SET"; "TABLE"; "THEN"; "TIME"; "TIMESTAMP"; "UPDATE"; "USING"; "VALUES"; "WHEN";
  "WHERE"; "WITH"; "||"]%string.

Definition after_opening (l : list LrModel.token) : Prop :=
  match rev l with [] => True | (u, _) :: _ => exists n, In n opening_words /\ nth_error terminals u = Some n end.
