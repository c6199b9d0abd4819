(** * The parsers with byte positions, asking for one token at a time

    [LexModel] counts characters, and [SqlParseModel.parse_sql] splits the whole text before it parses. Here the machine
    asks the lexer for a token when it needs one, texts are cut at byte positions, and errors say where they are. The
    crates [lalrpop_util] 0.19 and [regex] are not in /repo. The symbols on the stack also have positions, which no action
    of the grammars looks at (src/sql/parser.lalrpop and src/core/types/parser.lalrpop have no [@L] and no [@R]); they are left out. *)

From Verif Require Import Base StrModel Utf8Model JsonModel LexModel LrModel SqlTables SqlActions SqlModel SqlParseModel TypesModel TypeTables TypeParseModel.
Local Open Scope nat_scope.

(** [str::len]. *)
Definition bytes_of (s : str) : nat := length (utf8_encode s).

(** [&text[..n]] and [&text[n..]]: a panic if [n] is not between two characters. *)
Fixpoint split_bytes (n : nat) (s : str) : outcome (str * str) :=
  match n, s with
  | 0, _ => Ret ([], s)
  | S _, [] => Panic
  | S _, c :: s' =>
      let k := length (utf8_char c) in
      if k <=? n then ab <- split_bytes (n - k) s' ;; Ret (c :: fst ab, snd ab) else Panic
  end.

(** The patterns that match ([RegexSet::matches]), and what [Match::end] is for them. *)
Fixpoint matches (ps : list pattern) (i : nat) (text : str) : list (nat * bool * nat) :=
  match ps with
  | [] => []
  | (r, skip) :: ps' =>
      match find_re r text with
      | Some rest => (i, skip, bytes_of text - bytes_of rest) :: matches ps' (S i) text
      | None => matches ps' (S i) text
      end
  end.

(** The loop of [Matcher::next] over them: [longest_match], [index] and [skip]; [if len >= longest_match]. *)
Definition longest_match (l : list (nat * bool * nat)) : nat * nat * bool :=
  fold_left (fun best m =>
    match best, m with (n, _, _), (i, skip, len) => if n <=? len then (len, i, skip) else best end) l (0, 0, false).

(** [Matcher::next]: no more tokens, [InvalidToken], or a token with its start and end; the text that is left. *)
Inductive fetched : Type :=
| NoToken
| BadToken (location : nat)
| Found (start : nat) (t : nat * str) (end_ : nat) (rest : str).

Fixpoint matcher_next (ps : list pattern) (fuel : nat) (text : str) (consumed : nat) : outcome fetched :=
  match fuel with
  | 0 => Undef
  | S f =>
      match text with
      | [] => Ret NoToken
      | _ :: _ =>
          match matches ps 0 text with
          | [] => Ret (BadToken consumed)
          | l =>
              match longest_match l with (n, i, skip) =>
                wr <- split_bytes n text ;;
                if skip then
                  if n =? 0 then Ret (BadToken consumed)
                  else matcher_next ps f (snd wr) (consumed + n)
                else Ret (Found consumed (i, fst wr) (consumed + n) (snd wr))
              end
          end
      end
  end.

(** The rounds that are always enough: each but the last takes a character. *)
Definition next_match (ps : list pattern) (text : str) (consumed : nat) : outcome fetched :=
  matcher_next ps (S (length text)) text consumed.

(** A token between its positions. *)
Definition placed : Type := (nat * LrModel.token * nat)%type.

(** [ParseError]. *)
Inductive placed_error : Type :=
| InvalidTokenP (location : nat)
| UnrecognizedTokenP (t : placed) (expected : list nat)
| UnrecognizedEofP (location : nat) (expected : list nat)
| ExtraTokenP (t : placed).

Section Machine.
Variable V : Type.
Variable shift : LrModel.token -> V.
Variable build : nat -> list V -> outcome V.
Variable tb : tables.
Variable ps : list pattern.
(** [token_to_index]: the terminal of a pattern. *)
Variable index : nat -> option nat.

(** [Parser::parse_eof]. *)
Fixpoint finish_at (fuel : nat) (states : list nat) (values : list V) (last : nat) : option (outcome (result V placed_error)) :=
  match fuel with
  | 0 => None
  | S f =>
      match states with
      | [] => Some Panic
      | s :: _ =>
          match eof_action tb s with
          | Ret (Reduce p) =>
              if final tb p then Some (match values with [] => Panic | v :: _ => Ret (Ok v) end)
              else
                match reduce V build tb p states values with
                | Ret (states', values') => finish_at f states' values' last
                | _ => Some Panic
                end
          | Ret _ => Some (Ret (Err (UnrecognizedEofP last (expected_tokens tb s))))
          | _ => Some Panic
          end
      end
  end.

(** [Parser::parse] and [next_token]. [look]: the token that was asked for and not shifted. [text] and [consumed]: the
    state of the lexer. [last]: [last_location]. *)
Fixpoint drive_at (fuel : nat) (states : list nat) (values : list V) (look : option placed) (text : str) (consumed last : nat) :
    option (outcome (result V placed_error)) :=
  match fuel with
  | 0 => None
  | S f =>
      match states with
      | [] => Some Panic
      | s :: _ =>
          match look with
          | None =>
              match next_match ps text consumed with
              | Ret NoToken => finish_at f states values last
              | Ret (BadToken p) => Some (Ret (Err (InvalidTokenP p)))
              | Ret (Found a (i, w) b text') =>
                  match index i with
                  | Some t => drive_at f states values (Some (a, (t, w), b)) text' b b
                  | None => Some (Ret (Err (UnrecognizedTokenP (a, (i, w), b) (expected_tokens tb s))))
                  end
              | _ => Some Panic
              end
          | Some t =>
              let tok := snd (fst t) in
              match action tb s (fst tok) with
              | Ret (Shift s') => drive_at f (s' :: states) (shift tok :: values) None text consumed last
              | Ret (Reduce p) =>
                  if final tb p then Some (match values with [] => Panic | _ :: _ => Ret (Err (ExtraTokenP t)) end)
                  else
                    match reduce V build tb p states values with
                    | Ret (states', values') => drive_at f states' values' look text consumed last
                    | _ => Some Panic
                    end
              | Ret Fail => Some (Ret (Err (UnrecognizedTokenP t (expected_tokens tb s))))
              | _ => Some Panic
              end
          end
      end
  end.

(** [Parser::drive]: [start_state] and [start_location] are 0 (src/sql/parser.rs:1770-1778). *)
Definition parse_at (fuel : nat) (text : str) : option (outcome (result V placed_error)) := drive_at fuel [0] [] None text 0 0.
End Machine.

(** src/sql/parser.rs:1847-1940 [__token_to_integer]. *)
Definition sql_index (i : nat) : option nat :=
  match find (fun e => fst e =? i) sql_token_index with Some (_, t) => Some t | None => None end.

(** The steps that are always enough: two for each step of [drive]. *)
Definition fuel_at (k : nat) (s : str) : nat := 2 * (k * length s + 2) + 1.

(** src/sql/parser.rs:1972-1987 [SqlStatementParser::parse]. *)
Definition parse_sql_at (s : str) : outcome (result sql_statement placed_error) :=
  match parse_at sym sql_shift sql_build sql_tables sql_patterns sql_index (fuel_at 17 s) s with
  | Some (Ret (Ok v)) => st <- pop_statement v ;; Ret (Ok st)
  | Some (Ret (Err e)) => Ret (Err e)
  | Some _ | None => Panic
  end.

(** [TypeParser::parse] of src/core/types/parser.lalrpop; the numbers of the patterns are those of the terminals. *)
Definition parse_type_at (s : str) : outcome (result ty placed_error) :=
  match parse_at type_sym type_shift type_build (type_tables type_grammar) type_patterns Some (fuel_at 6 s) s with
  | Some (Ret (Ok (YType t))) => Ret (Ok t)
  | Some (Ret (Err e)) => Ret (Err e)
  | Some _ | None => Panic
  end.
