(** * Where the parsers should report errors *)

From Verif Require Import Base StrModel Utf8Model JsonModel LrModel LexSpec SqlWords SqlErrorSpec SqlGrammar SqlParseModel TypeGrammar TypesModel TypeParseModel PlaceModel.
Local Open Scope nat_scope.

Section Places.
Variable word : nat -> str -> Prop.
Variable blank : Z -> bool.
Variable prefer : nat -> nat -> Prop.
(** Some correct text has these words first, or has these words. *)
Variables begins whole : list LrModel.token -> Prop.

Notation reads := (lexes word blank prefer).

(** [t] is the next word of [before ++ snd t ++ after] after the words [l]. *)
Definition stands (l : list LrModel.token) (t : LrModel.token) (before after : str) : Prop :=
  reads (before ++ snd t ++ after) l (snd t ++ after) /\ reads (snd t ++ after) [t] after.

(** Positions in bytes are lengths of the text before them. *)
Definition fails_at (s : str) (e : placed_error) : Prop :=
  match e with
  | InvalidTokenP p =>
      exists before after toks, s = before ++ after /\ p = bytes_of before /\
        reads s toks after /\ stuck word blank after /\ begins toks
  | UnrecognizedTokenP (p, t, q) _ =>
      exists l before after, s = before ++ snd t ++ after /\ stands l t before after /\
        p = bytes_of before /\ q = bytes_of (before ++ snd t) /\ begins l /\ ~ begins (l ++ [t])
  | UnrecognizedEofP p _ =>
      exists toks, reads s toks [] /\ begins toks /\ ~ whole toks /\
        ((toks = [] /\ p = 0) \/
         exists l t before after, toks = l ++ [t] /\ s = before ++ snd t ++ after /\ stands l t before after /\
           p = bytes_of (before ++ snd t))
  | ExtraTokenP _ => False
  end.
End Places.

(** The same error, the lists of expected words aside. *)
Definition same_place (e e' : placed_error) : Prop :=
  match e, e' with
  | InvalidTokenP p, InvalidTokenP p' => p = p'
  | UnrecognizedTokenP t _, UnrecognizedTokenP t' _ => t = t'
  | UnrecognizedEofP p _, UnrecognizedEofP p' _ => p = p'
  | _, _ => False
  end.

Definition sql_fails_at : str -> placed_error -> Prop :=
  fails_at sql_word is_whitespace sql_prefer begins (fun toks => exists st, gram GSqlStatement toks st).

Definition type_fails_at : str -> placed_error -> Prop :=
  fails_at type_word is_whitespace type_prefer type_begins (fun toks => exists t, is_type toks t).

(** The same error without byte positions: a place [n] that counts characters is the byte position after [n] characters. *)
Definition same_error (s : str) (e : placed_error) (e' : parse_error) (expected : list nat) : Prop :=
  match e, e' with
  | InvalidTokenP p, InvalidTokenAt n => n <= length s /\ p = bytes_of (firstn n s) /\ expected = []
  | UnrecognizedTokenP (_, t, _) l, UnrecognizedTokenErr t' => t = t' /\ l = expected
  | UnrecognizedEofP _ l, UnrecognizedEofErr => l = expected
  | _, _ => False
  end.
