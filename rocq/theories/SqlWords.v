(** * The words of SQL

    What parser.lalrpop:28-134 says, in terms of characters. *)

From Coq Require Import Strings.String.
From Verif Require Import Base StrModel JsonModel LexSpec SqlGrammar.
Local Open Scope Z_scope.
Local Open Scope list_scope.

Definition digit (c : Z) : Prop := 48 <= c <= 57.
Definition hex_digit (c : Z) : Prop := digit c \/ 65 <= c <= 70 \/ 97 <= c <= 102.
Definition name_start (c : Z) : Prop := 65 <= c <= 90 \/ 97 <= c <= 122 \/ c = 95.
Definition name_char (c : Z) : Prop := name_start c \/ digit c.

(** [[^[[:cntrl:]]']]: no ASCII control character, no quote. *)
Definition quotable (c : Z) : Prop := 32 <= c <= 1114111 /\ c <> 39 /\ c <> 127.

(** [E[+-]?[0-9]+], possibly missing. The [E] is not a small letter. *)
Definition exponent (w : str) : Prop :=
  w = [] \/ exists sign ds, w = 69 :: sign ++ ds /\ (sign = [] \/ sign = [43] \/ sign = [45]) /\ ds <> [] /\ Forall digit ds.

(** [c] is the letter [k] of a keyword, without regard to case: Unicode folds the long s and the Kelvin sign too. *)
Definition same_letter (c k : Z) : Prop :=
  c = k \/ (65 <= k <= 90 /\ c = k + 32) \/ (k = 83 /\ c = 383) \/ (k = 75 /\ c = 8490).

Definition identifier (w : str) : Prop := exists c cs, w = c :: cs /\ name_start c /\ Forall name_char cs.
Definition hexadecimal (w : str) : Prop := exists ds, w = 48 :: 120 :: ds /\ ds <> [] /\ Forall hex_digit ds.
Definition number (w : str) : Prop :=
  exists ds f e, w = ds ++ f ++ e /\ ds <> [] /\ Forall digit ds /\ (f = [] \/ exists fs, f = 46 :: fs /\ Forall digit fs) /\ exponent e.
Definition fraction (w : str) : Prop := exists ds e, w = 46 :: ds ++ e /\ ds <> [] /\ Forall digit ds /\ exponent e.
Definition quoted (w : str) : Prop := exists cs, w = 39 :: cs ++ [39] /\ Forall quotable cs.

(** The texts of the terminal of this name. *)
Definition shape (t : string) : str -> Prop :=
  if String.eqb t "ID" then identifier
  else if String.eqb t "HEX_LIT" then hexadecimal
  else if String.eqb t "NUMERIC_LIT_1" then number
  else if String.eqb t "NUMERIC_LIT_2" then fraction
  else if String.eqb t "STRING_LIT" then quoted
  else fun w => Forall2 same_letter w (lit t).

Definition sql_word (t : nat) (w : str) : Prop := exists name, nth_error terminals t = Some name /\ shape name w.

(** Keywords are not identifiers. *)
Definition sql_prefer (t t' : nat) : Prop := t <> terminal "ID" /\ t' = terminal "ID".

(** The words of a text, separated by white space where there is any. *)
Definition sql_lexes : str -> list (nat * str) -> str -> Prop := lexes sql_word is_whitespace sql_prefer.

(** The same kind of word and, unless it is a keyword or a symbol, the same text. *)
Definition alike (a b : nat * str) : Prop :=
  fst a = fst b /\ (In (fst a) (map terminal ["ID"; "HEX_LIT"; "NUMERIC_LIT_1"; "NUMERIC_LIT_2"; "STRING_LIT"]%string) -> snd a = snd b).
