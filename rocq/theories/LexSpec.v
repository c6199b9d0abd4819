(** * What a lexer should do: the longest word first *)

From Verif Require Import Base StrModel.

Section Lexing.
(** [word t w]: [w] is a text of the terminal [t]. [blank]: characters that may stand between words. [prefer t t']: a text
    of both is one of [t]. *)
Variable word : nat -> str -> Prop.
Variable blank : Z -> bool.
Variable prefer : nat -> nat -> Prop.

(** No word at the start of [s] is longer than [n]. *)
Definition at_most (n : nat) (s : str) : Prop :=
  forall t w rest, s = w ++ rest -> word t w -> (length w <= n)%nat.

(** [lexes s toks rest]: from the start of [s] the words [toks] are read, and [rest] is left. *)
Inductive lexes : str -> list (nat * str) -> str -> Prop :=
| L_stop s : lexes s [] s
| L_blank c s toks rest : blank c = true -> lexes s toks rest -> lexes (c :: s) toks rest
| L_word t w s toks rest :
    w <> [] -> word t w -> at_most (length w) (w ++ s) -> (forall t', word t' w -> t' = t \/ prefer t t') ->
    lexes s toks rest -> lexes (w ++ s) ((t, w) :: toks) rest.

(** Nothing can be read from [s]. *)
Definition stuck (s : str) : Prop :=
  match s with [] => False | c :: _ => blank c = false /\ forall t w rest, s = w ++ rest -> ~ word t w end.
End Lexing.
