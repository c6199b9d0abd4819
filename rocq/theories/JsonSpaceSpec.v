(** * Specification vocabulary: white space between the symbols of JSON texts (C103) *)

From Coq Require Import Strings.String.
From Verif Require Import Base StrModel JsonModel JsonSpec WhiteSpec JsonDocSpec.
Local Open Scope list_scope.
Local Open Scope Z_scope.

Section Space.
Context (alnum : Z -> bool).

(** All the symbols of a text, in order. *)
Inductive symbols : str -> list symbol -> Prop :=
| sy_end s : reads alnum s SEnd [] -> symbols s []
| sy_next s x r l : x <> SEnd -> reads alnum s x r -> symbols r l -> symbols s (x :: l).

(** What is behind a symbol: after a number or a word white space, punctuation or the end of the text. *)
Definition ends_before (x : symbol) (r : str) : Prop :=
  match x with
  | SNumber _ | SWord _ => r = [] \/ exists c r', r = c :: r' /\ (In c white_space \/ In c (lit "[]{},:"))
  | _ => True
  end.

(** [after_symbols s q]: the text [q] is what is left of [s] after some of its symbols. *)
Inductive after_symbols : str -> str -> Prop :=
| af_here s : after_symbols s s
| af_next s x r q : x <> SEnd -> reads alnum s x r -> ends_before x r -> after_symbols r q -> after_symbols s q.

End Space.
