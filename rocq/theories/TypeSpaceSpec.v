(** * What the properties about white space in type texts say *)

From Verif Require Import Base StrModel JsonModel SqlSpaceSpec.
Local Open Scope Z_scope.

(** Parentheses, comma, colon and braces: no word goes on across them. *)
Definition mark (c : Z) : Prop := In c [40; 41; 44; 58; 123; 125].

(** The place between [a] and [b] is at the end of the text, or next to white space or one of these marks. *)
Definition type_place (a b : str) : Prop :=
  let loose c := is_whitespace c = true \/ mark c in
  a = [] \/ b = [] \/ (exists a' c, a = a' ++ [c] /\ loose c) \/ (exists c b', b = c :: b' /\ loose c).
