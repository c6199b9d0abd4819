(** * What the properties about white space in SQL texts say *)

From Verif Require Import Base StrModel JsonModel SqlWords.
Local Open Scope Z_scope.

(** Parentheses, star, comma, slash and quote: no word goes on across them. *)
Definition edge (c : Z) : Prop := In c [40; 41; 42; 44; 47; 39].

Definition blanks (w : str) : Prop := Forall (fun c => is_whitespace c = true) w.

(** The place between [a] and [b] is at the end of the text, or next to white space or one of these marks. *)
Definition open_place (a b : str) : Prop :=
  let loose c := is_whitespace c = true \/ edge c in
  a = [] \/ b = [] \/ (exists a' c, a = a' ++ [c] /\ loose c) \/ (exists c b', b = c :: b' /\ loose c).

(** The words [toks] with white space after each. *)
Fixpoint spaced (toks : list (nat * str)) (spaces : list str) : str :=
  match toks, spaces with
  | t :: toks', s :: spaces' => snd t ++ s ++ spaced toks' spaces'
  | _, _ => []
  end.
