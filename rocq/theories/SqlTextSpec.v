(** * Texts that differ in the case of letters only (specification) *)

From Coq Require Import Strings.String.
From Verif Require Import Base StrModel SqlNameModel LrModel SqlGrammar SqlParseModel.
Local Open Scope list_scope.

(** Two words of one kind: names are the same up to case, numbers and strings are the same, keywords may differ. *)
Definition same_word (up : Z -> list Z) (a b : LrModel.token) : Prop :=
  fst a = fst b /\
  (fst a = terminal "ID" -> name_eqb up (snd a) (snd b) = true) /\
  (In (fst a) (map terminal ["HEX_LIT"; "NUMERIC_LIT_1"; "NUMERIC_LIT_2"; "STRING_LIT"]%string) -> snd a = snd b).

(** The same complaint, at words with the same number: [toks] and [toks'] are the words of the texts. *)
Definition same_complaint (toks toks' : list LrModel.token) (e e' : parse_error) : Prop :=
  match e, e' with
  | UnrecognizedEofErr, UnrecognizedEofErr => True
  | UnrecognizedTokenErr t, UnrecognizedTokenErr t' =>
      exists l m l' m', toks = l ++ t :: m /\ toks' = l' ++ t' :: m' /\ List.length l = List.length l'
  | _, _ => False
  end.

