(** * Properties: byte positions of parse errors (C71) *)

From Coq Require Import Strings.String.
From Verif Require Import Base StrModel JsonModel SqlModel SqlParseModel TypesModel TypeParseModel PlaceModel PlaceSpec PlaceTop PlaceTypes.
Local Open Scope nat_scope.
Local Open Scope list_scope.

(** C71: every error of the SQL parser is at the byte position where the text goes wrong: at the first word that cannot
    follow, at the end of the last word, or at the first character that is part of no word. *)
Theorem sql_error_place : forall s e, parse_sql_at s = Ret (Err e) -> sql_fails_at s e.
Proof. exact sql_at_err. Qed.
Print Assumptions sql_error_place.

(** [select 'é' from   from] *)
Example sql_error_place_ex : exists ex, parse_sql_at (JsonModel.lit "select '" ++ [233%Z] ++ JsonModel.lit "' from   from") =
  Ret (Err (UnrecognizedTokenP (19, (37, JsonModel.lit "from"), 23) ex)).
Proof. eexists. vm_compute. reflexivity. Qed.

Example sql_error_place_ex2 : exists ex, parse_sql_at (JsonModel.lit "select * from t where   ") = Ret (Err (UnrecognizedEofP 21 ex)).
Proof. eexists. vm_compute. reflexivity. Qed.

Example sql_error_place_ex3 : parse_sql_at (JsonModel.lit "select " ++ [233%Z; 233%Z]) = Ret (Err (InvalidTokenP 7)).
Proof. vm_compute. reflexivity. Qed.

(** C71: there is only one such place, and the parser reports it. *)
Theorem sql_error_found : forall s e, sql_fails_at s e -> exists e', parse_sql_at s = Ret (Err e') /\ same_place e e'.
Proof. exact sql_at_fails. Qed.
Print Assumptions sql_error_found.

Example sql_error_found_ex : exists e, sql_fails_at (JsonModel.lit "select , 1") e.
Proof. eexists. apply sql_error_place. vm_compute. reflexivity. Qed.

(** C71: asking for one token at a time makes no difference: the statement, or the error with its list of expected words, is
    the same as when the text is split first. *)
Theorem sql_on_demand : forall s,
  match parse_sql_at s, parse_sql_report s with
  | Ret (Ok st), Ret (Ok st') => st = st'
  | Ret (Err e), Ret (Err (e', expected)) => sql_fails_at s e /\ same_error s e e' expected
  | _, _ => False
  end.
Proof. exact sql_at. Qed.
Print Assumptions sql_on_demand.

Example sql_on_demand_ex : exists st, parse_sql_at (JsonModel.lit "select a.b from t") = Ret (Ok st) /\ parse_sql (JsonModel.lit "select a.b from t") = Ret (Ok st).
Proof. eexists. split; vm_compute; reflexivity. Qed.

(** C71: the same for the parser of types. *)
Theorem type_error_place : forall s e, parse_type_at s = Ret (Err e) -> type_fails_at s e.
Proof. exact type_at_err. Qed.
Print Assumptions type_error_place.

(** [struct { é: u8 }] *)
Example type_error_place_ex : parse_type_at (JsonModel.lit "struct { " ++ [233%Z] ++ JsonModel.lit ": u8 }") = Ret (Err (InvalidTokenP 9)).
Proof. vm_compute. reflexivity. Qed.

Example type_error_place_ex2 : exists ex, parse_type_at ([8195%Z] ++ JsonModel.lit "(u8  u16)") = Ret (Err (UnrecognizedTokenP (8, (19, JsonModel.lit "u16"), 11) ex)).
Proof. eexists. vm_compute. reflexivity. Qed.

Theorem type_error_found : forall s e, type_fails_at s e -> exists e', parse_type_at s = Ret (Err e') /\ same_place e e'.
Proof. exact type_at_fails. Qed.
Print Assumptions type_error_found.

Example type_error_found_ex : exists e, type_fails_at (JsonModel.lit "(u8,)") e.
Proof. eexists. apply type_error_place. vm_compute. reflexivity. Qed.

Theorem type_on_demand : forall s,
  match parse_type_at s, parse_type s with
  | Ret (Ok t), Ret (Ok t') => t = t'
  | Ret (Err e), Ret (Err e') => type_fails_at s e /\ exists expected, same_error s e e' expected
  | _, _ => False
  end.
Proof. exact type_at. Qed.
Print Assumptions type_on_demand.

Example type_on_demand_ex : exists t, parse_type_at (JsonModel.lit "(u8, bool)") = Ret (Ok t) /\ parse_type (JsonModel.lit "(u8, bool)") = Ret (Ok t).
Proof. eexists. split; vm_compute; reflexivity. Qed.
