(** * Types as text

    What src/core/types/parser.lalrpop says, without a parser: the words (99-105 and the literals) and the phrases (29-97). *)

From Coq Require Import Strings.String.
From Verif Require Import Base StrModel JsonModel TypesModel LrModel LexSpec SqlWords TypeParseModel SqlParseModel.
Local Open Scope list_scope.

(** ** Words *)

Definition type_shape (t : string) : str -> Prop :=
  if String.eqb t "INT" then fun w => w <> [] /\ Forall digit w
  else if String.eqb t "IDENT" then identifier
  else fun w => w = JsonModel.lit t.

Definition type_word (t : nat) (w : str) : Prop := exists name, nth_error type_terminals t = Some name /\ type_shape name w.

(** Keywords are not identifiers. *)
Definition type_prefer (t t' : nat) : Prop := t <> type_terminal "IDENT" /\ t' = type_terminal "IDENT".

Definition type_lexes : str -> list (nat * str) -> str -> Prop := lexes type_word is_whitespace type_prefer.

(** ** Phrases *)

Definition sym (s : string) : LrModel.token := (type_terminal s, JsonModel.lit s).
Definition name_of (label : str) : LrModel.token := (type_terminal "IDENT", label).

Definition prim_name (p : prim) : string :=
  match p with
  | PBool => "bool" | PChar => "char" | PU8 => "u8" | PU16 => "u16" | PU32 => "u32" | PU64 => "u64" | PU128 => "u128" | PI8 => "i8" | PI16 => "i16"
  | PI32 => "i32" | PI64 => "i64" | PI128 => "i128" | PF32 => "f32" | PF64 => "f64"
  end.

(** A comma or nothing. *)
Definition optional_comma (l : list LrModel.token) : Prop := l = [] \/ l = [sym ","].

Inductive is_type : list LrModel.token -> ty -> Prop :=
| Is_unit : is_type [sym "("; sym ")"] TUnit
| Is_prim p : is_type [sym (prim_name p)] (TPrim p)
| Is_string : is_type [sym "string"] TString
| Is_tuple l ts : is_types l ts -> is_type (sym "(" :: l ++ [sym ")"]) (TTuple ts)
| Is_struct l fs c : is_fields l fs -> optional_comma c -> is_type (sym "struct" :: sym "{" :: l ++ c ++ [sym "}"]) (TStruct fs)
| Is_enum l cs c : is_fields l cs -> optional_comma c -> is_type (sym "enum" :: sym "{" :: l ++ c ++ [sym "}"]) (TEnum cs)
(** One type or more, with commas between them. *)
with is_types : list LrModel.token -> list ty -> Prop :=
| One_type l t : is_type l t -> is_types l [t]
| More_types l t l' ts : is_type l t -> is_types l' ts -> is_types (l ++ sym "," :: l') (t :: ts)
(** The same with labels. *)
with is_fields : list LrModel.token -> list (str * ty) -> Prop :=
| One_field a l t : is_type l t -> is_fields (name_of a :: sym ":" :: l) [(a, t)]
| More_fields a l t l' fs : is_type l t -> is_fields l' fs -> is_fields (name_of a :: sym ":" :: l ++ sym "," :: l') ((a, t) :: fs).

(** ** The types that have a text *)

(** Identifiers that are not keywords. *)
Definition proper_label (s : str) : Prop := identifier s /\ ~ In s (map JsonModel.lit (skipn 2 type_terminals)).

(** No tuple, struct or enum is empty, and all labels are proper. *)
Inductive nameable : ty -> Prop :=
| N_unit : nameable TUnit
| N_prim p : nameable (TPrim p)
| N_string : nameable TString
| N_tuple ts : ts <> [] -> Forall nameable ts -> nameable (TTuple ts)
| N_struct fs : fs <> [] -> Forall (fun f => proper_label (fst f) /\ nameable (snd f)) fs -> nameable (TStruct fs)
| N_enum cs : cs <> [] -> Forall (fun f => proper_label (fst f) /\ nameable (snd f)) cs -> nameable (TEnum cs).

(** A text of each of them: its words, each followed by a space. *)
Fixpoint show_type (t : ty) : list LrModel.token :=
  let fields := fix fields (l : list (str * ty)) :=
    match l with
    | [] => []
    | (a, t) :: l' => name_of a :: sym ":" :: show_type t ++ match l' with [] => [] | _ => sym "," :: fields l' end
    end in
  match t with
  | TUnit => [sym "("; sym ")"]
  | TPrim p => [sym (prim_name p)]
  | TString => [sym "string"]
  | TTuple ts => sym "(" ::
      (fix types (l : list ty) :=
         match l with [] => [] | t :: l' => show_type t ++ match l' with [] => [] | _ => sym "," :: types l' end end) ts ++ [sym ")"]
  | TStruct fs => sym "struct" :: sym "{" :: fields fs ++ [sym "}"]
  | TEnum cs => sym "enum" :: sym "{" :: fields cs ++ [sym "}"]
  end.

(** No struct or enum in it has a label twice. *)
Inductive no_repeats : ty -> Prop :=
| R_unit : no_repeats TUnit
| R_prim p : no_repeats (TPrim p)
| R_string : no_repeats TString
| R_tuple ts : Forall no_repeats ts -> no_repeats (TTuple ts)
| R_struct fs : NoDup (map fst fs) -> Forall (fun f => no_repeats (snd f)) fs -> no_repeats (TStruct fs)
| R_enum cs : NoDup (map fst cs) -> Forall (fun f => no_repeats (snd f)) cs -> no_repeats (TEnum cs).

(** ** Errors *)

(** Some type has these words first. *)
Definition type_begins (l : list LrModel.token) : Prop := exists s more t, type_lexes s (l ++ more) [] /\ is_type (l ++ more) t.

(** When [e] is the right answer. *)
Definition type_fails (s : str) (e : parse_error) : Prop :=
  match e with
  | UnrecognizedTokenErr t => exists l r, type_lexes s (l ++ [t]) r /\ type_begins l /\ ~ type_begins (l ++ [t])
  | UnrecognizedEofErr => exists toks, type_lexes s toks [] /\ type_begins toks /\ ~ exists t, is_type toks t
  | InvalidTokenAt p => exists toks r, type_lexes s toks r /\ stuck type_word is_whitespace r /\ p = (List.length s - List.length r)%nat /\ type_begins toks
  | ExtraTokenErr _ => False
  end.
