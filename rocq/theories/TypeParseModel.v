(** * The parser of types

    src/core/types/parser.lalrpop. The generated parser is not in /repo: it is the machine of [LrModel.v] with some tables
    for this grammar ([TypeTables.v]) behind the lexer of [LexModel.v]. *)

From Coq Require Import Strings.String.
From Verif Require Import Base StrModel JsonModel LexModel LrModel LrSpec TypesModel TypeTables SqlParseModel.
Local Open Scope list_scope.

(** The two regular expressions, parser.lalrpop:99-105, and the literals. *)
Definition type_terminals : list string :=
  ["INT"; "IDENT"; "("; ")"; ","; ":"; "bool"; "char"; "enum"; "f32"; "f64"; "i128"; "i16"; "i32"; "i64"; "i8"; "string"; "struct";
   "u128"; "u16"; "u32"; "u64"; "u8"; "{"; "}"]%string.

Fixpoint position (s : string) (l : list string) : nat :=
  match l with [] => 0 | s' :: l' => if String.eqb s s' then 0 else S (position s l') end.
Definition type_terminal (s : string) : nat := position s type_terminals.

(** The patterns have the numbers of their terminals; the literals win ties. The last one is white space, which LALRPOP
    skips. *)
Definition type_patterns : list pattern :=
  [(seqs [Cls (Ranges [(48, 57)]); Star (Ranges [(48, 57)])], false);
   (seqs [Cls (Ranges [(65, 90); (95, 95); (97, 122)]); Star (Ranges [(48, 57); (65, 90); (95, 95); (97, 122)])], false)]%Z ++
  map (fun s => (fixed (map (fun c => [(c, c)]) (lit s)), false)) (skipn 2 type_terminals) ++
  [(seqs [Star Space], true)].

Definition W (s : string) : symbol := T (type_terminal s).

(** Nonterminals: 0 [","?], 1 Array, 2 Case, 3 CaseList, 4 Enum, 5 Field, 6 FieldList, 7 IDENT, 8 Primitive, 9 Struct,
    10 Tuple, 11 Type, 12 TypeList, 13 Unit. INT is not used by the others and is left out. *)
Definition type_grammar : grammar := [
  (* 30-35 *) (11, [NT 13]); (11, [NT 8]); (11, [NT 1]); (11, [NT 10]); (11, [NT 9]); (11, [NT 4]);
  (* 39 *) (13, [W "("; W ")"]);
  (* 43-56 *) (8, [W "bool"]); (8, [W "char"]); (8, [W "u8"]); (8, [W "u16"]); (8, [W "u32"]); (8, [W "u64"]); (8, [W "u128"]);
  (8, [W "i8"]); (8, [W "i16"]); (8, [W "i32"]); (8, [W "i64"]); (8, [W "i128"]); (8, [W "f32"]); (8, [W "f64"]);
  (* 61 *) (1, [W "string"]);
  (* 65 *) (10, [W "("; NT 12; W ")"]);
  (* 69-70 *) (12, [NT 11]); (12, [NT 12; W ","; NT 11]);
  (* 74 *) (9, [W "struct"; W "{"; NT 6; NT 0; W "}"]);
  (* 78-79 *) (6, [NT 5]); (6, [NT 6; W ","; NT 5]);
  (* 83 *) (5, [NT 7; W ":"; NT 11]);
  (* 87 *) (4, [W "enum"; W "{"; NT 3; NT 0; W "}"]);
  (* 91-92 *) (3, [NT 2]); (3, [NT 3; W ","; NT 2]);
  (* 96 *) (2, [NT 7; W ":"; NT 11]);
  (* 104 *) (7, [W "IDENT"]);
  (* the option in 74 and 87 *) (0, [W ","]); (0, [])].

(** The values on the stack of the parser. A field or case is a pair as in [TypesModel]. *)
Inductive type_sym : Type :=
| YText (s : str) | YNone | YUnit | YPrim (p : prim) | YLabel (s : str) | YType (t : ty) | YTypes (l : list ty)
| YField (f : str * ty) | YFields (l : list (str * ty)).

Definition type_shift (t : LrModel.token) : type_sym := YText (snd t).

(** The action of each production, parser.lalrpop at the lines above; [append] is src/core/types/mod.rs:281-285. A value
    of the wrong kind is a panic of the generated code. *)
Definition type_actions : list (list type_sym -> outcome type_sym) :=
  let prim p := fun l => match l with [YText _] => Ret (YPrim p) | _ => Panic end in
  let same := fun l => match l with [YType t] => Ret (YType t) | _ => Panic end in
  let body (k : list (str * ty) -> ty) := fun l =>
    match l with [YText _; YText _; YFields fs; YNone; YText _] => Ret (YType (k fs)) | _ => Panic end in
  let first := fun l => match l with [YField f] => Ret (YFields [f]) | _ => Panic end in
  let next := fun l => match l with [YFields fs; YText _; YField f] => Ret (YFields (fs ++ [f])) | _ => Panic end in
  let field := fun l => match l with [YLabel s; YText _; YType t] => Ret (YField (s, t)) | _ => Panic end in
  [(fun l => match l with [YUnit] => Ret (YType TUnit) | _ => Panic end);
   (fun l => match l with [YPrim p] => Ret (YType (TPrim p)) | _ => Panic end);
   same;
   (fun l => match l with [YTypes ts] => Ret (YType (TTuple ts)) | _ => Panic end);
   same; same;
   (fun l => match l with [YText _; YText _] => Ret YUnit | _ => Panic end);
   prim PBool; prim PChar; prim PU8; prim PU16; prim PU32; prim PU64; prim PU128; prim PI8; prim PI16; prim PI32; prim PI64; prim PI128;
   prim PF32; prim PF64;
   (fun l => match l with [YText _] => Ret (YType TString) | _ => Panic end);
   (fun l => match l with [YText _; YTypes ts; YText _] => Ret (YTypes ts) | _ => Panic end);
   (fun l => match l with [YType t] => Ret (YTypes [t]) | _ => Panic end);
   (fun l => match l with [YTypes ts; YText _; YType t] => Ret (YTypes (ts ++ [t])) | _ => Panic end);
   body TStruct; first; next; field;
   body TEnum; first; next; field;
   (fun l => match l with [YText s] => Ret (YLabel s) | _ => Panic end);
   (fun l => match l with [YText _] => Ret YNone | _ => Panic end);
   (fun l => match l with [] => Ret YNone | _ => Panic end)].

Definition type_build (p : nat) (l : list type_sym) : outcome type_sym :=
  match nth_error type_actions p with Some f => f l | None => Panic end.

(** [TypeParser::parse], like [parse_sql]. *)
Definition type_fuel (toks : list LrModel.token) : nat := 6 * length toks + 2.

Definition parse_type (s : str) : outcome (result ty parse_error) :=
  let (toks, e) := lex type_patterns (length s) 0 s in
  match e with
  | None =>
      match drive type_sym type_shift type_build (type_tables type_grammar) (type_fuel toks) [0] [] toks with
      | Some (Ret a) =>
          match answer_result a with
          | Ok (YType t) => Ret (Ok t)
          | Ok _ => Panic
          | Err x => Ret (Err x)
          end
      | Some _ | None => Panic
      end
  | Some place =>
      match drive_before type_sym type_shift type_build (type_tables type_grammar) (type_fuel toks) [0] [] toks with
      | Some (Ret None) => Ret (Err (InvalidTokenAt place))
      | Some (Ret (Some a)) => match answer_result a with Ok _ => Panic | Err x => Ret (Err x) end
      | Some _ | None => Panic
      end
  end.
