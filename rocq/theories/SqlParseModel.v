(** * The SQL lexer and [SqlStatementParser::parse]

    src/sql/parser.rs. The list of patterns was written by a script from the generated file. *)

From Verif Require Import Base StrModel SqlModel LexModel LrModel SqlTables SqlActions.
Local Open Scope Z_scope.
Local Open Scope list_scope.

(** src/sql/parser.rs:7445-7528 [new_builder]: the patterns (without the [^] that ties them to the start) and whether
    their matches are skipped. *)
Definition sql_patterns : list pattern := [
  (* 7445: ^('[ -\&\(-\~\u{80}-\u{10ffff}]*') *) (seqs [Cls (Ranges [(39, 39)]); Star (Ranges [(32, 38); (40, 126); (128, 1114111)]); Cls (Ranges [(39, 39)])], false);
  (* 7446: ^(0x[0-9A-Fa-f]+) *) (seqs [Cls (Ranges [(48, 48)]); Cls (Ranges [(120, 120)]); Cls (Ranges [(48, 57); (65, 70); (97, 102)]); Star (Ranges [(48, 57); (65, 70); (97, 102)])], false);
  (* 7447: ^([0-9]+(\.[0-9]* )?(E[\+\-]?[0-9]+)?) *) (seqs [Cls (Ranges [(48, 57)]); Star (Ranges [(48, 57)]); Opt (seqs [Cls (Ranges [(46, 46)]); Star (Ranges [(48, 57)])]); Opt (seqs [Cls (Ranges [(69, 69)]); Opt (Cls (Ranges [(43, 43); (45, 45)])); Cls (Ranges [(48, 57)]); Star (Ranges [(48, 57)])])], false);
  (* 7448: ^([A-Z_a-z][0-9A-Z_a-z]* ) *) (seqs [Cls (Ranges [(65, 90); (95, 95); (97, 122)]); Star (Ranges [(48, 57); (65, 90); (95, 95); (97, 122)])], false);
  (* 7449: ^(\.[0-9]+(E[\+\-]?[0-9]+)?) *) (seqs [Cls (Ranges [(46, 46)]); Cls (Ranges [(48, 57)]); Star (Ranges [(48, 57)]); Opt (seqs [Cls (Ranges [(69, 69)]); Opt (Cls (Ranges [(43, 43); (45, 45)])); Cls (Ranges [(48, 57)]); Star (Ranges [(48, 57)])])], false);
  (* 7450: ^([Aa][Ll][Ll]) *) (fixed [[(65, 65); (97, 97)]; [(76, 76); (108, 108)]; [(76, 76); (108, 108)]], false);
  (* 7451: ^([Aa][Nn][Dd]) *) (fixed [[(65, 65); (97, 97)]; [(78, 78); (110, 110)]; [(68, 68); (100, 100)]], false);
  (* 7452: ^([Aa][Ssſ]) *) (fixed [[(65, 65); (97, 97)]; [(83, 83); (115, 115); (383, 383)]], false);
  (* 7453: ^([Aa][Ssſ][Cc]) *) (fixed [[(65, 65); (97, 97)]; [(83, 83); (115, 115); (383, 383)]; [(67, 67); (99, 99)]], false);
  (* 7454: ^([Aa][Tt][Tt][Aa][Cc][Hh]) *) (fixed [[(65, 65); (97, 97)]; [(84, 84); (116, 116)]; [(84, 84); (116, 116)]; [(65, 65); (97, 97)]; [(67, 67); (99, 99)]; [(72, 72); (104, 104)]], false);
  (* 7455: ^([Bb][Ee][Tt][Ww][Ee][Ee][Nn]) *) (fixed [[(66, 66); (98, 98)]; [(69, 69); (101, 101)]; [(84, 84); (116, 116)]; [(87, 87); (119, 119)]; [(69, 69); (101, 101)]; [(69, 69); (101, 101)]; [(78, 78); (110, 110)]], false);
  (* 7456: ^([Bb][Yy]) *) (fixed [[(66, 66); (98, 98)]; [(89, 89); (121, 121)]], false);
  (* 7457: ^([Cc][Aa][Ssſ][Ee]) *) (fixed [[(67, 67); (99, 99)]; [(65, 65); (97, 97)]; [(83, 83); (115, 115); (383, 383)]; [(69, 69); (101, 101)]], false);
  (* 7458: ^([Cc][Oo][Ll][Ll][Aa][Tt][Ee]) *) (fixed [[(67, 67); (99, 99)]; [(79, 79); (111, 111)]; [(76, 76); (108, 108)]; [(76, 76); (108, 108)]; [(65, 65); (97, 97)]; [(84, 84); (116, 116)]; [(69, 69); (101, 101)]], false);
  (* 7459: ^([Cc][Rr][Oo][Ssſ][Ssſ]) *) (fixed [[(67, 67); (99, 99)]; [(82, 82); (114, 114)]; [(79, 79); (111, 111)]; [(83, 83); (115, 115); (383, 383)]; [(83, 83); (115, 115); (383, 383)]], false);
  (* 7460: ^([Cc][Uu][Rr][Rr][Ee][Nn][Tt]_[Dd][Aa][Tt][Ee]) *) (fixed [[(67, 67); (99, 99)]; [(85, 85); (117, 117)]; [(82, 82); (114, 114)]; [(82, 82); (114, 114)]; [(69, 69); (101, 101)]; [(78, 78); (110, 110)]; [(84, 84); (116, 116)]; [(95, 95)]; [(68, 68); (100, 100)]; [(65, 65); (97, 97)]; [(84, 84); (116, 116)]; [(69, 69); (101, 101)]], false);
  (* 7461: ^([Cc][Uu][Rr][Rr][Ee][Nn][Tt]_[Tt][Ii][Mm][Ee]) *) (fixed [[(67, 67); (99, 99)]; [(85, 85); (117, 117)]; [(82, 82); (114, 114)]; [(82, 82); (114, 114)]; [(69, 69); (101, 101)]; [(78, 78); (110, 110)]; [(84, 84); (116, 116)]; [(95, 95)]; [(84, 84); (116, 116)]; [(73, 73); (105, 105)]; [(77, 77); (109, 109)]; [(69, 69); (101, 101)]], false);
  (* 7462: ^([Cc][Uu][Rr][Rr][Ee][Nn][Tt]_[Tt][Ii][Mm][Ee][Ssſ][Tt][Aa][Mm][Pp]) *) (fixed [[(67, 67); (99, 99)]; [(85, 85); (117, 117)]; [(82, 82); (114, 114)]; [(82, 82); (114, 114)]; [(69, 69); (101, 101)]; [(78, 78); (110, 110)]; [(84, 84); (116, 116)]; [(95, 95)]; [(84, 84); (116, 116)]; [(73, 73); (105, 105)]; [(77, 77); (109, 109)]; [(69, 69); (101, 101)]; [(83, 83); (115, 115); (383, 383)]; [(84, 84); (116, 116)]; [(65, 65); (97, 97)]; [(77, 77); (109, 109)]; [(80, 80); (112, 112)]], false);
  (* 7463: ^([Dd][Aa][Tt][Ee]) *) (fixed [[(68, 68); (100, 100)]; [(65, 65); (97, 97)]; [(84, 84); (116, 116)]; [(69, 69); (101, 101)]], false);
  (* 7464: ^([Dd][Ee][Ll][Ee][Tt][Ee]) *) (fixed [[(68, 68); (100, 100)]; [(69, 69); (101, 101)]; [(76, 76); (108, 108)]; [(69, 69); (101, 101)]; [(84, 84); (116, 116)]; [(69, 69); (101, 101)]], false);
  (* 7465: ^([Dd][Ee][Ssſ][Cc]) *) (fixed [[(68, 68); (100, 100)]; [(69, 69); (101, 101)]; [(83, 83); (115, 115); (383, 383)]; [(67, 67); (99, 99)]], false);
  (* 7466: ^([Dd][Ee][Ssſ][Cc][Rr][Ii][Bb][Ee]) *) (fixed [[(68, 68); (100, 100)]; [(69, 69); (101, 101)]; [(83, 83); (115, 115); (383, 383)]; [(67, 67); (99, 99)]; [(82, 82); (114, 114)]; [(73, 73); (105, 105)]; [(66, 66); (98, 98)]; [(69, 69); (101, 101)]], false);
  (* 7467: ^([Dd][Ii][Ssſ][Tt][Ii][Nn][Cc][Tt]) *) (fixed [[(68, 68); (100, 100)]; [(73, 73); (105, 105)]; [(83, 83); (115, 115); (383, 383)]; [(84, 84); (116, 116)]; [(73, 73); (105, 105)]; [(78, 78); (110, 110)]; [(67, 67); (99, 99)]; [(84, 84); (116, 116)]], false);
  (* 7468: ^([Ee][Ll][Ssſ][Ee]) *) (fixed [[(69, 69); (101, 101)]; [(76, 76); (108, 108)]; [(83, 83); (115, 115); (383, 383)]; [(69, 69); (101, 101)]], false);
  (* 7469: ^([Ee][Nn][Dd]) *) (fixed [[(69, 69); (101, 101)]; [(78, 78); (110, 110)]; [(68, 68); (100, 100)]], false);
  (* 7470: ^([Ee][Xx][Cc][Ee][Pp][Tt]) *) (fixed [[(69, 69); (101, 101)]; [(88, 88); (120, 120)]; [(67, 67); (99, 99)]; [(69, 69); (101, 101)]; [(80, 80); (112, 112)]; [(84, 84); (116, 116)]], false);
  (* 7471: ^([Ee][Xx][Pp][Ll][Aa][Ii][Nn]) *) (fixed [[(69, 69); (101, 101)]; [(88, 88); (120, 120)]; [(80, 80); (112, 112)]; [(76, 76); (108, 108)]; [(65, 65); (97, 97)]; [(73, 73); (105, 105)]; [(78, 78); (110, 110)]], false);
  (* 7472: ^([Ff][Ii][Ll][Ee]) *) (fixed [[(70, 70); (102, 102)]; [(73, 73); (105, 105)]; [(76, 76); (108, 108)]; [(69, 69); (101, 101)]], false);
  (* 7473: ^([Ff][Rr][Oo][Mm]) *) (fixed [[(70, 70); (102, 102)]; [(82, 82); (114, 114)]; [(79, 79); (111, 111)]; [(77, 77); (109, 109)]], false);
  (* 7474: ^([Ff][Uu][Ll][Ll]) *) (fixed [[(70, 70); (102, 102)]; [(85, 85); (117, 117)]; [(76, 76); (108, 108)]; [(76, 76); (108, 108)]], false);
  (* 7475: ^([Gg][Rr][Oo][Uu][Pp]) *) (fixed [[(71, 71); (103, 103)]; [(82, 82); (114, 114)]; [(79, 79); (111, 111)]; [(85, 85); (117, 117)]; [(80, 80); (112, 112)]], false);
  (* 7476: ^([Hh][Aa][Vv][Ii][Nn][Gg]) *) (fixed [[(72, 72); (104, 104)]; [(65, 65); (97, 97)]; [(86, 86); (118, 118)]; [(73, 73); (105, 105)]; [(78, 78); (110, 110)]; [(71, 71); (103, 103)]], false);
  (* 7477: ^([Ii][Nn]) *) (fixed [[(73, 73); (105, 105)]; [(78, 78); (110, 110)]], false);
  (* 7478: ^([Ii][Nn][Nn][Ee][Rr]) *) (fixed [[(73, 73); (105, 105)]; [(78, 78); (110, 110)]; [(78, 78); (110, 110)]; [(69, 69); (101, 101)]; [(82, 82); (114, 114)]], false);
  (* 7479: ^([Ii][Nn][Ssſ][Ee][Rr][Tt]) *) (fixed [[(73, 73); (105, 105)]; [(78, 78); (110, 110)]; [(83, 83); (115, 115); (383, 383)]; [(69, 69); (101, 101)]; [(82, 82); (114, 114)]; [(84, 84); (116, 116)]], false);
  (* 7480: ^([Ii][Nn][Tt][Ee][Rr][Ssſ][Ee][Cc][Tt]) *) (fixed [[(73, 73); (105, 105)]; [(78, 78); (110, 110)]; [(84, 84); (116, 116)]; [(69, 69); (101, 101)]; [(82, 82); (114, 114)]; [(83, 83); (115, 115); (383, 383)]; [(69, 69); (101, 101)]; [(67, 67); (99, 99)]; [(84, 84); (116, 116)]], false);
  (* 7481: ^([Ii][Nn][Tt][Oo]) *) (fixed [[(73, 73); (105, 105)]; [(78, 78); (110, 110)]; [(84, 84); (116, 116)]; [(79, 79); (111, 111)]], false);
  (* 7482: ^([Ii][Ssſ]) *) (fixed [[(73, 73); (105, 105)]; [(83, 83); (115, 115); (383, 383)]], false);
  (* 7483: ^([Ii][Ssſ][Nn][Uu][Ll][Ll]) *) (fixed [[(73, 73); (105, 105)]; [(83, 83); (115, 115); (383, 383)]; [(78, 78); (110, 110)]; [(85, 85); (117, 117)]; [(76, 76); (108, 108)]; [(76, 76); (108, 108)]], false);
  (* 7484: ^([Jj][Oo][Ii][Nn]) *) (fixed [[(74, 74); (106, 106)]; [(79, 79); (111, 111)]; [(73, 73); (105, 105)]; [(78, 78); (110, 110)]], false);
  (* 7485: ^([Ll][Ee][Ff][Tt]) *) (fixed [[(76, 76); (108, 108)]; [(69, 69); (101, 101)]; [(70, 70); (102, 102)]; [(84, 84); (116, 116)]], false);
  (* 7486: ^([Ll][Ii][KkK][Ee]) *) (fixed [[(76, 76); (108, 108)]; [(73, 73); (105, 105)]; [(75, 75); (107, 107); (8490, 8490)]; [(69, 69); (101, 101)]], false);
  (* 7487: ^([Ll][Ii][Mm][Ii][Tt]) *) (fixed [[(76, 76); (108, 108)]; [(73, 73); (105, 105)]; [(77, 77); (109, 109)]; [(73, 73); (105, 105)]; [(84, 84); (116, 116)]], false);
  (* 7488: ^([Nn][Aa][Tt][Uu][Rr][Aa][Ll]) *) (fixed [[(78, 78); (110, 110)]; [(65, 65); (97, 97)]; [(84, 84); (116, 116)]; [(85, 85); (117, 117)]; [(82, 82); (114, 114)]; [(65, 65); (97, 97)]; [(76, 76); (108, 108)]], false);
  (* 7489: ^([Nn][Oo][Tt]) *) (fixed [[(78, 78); (110, 110)]; [(79, 79); (111, 111)]; [(84, 84); (116, 116)]], false);
  (* 7490: ^([Nn][Oo][Tt][Nn][Uu][Ll][Ll]) *) (fixed [[(78, 78); (110, 110)]; [(79, 79); (111, 111)]; [(84, 84); (116, 116)]; [(78, 78); (110, 110)]; [(85, 85); (117, 117)]; [(76, 76); (108, 108)]; [(76, 76); (108, 108)]], false);
  (* 7491: ^([Nn][Uu][Ll][Ll]) *) (fixed [[(78, 78); (110, 110)]; [(85, 85); (117, 117)]; [(76, 76); (108, 108)]; [(76, 76); (108, 108)]], false);
  (* 7492: ^([Oo][Ff][Ff][Ssſ][Ee][Tt]) *) (fixed [[(79, 79); (111, 111)]; [(70, 70); (102, 102)]; [(70, 70); (102, 102)]; [(83, 83); (115, 115); (383, 383)]; [(69, 69); (101, 101)]; [(84, 84); (116, 116)]], false);
  (* 7493: ^([Oo][Nn]) *) (fixed [[(79, 79); (111, 111)]; [(78, 78); (110, 110)]], false);
  (* 7494: ^([Oo][Rr]) *) (fixed [[(79, 79); (111, 111)]; [(82, 82); (114, 114)]], false);
  (* 7495: ^([Oo][Rr][Dd][Ee][Rr]) *) (fixed [[(79, 79); (111, 111)]; [(82, 82); (114, 114)]; [(68, 68); (100, 100)]; [(69, 69); (101, 101)]; [(82, 82); (114, 114)]], false);
  (* 7496: ^([Oo][Uu][Tt][Ee][Rr]) *) (fixed [[(79, 79); (111, 111)]; [(85, 85); (117, 117)]; [(84, 84); (116, 116)]; [(69, 69); (101, 101)]; [(82, 82); (114, 114)]], false);
  (* 7497: ^([Pp][Ll][Aa][Nn]) *) (fixed [[(80, 80); (112, 112)]; [(76, 76); (108, 108)]; [(65, 65); (97, 97)]; [(78, 78); (110, 110)]], false);
  (* 7498: ^([Qq][Uu][Ee][Rr][Yy]) *) (fixed [[(81, 81); (113, 113)]; [(85, 85); (117, 117)]; [(69, 69); (101, 101)]; [(82, 82); (114, 114)]; [(89, 89); (121, 121)]], false);
  (* 7499: ^([Rr][Ii][Gg][Hh][Tt]) *) (fixed [[(82, 82); (114, 114)]; [(73, 73); (105, 105)]; [(71, 71); (103, 103)]; [(72, 72); (104, 104)]; [(84, 84); (116, 116)]], false);
  (* 7500: ^([Ssſ][Ee][Ll][Ee][Cc][Tt]) *) (fixed [[(83, 83); (115, 115); (383, 383)]; [(69, 69); (101, 101)]; [(76, 76); (108, 108)]; [(69, 69); (101, 101)]; [(67, 67); (99, 99)]; [(84, 84); (116, 116)]], false);
  (* 7501: ^([Ssſ][Ee][Tt]) *) (fixed [[(83, 83); (115, 115); (383, 383)]; [(69, 69); (101, 101)]; [(84, 84); (116, 116)]], false);
  (* 7502: ^([Tt][Aa][Bb][Ll][Ee]) *) (fixed [[(84, 84); (116, 116)]; [(65, 65); (97, 97)]; [(66, 66); (98, 98)]; [(76, 76); (108, 108)]; [(69, 69); (101, 101)]], false);
  (* 7503: ^([Tt][Hh][Ee][Nn]) *) (fixed [[(84, 84); (116, 116)]; [(72, 72); (104, 104)]; [(69, 69); (101, 101)]; [(78, 78); (110, 110)]], false);
  (* 7504: ^([Tt][Ii][Mm][Ee]) *) (fixed [[(84, 84); (116, 116)]; [(73, 73); (105, 105)]; [(77, 77); (109, 109)]; [(69, 69); (101, 101)]], false);
  (* 7505: ^([Tt][Ii][Mm][Ee][Ssſ][Tt][Aa][Mm][Pp]) *) (fixed [[(84, 84); (116, 116)]; [(73, 73); (105, 105)]; [(77, 77); (109, 109)]; [(69, 69); (101, 101)]; [(83, 83); (115, 115); (383, 383)]; [(84, 84); (116, 116)]; [(65, 65); (97, 97)]; [(77, 77); (109, 109)]; [(80, 80); (112, 112)]], false);
  (* 7506: ^([Uu][Nn][Ii][Oo][Nn]) *) (fixed [[(85, 85); (117, 117)]; [(78, 78); (110, 110)]; [(73, 73); (105, 105)]; [(79, 79); (111, 111)]; [(78, 78); (110, 110)]], false);
  (* 7507: ^([Uu][Pp][Dd][Aa][Tt][Ee]) *) (fixed [[(85, 85); (117, 117)]; [(80, 80); (112, 112)]; [(68, 68); (100, 100)]; [(65, 65); (97, 97)]; [(84, 84); (116, 116)]; [(69, 69); (101, 101)]], false);
  (* 7508: ^([Uu][Ssſ][Ii][Nn][Gg]) *) (fixed [[(85, 85); (117, 117)]; [(83, 83); (115, 115); (383, 383)]; [(73, 73); (105, 105)]; [(78, 78); (110, 110)]; [(71, 71); (103, 103)]], false);
  (* 7509: ^([Vv][Aa][Ll][Uu][Ee][Ssſ]) *) (fixed [[(86, 86); (118, 118)]; [(65, 65); (97, 97)]; [(76, 76); (108, 108)]; [(85, 85); (117, 117)]; [(69, 69); (101, 101)]; [(83, 83); (115, 115); (383, 383)]], false);
  (* 7510: ^([Ww][Hh][Ee][Nn]) *) (fixed [[(87, 87); (119, 119)]; [(72, 72); (104, 104)]; [(69, 69); (101, 101)]; [(78, 78); (110, 110)]], false);
  (* 7511: ^([Ww][Hh][Ee][Rr][Ee]) *) (fixed [[(87, 87); (119, 119)]; [(72, 72); (104, 104)]; [(69, 69); (101, 101)]; [(82, 82); (114, 114)]; [(69, 69); (101, 101)]], false);
  (* 7512: ^([Ww][Ii][Tt][Hh]) *) (fixed [[(87, 87); (119, 119)]; [(73, 73); (105, 105)]; [(84, 84); (116, 116)]; [(72, 72); (104, 104)]], false);
  (* 7513: ^(!=) *) (fixed [[(33, 33)]; [(61, 61)]], false);
  (* 7514: ^(\() *) (fixed [[(40, 40)]], false);
  (* 7515: ^(\)) *) (fixed [[(41, 41)]], false);
  (* 7516: ^(\* ) *) (fixed [[(42, 42)]], false);
  (* 7517: ^(\+) *) (fixed [[(43, 43)]], false);
  (* 7518: ^(,) *) (fixed [[(44, 44)]], false);
  (* 7519: ^(\-) *) (fixed [[(45, 45)]], false);
  (* 7520: ^(\.) *) (fixed [[(46, 46)]], false);
  (* 7521: ^(/) *) (fixed [[(47, 47)]], false);
  (* 7522: ^(<) *) (fixed [[(60, 60)]], false);
  (* 7523: ^(<=) *) (fixed [[(60, 60)]; [(61, 61)]], false);
  (* 7524: ^(=) *) (fixed [[(61, 61)]], false);
  (* 7525: ^(>) *) (fixed [[(62, 62)]], false);
  (* 7526: ^(>=) *) (fixed [[(62, 62)]; [(61, 61)]], false);
  (* 7527: ^(\|\|) *) (fixed [[(124, 124)]; [(124, 124)]], false);
  (* 7528: ^(\s* ) *) (seqs [Star Space], true)].

(** src/sql/parser.rs:1847-1940 [__token_to_integer]: from the number of a pattern to that of a terminal. The pattern
    that is skipped has none, and makes no tokens. *)
Definition sql_terminal (i : nat) : nat :=
  match find (fun e => (fst e =? i)%nat) sql_token_index with Some (_, t) => t | None => 83%nat end.

Definition sql_tokens (l : list (nat * str)) : list LrModel.token := map (fun t => (sql_terminal (fst t), snd t)) l.

(** [ParseError]; the places of the tokens are left out, and the list of the expected ones is beside it in
    [parse_sql_report]. *)
Inductive parse_error : Type :=
| InvalidTokenAt (place : nat)
| UnrecognizedTokenErr (t : LrModel.token)
| UnrecognizedEofErr
| ExtraTokenErr (t : LrModel.token).

Definition answer_result {V : Type} (a : answer V) : result V parse_error :=
  match a with
  | Accepted v => Ok v
  | UnrecognizedToken t _ => Err (UnrecognizedTokenErr t)
  | UnrecognizedEof _ => Err UnrecognizedEofErr
  | ExtraToken t => Err (ExtraTokenErr t)
  end.

(** What is popped at the end: src/sql/parser.rs:2670-2677, 3054-3063 ([__pop_Variant41]). *)
Definition pop_statement (v : sym) : outcome sql_statement :=
  match v with Variant41 s => Ret s | _ => Panic end.

(** The steps that are always enough ([sql_drive_correct]). *)
Definition sql_fuel (toks : list LrModel.token) : nat := (17 * length toks + 2)%nat.

(** src/sql/parser.rs:1972-1987 [SqlStatementParser::parse]. The machine asks the lexer for one token at a time and
    returns its error when it gets one; here the text is split first, and [drive_before] is the machine up to the
    error. *)
Definition parse_sql (s : str) : outcome (result sql_statement parse_error) :=
  let (ts, e) := lex sql_patterns (length s) 0 s in
  let toks := sql_tokens ts in
  match e with
  | None =>
      match drive sym sql_shift sql_build sql_tables (sql_fuel toks) [0%nat] [] toks with
      | Some (Ret a) =>
          match answer_result a with
          | Ok v => st <- pop_statement v ;; Ret (Ok st)
          | Err x => Ret (Err x)
          end
      | Some _ | None => Panic
      end
  | Some place =>
      match drive_before sym sql_shift sql_build sql_tables (sql_fuel toks) [0%nat] [] toks with
      | Some (Ret None) => Ret (Err (InvalidTokenAt place))
      | Some (Ret (Some a)) => match answer_result a with Ok _ => Panic | Err x => Ret (Err x) end
      | Some _ | None => Panic
      end
  end.

(** The same with the list of expected terminals, which [UnrecognizedToken] and [UnrecognizedEOF] have. *)
Definition answer_report {V : Type} (a : answer V) : result V (parse_error * list nat) :=
  match a with
  | Accepted v => Ok v
  | UnrecognizedToken t l => Err (UnrecognizedTokenErr t, l)
  | UnrecognizedEof l => Err (UnrecognizedEofErr, l)
  | ExtraToken t => Err (ExtraTokenErr t, [])
  end.

Definition parse_sql_report (s : str) : outcome (result sql_statement (parse_error * list nat)) :=
  let (ts, e) := lex sql_patterns (length s) 0 s in
  let toks := sql_tokens ts in
  match e with
  | None =>
      match drive sym sql_shift sql_build sql_tables (sql_fuel toks) [0%nat] [] toks with
      | Some (Ret a) =>
          match answer_report a with
          | Ok v => st <- pop_statement v ;; Ret (Ok st)
          | Err x => Ret (Err x)
          end
      | Some _ | None => Panic
      end
  | Some place =>
      match drive_before sym sql_shift sql_build sql_tables (sql_fuel toks) [0%nat] [] toks with
      | Some (Ret None) => Ret (Err (InvalidTokenAt place, []))
      | Some (Ret (Some a)) => match answer_report a with Ok _ => Panic | Err x => Ret (Err x) end
      | Some _ | None => Panic
      end
  end.
