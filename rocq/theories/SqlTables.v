(** * The tables of the SQL parser

    Copied from src/sql/parser.rs by a script, number by number. That file is what LALRPOP 0.19.8 made of
    src/sql/parser.lalrpop: the hash in its second line is the SHA3-256 of the latter. *)

From Verif Require Import Base StrModel LrModel.
Local Open Scope Z_scope.

(** src/sql/parser.rs:78-737 [__ACTION], a row for each state. *)
Definition sql_action_rows : list (list Z) := [
  (* State 0 *) [0; 0; 0; 0; 0; 0; 0; 0; 0; 0; 0; 0; 0; 0; 0; 0; 0; 0; 127; 0; 0; 0; 0; 0; 0; 0; 0; 0; 128; 0; 4; 0;
    0; 0; 0; 5; 0; 0; 0; 0; 0; 0; 0; 129; 0; 0; 0; 0; 0; 0; 0; 0; 0; 0; 0; 0; 0; 0; 0; 0; 0; 0; 0; 0; 6; 0; 0; 0; 0;
    0; 0; 7; 0; 8; 0; 0; 9; 0; 0; 0; 0; 0; 0];
  (* State 1 *) [0; 0; (-181); 0; 0; 0; 0; 0; 0; 0; 0; 0; 0; 0; 0; 0; 0; 0; 0; 0; 0; 0; 0; 0; 0; 0; 0; 0; 0; 0; 0; 0;
    0; 0; 131; 0; 0; 0; 0; 0; 0; 0; 0; 0; 132; 0; 0; 0; 0; 0; 0; 12; 0; 0; 0; 0; 0; 0; 0; 133; 0; 0; 0; 0; 0; 0; 0; 0;
    0; 0; 134; 0; 0; 0; 0; 0; 0; 0; 0; 0; 0; 0; 0];
  (* State 2 *) [0; 0; 0; 0; 0; 0; 0; 0; 0; 0; 0; 0; 0; 0; 0; 0; 0; 0; 0; 0; 0; 0; 0; 0; 0; 0; 0; 0; 135; 0; 0; 0; 0;
    0; 0; 0; 0; 0; 0; 0; 0; 0; 0; 136; 0; 0; 0; 0; 0; 0; 0; 0; 0; 0; 0; 0; 0; 0; 0; 0; 0; 0; 0; 0; 6; 0; 0; 0; 0; 0;
    0; 14; 0; 8; 0; 0; 0; 0; 0; 0; 0; 0; 0];
  (* State 3 *) [0; 0; 0; 0; 0; 0; 0; 0; 0; 0; 0; 0; 0; 0; 0; 0; 0; 0; 0; 0; 0; 0; 0; 0; 0; 0; 0; 0; 0; 0; 0; 0; 0; 0;
    0; 0; 0; 0; 0; 0; 0; 0; 0; 0; 0; 0; 0; 0; 0; 0; 0; 0; 0; 0; 0; 0; 0; 0; 0; 0; 0; 0; 0; 0; 0; 0; 0; 0; 0; 0; 0; 0;
    0; 0; 0; 0; 0; 0; 0; 138; 0; 0; 0];
  (* State 4 *) [0; 0; 0; 0; 0; 0; 0; 0; 0; 0; 0; 0; 0; 0; 0; 0; 0; 0; 0; 0; 0; 0; 0; 0; 0; 0; 0; 0; 128; 0; 0; 0; 0;
    0; 0; 0; 0; 0; 0; 0; 0; 0; 0; 129; 0; 0; 0; 0; 0; 0; 0; 0; 0; 0; 0; 0; 0; 0; 0; 0; 0; 0; 140; 0; 6; 0; 0; 0; 0; 0;
    0; 7; 0; 8; 0; 0; 9; 0; 0; 0; 0; 0; 0];
  (* State 5 *) [0; (-172); 0; (-172); (-172); 0; (-172); 0; 0; 0; 0; 0; 0; 0; 141; 0; 0; 0; 0; 0; 0; (-172); 0; 0;
    (-172); (-172); (-172); (-172); 0; 0; 0; 142; 0; 0; 0; 0; 0; 0; 0; 0; 0; 0; 0; 0; 0; 0; 0; 0; 0; 0; 0; 0; 0;
    (-172); 0; (-172); 0; 0; 0; 0; 0; 0; 0; 0; 0; 0; 0; 0; (-172); (-172); 0; 0; 0; 0; 0; 0; 0; 0; (-172); (-172);
    (-172); (-172); (-172)];
  (* State 6 *) [0; 0; 0; 0; 0; 0; 0; 0; 0; 0; 0; 0; 0; 0; 0; 0; 0; 0; 0; 0; 0; 0; 0; 0; 0; 0; 0; 0; 0; 0; 0; 0; 0; 0;
    0; 0; 0; 0; 0; 0; 0; 0; 0; 0; 0; 0; 0; 0; 0; 0; 0; 0; 0; 0; 0; 0; 0; 0; 0; 0; 0; 0; 0; 0; 0; 0; 0; 0; 0; 0; 0; 0;
    0; 0; 0; 0; 0; 0; 0; 138; 0; 0; 0];
  (* State 7 *) [0; 20; 0; 0; 0; 0; 0; 0; 0; 0; 0; 0; 0; 0; 0; 0; 0; 0; 0; 0; 0; 0; 0; 0; 0; 0; 0; 0; 0; 0; 0; 0; 0;
    0; 0; 0; 0; 0; 0; 0; 0; 0; 0; 0; 0; 0; 0; 0; 0; 0; 0; 0; 0; 0; 0; 0; 0; 0; 0; 0; 0; 0; 0; 0; 0; 0; 0; 0; 0; 0; 0;
    0; 0; 0; 0; 0; 0; 0; 0; 0; 0; 0; 0];
  (* State 8 *) [0; 0; 0; 0; 0; 0; 0; 0; 0; 0; 0; 0; 0; 0; 0; 0; 0; 0; 0; 0; 0; 0; 0; 0; 0; 0; 0; 0; 0; 0; 0; 0; 0; 0;
    0; 0; 0; 0; 0; 0; 0; 0; 0; 0; 0; 0; 0; 0; 0; 0; 0; 0; 0; 0; 0; 0; 0; 0; 0; 0; 0; 0; 0; 0; 0; 0; 0; 0; 0; 0; 0; 0;
    0; 0; 0; 0; 0; 0; 0; 138; 0; 0; 0];
  (* State 9 *) [0; 0; 0; 0; 0; 0; 0; 0; 0; 0; 0; 0; 0; 0; 0; 0; 0; 0; 0; 0; 0; 0; 0; 0; 0; 0; 0; 0; 0; 0; 0; 0; 0; 0;
    0; 0; 0; 0; 0; 0; 0; 0; 0; 0; 0; 0; 0; 0; 0; 0; 0; 0; 0; 0; 0; 0; 0; 0; 0; 0; 0; 0; 0; 0; 6; 0; 0; 0; 0; 0; 0; 0;
    0; 8; 0; 0; 0; 0; 0; 0; 0; 0; 0];
  (* State 10 *) [0; 0; (-180); 0; 0; 0; 0; 0; 0; 0; 0; 0; 0; 0; 0; 0; 0; 0; 0; 0; 0; 0; 0; 0; 0; 0; 0; 0; 0; 0; 0; 0;
    0; 0; 0; 0; 0; 0; 0; 0; 0; 0; 0; 0; 0; 0; 0; 0; 0; 0; 0; 12; 0; 0; 0; 0; 0; 0; 0; 0; 0; 0; 0; 0; 0; 0; 0; 0; 0; 0;
    0; 0; 0; 0; 0; 0; 0; 0; 0; 0; 0; 0; 0];
  (* State 11 *) [0; 21; 0; 0; 22; 0; 23; 0; 0; 0; 0; 0; 0; 0; 0; 0; 0; 0; 0; 0; 0; 24; 0; 0; 167; 168; 169; 25; 0; 0;
    0; 0; 0; 0; 0; 0; 0; 0; 0; 0; 0; 0; 0; 0; 0; 0; 0; 0; 0; 0; 0; 0; 0; 26; 0; 170; 0; 0; 0; 0; 0; 0; 0; 0; 0; 0; 0;
    0; 27; 28; 0; 0; 0; 0; 0; 0; 0; 0; 171; 138; 172; 173; 174];
  (* State 12 *) [0; 0; (-177); 0; 0; 0; 0; 0; 0; 0; 0; 0; 0; 0; 0; 0; 0; 0; 0; 0; 0; 0; 0; 0; 0; 0; 0; 0; 0; 0; 0; 0;
    0; 0; 131; 0; 0; 0; 0; 0; 0; 0; 0; 0; 132; 0; 0; 0; 0; 0; 0; 12; 0; 0; 0; 0; 0; 0; 0; 133; 0; 0; 0; 0; 0; 0; 0; 0;
    0; 0; 134; 0; 0; 0; 0; 0; 0; 0; 0; 0; 0; 0; 0];
  (* State 13 *) [0; 0; 0; 0; 0; 0; 0; 0; 0; 0; 0; 0; 0; 0; 0; 0; 0; 0; 0; 0; 0; 0; 0; 0; 0; 0; 0; 0; 0; 0; 0; 0; 0;
    0; 0; 0; 0; 0; 0; 0; 0; 0; 0; 0; 0; 0; 0; 0; 0; 0; 0; 0; 0; 0; 0; 0; 0; 0; 0; 0; 0; 0; 0; 0; 0; 0; 0; 0; 0; 0; 0;
    0; 0; 0; 0; 0; 0; 0; 0; 138; 0; 0; 0];
  (* State 14 *) [0; 0; 0; 0; 0; 0; 0; 0; 0; 0; 0; 0; 0; 0; 0; 0; 0; 0; 0; 0; 0; 0; 0; 0; 0; 0; 0; 0; 0; 0; 0; 0; 0;
    0; 0; 0; 0; 0; 0; 0; 0; 0; 0; 0; 0; 0; 0; 0; 0; 0; 0; 0; 0; 0; 0; 0; 0; 0; 0; 0; 0; 0; 0; 0; 0; 0; 0; 0; 0; 0; 0;
    0; 0; 0; 0; 0; 0; 0; 0; 0; 0; 0; 174];
  (* State 15 *) [0; 0; 0; 0; 0; 0; 0; 0; 0; 0; 0; 0; 0; 0; 0; 0; 0; 0; 0; 0; 0; 0; 0; 0; 0; 0; 0; 0; 0; 0; 0; 0; 0;
    0; 0; 0; 0; 0; 0; 0; 0; 0; 0; 0; 0; 0; 0; 0; 0; 0; 0; 0; 0; 0; 0; 0; 0; 0; 0; 0; 0; 0; 0; 0; 0; 0; 0; 0; 0; 0; 0;
    0; 0; 0; 0; 0; 0; 0; 0; 138; 0; 0; 0];
  (* State 16 *) [0; 0; 0; 0; 0; 0; 0; 0; 0; 0; 0; 0; 0; 0; 0; 0; 0; 0; 0; 0; 0; 0; 0; 0; 0; 0; 0; 0; 0; 0; 0; 0; 0;
    0; 0; 0; 0; 0; 0; 0; 0; 0; 0; 0; 0; 0; 0; 0; 0; 0; 0; 0; 0; 0; 0; 0; 0; 0; 0; 0; 0; 0; 0; 0; 0; 0; 0; 0; 0; 0; 0;
    0; 0; 0; 0; 0; 0; 0; 0; 138; 0; 0; 0];
  (* State 17 *) [0; 0; 0; 0; 0; 0; 0; 0; 0; 0; 0; 0; 0; 0; 0; 0; 0; 0; 0; 0; 0; 0; 0; 0; 0; 0; 0; 0; 0; 0; 0; 0; 0;
    0; 0; 0; 0; 0; 0; 0; 0; 0; 0; 0; 0; 0; 0; 0; 0; 0; 0; 0; 0; 0; 0; 0; 0; 0; 0; 0; 0; 0; 0; 0; 0; 0; 0; 0; 0; 0; 0;
    0; 0; 0; 0; 0; 0; 0; 0; 138; 0; 0; 0];
  (* State 18 *) [0; 21; 0; 184; 22; 0; 23; 0; 0; 0; 0; 0; 0; 0; 0; 0; 0; 0; 0; 0; 0; 24; 0; 0; 167; 168; 169; 25; 0;
    0; 0; 0; 0; 0; 0; 0; 0; 0; 0; 0; 0; 0; 0; 0; 0; 0; 0; 0; 0; 0; 0; 0; 0; 26; 0; 170; 0; 0; 0; 0; 0; 0; 0; 0; 0; 0;
    0; 0; 27; 28; 0; 0; 0; 0; 0; 0; 0; 0; 171; 138; 172; 173; 174];
  (* State 19 *) [0; 21; 0; 0; 22; 0; 23; 0; 0; 0; 0; 0; 0; 0; 0; 0; 0; 0; 0; 0; 0; 24; 0; 0; 167; 168; 169; 25; 0; 0;
    0; 0; 0; 0; 0; 0; 0; 0; 0; 0; 0; 0; 0; 0; 0; 0; 0; 0; 0; 0; 0; 0; 0; 26; 0; 170; 0; 0; 0; 0; 0; 0; 0; 0; 0; 0; 0;
    0; 27; 28; 0; 0; 0; 0; 0; 0; 0; 0; 171; 138; 172; 173; 174];
  (* State 20 *) [0; 21; 0; 0; 22; 0; 23; 0; 0; 0; 0; 0; 0; 0; 0; 0; 0; 0; 0; 0; 0; 24; 0; 0; 167; 168; 169; 25; 0; 0;
    0; 0; 0; 0; 0; 0; 0; 0; 0; 0; 0; 0; 0; 0; 0; 0; 0; 0; 0; 0; 0; 0; 0; 26; 0; 170; 0; 0; 0; 0; 0; 0; 0; 0; 6; 0; 0;
    0; 27; 28; 0; 0; 0; 8; 0; 0; 9; 0; 171; 138; 172; 173; 174];
  (* State 21 *) [0; 21; 0; 0; 22; 0; 23; 0; 0; 0; 0; 0; 0; 0; 0; 0; 0; 0; 0; 0; 0; 0; 0; 0; 167; 168; 169; 25; 0; 0;
    0; 0; 0; 0; 0; 0; 0; 0; 0; 0; 0; 0; 0; 0; 0; 0; 0; 0; 0; 0; 0; 0; 0; 0; 0; 170; 0; 0; 0; 0; 0; 0; 0; 0; 0; 0; 0;
    0; 27; 28; 0; 0; 0; 0; 0; 0; 0; 0; 171; 138; 172; 173; 174];
  (* State 22 *) [0; 21; 0; 0; 22; 0; 23; 0; 0; 0; 0; 0; 0; 0; 0; 0; 0; 0; 0; 0; 0; 0; 0; 0; 167; 168; 169; 25; 0; 0;
    0; 0; 0; 0; 0; 0; 0; 0; 0; 0; 0; 0; 0; 0; 0; 0; 0; 0; 0; 0; 0; 0; 0; 0; 0; 170; 0; 0; 0; 0; 0; 0; 0; 0; 0; 0; 0;
    0; 27; 28; 0; 0; 0; 0; 0; 0; 0; 0; 171; 138; 172; 173; 174];
  (* State 23 *) [0; 21; 0; 0; 22; 0; 23; 0; 0; 0; 0; 0; 0; 0; 0; 0; 0; 0; 0; 0; 0; 24; 0; 0; 167; 168; 169; 25; 0; 0;
    0; 0; 0; 0; 0; 0; 0; 0; 0; 0; 0; 0; 0; 0; 0; 0; 0; 0; 0; 0; 0; 0; 0; 26; 0; 170; 0; 0; 0; 0; 0; 0; 0; 0; 0; 0; 0;
    0; 27; 28; 0; 0; 0; 0; 64; 0; 0; 0; 171; 138; 172; 173; 174];
  (* State 24 *) [0; 0; 0; 0; 0; 0; 0; 0; 0; 0; 0; 0; 0; 0; 0; 0; 0; 0; 0; 0; 0; 0; 0; 0; 0; 0; 0; 0; 0; 0; 0; 0; 0;
    0; 0; 0; 0; 0; 0; 0; 0; 0; 0; 0; 0; 0; 0; 0; 0; 0; 0; 0; 0; 0; 0; 0; 0; 0; 0; 0; 0; 0; 0; 0; 0; 0; 0; 0; 0; 0; 0;
    0; 0; 0; 0; 0; 0; 0; 0; 0; 0; 0; 174];
  (* State 25 *) [0; 21; 0; 0; 22; 0; 23; 0; 0; 0; 0; 0; 0; 0; 0; 0; 0; 0; 0; 0; 0; 24; 0; 0; 167; 168; 169; 25; 0; 0;
    0; 0; 0; 0; 0; 0; 0; 0; 0; 0; 0; 0; 0; 0; 0; 0; 0; 0; 0; 0; 0; 0; 0; 0; 0; 170; 0; 0; 0; 0; 0; 0; 0; 0; 0; 0; 0;
    0; 27; 28; 0; 0; 0; 0; 0; 0; 0; 0; 171; 138; 172; 173; 174];
  (* State 26 *) [0; 0; 0; 0; 0; 0; 0; 0; 0; 0; 0; 0; 0; 0; 0; 0; 0; 0; 0; 0; 0; 0; 0; 0; 0; 0; 0; 0; 0; 0; 0; 0; 0;
    0; 0; 0; 0; 0; 0; 0; 0; 0; 0; 0; 0; 0; 0; 0; 0; 0; 0; 0; 0; 0; 0; 0; 0; 0; 0; 0; 0; 0; 0; 0; 0; 0; 0; 0; 0; 0; 0;
    0; 0; 0; 0; 0; 0; 0; 0; 0; 0; 0; 174];
  (* State 27 *) [0; 0; 0; 0; 0; 0; 0; 0; 0; 0; 0; 0; 0; 0; 0; 0; 0; 0; 0; 0; 0; 0; 0; 0; 0; 0; 0; 0; 0; 0; 0; 0; 0;
    0; 0; 0; 0; 0; 0; 0; 0; 0; 0; 0; 0; 0; 0; 0; 0; 0; 0; 0; 0; 0; 0; 0; 0; 0; 0; 0; 0; 0; 0; 0; 0; 0; 0; 0; 0; 0; 0;
    0; 0; 0; 0; 0; 0; 0; 0; 0; 0; 0; 174];
  (* State 28 *) [0; 21; 0; 0; 22; 0; 23; 0; 0; 0; 0; 0; 0; 0; 0; 0; 0; 0; 0; 0; 0; 24; 0; 0; 167; 168; 169; 25; 0; 0;
    0; 0; 0; 0; 0; 0; 0; 0; 0; 0; 0; 0; 0; 0; 0; 0; 0; 0; 0; 0; 0; 0; 0; 26; 0; 170; 0; 0; 0; 0; 0; 0; 0; 0; 0; 0; 0;
    0; 27; 28; 0; 0; 0; 0; 0; 0; 0; 0; 171; 138; 172; 173; 174];
  (* State 29 *) [0; 0; (-176); 0; 0; 0; 0; 0; 0; 0; 0; 0; 0; 0; 0; 0; 0; 0; 0; 0; 0; 0; 0; 0; 0; 0; 0; 0; 0; 0; 0; 0;
    0; 0; 0; 0; 0; 0; 0; 0; 0; 0; 0; 0; 0; 0; 0; 0; 0; 0; 0; 12; 0; 0; 0; 0; 0; 0; 0; 0; 0; 0; 0; 0; 0; 0; 0; 0; 0; 0;
    0; 0; 0; 0; 0; 0; 0; 0; 0; 0; 0; 0; 0];
  (* State 30 *) [0; 0; 0; 0; 0; 0; 0; 0; 0; 0; 0; 0; 0; 0; 0; 0; 0; 0; 0; 0; 0; 0; 0; 0; 0; 0; 0; 0; 0; 0; 0; 0; 0;
    0; 0; 0; 0; 0; 0; 0; 0; 0; 0; 0; 0; 0; 0; 0; 0; 0; 0; 0; 0; 0; 0; 0; 0; 0; 0; 0; 0; 0; 0; 0; 0; 0; 0; 0; 0; 0; 0;
    0; 0; 0; 0; 0; 0; 0; 0; 138; 0; 0; 0];
  (* State 31 *) [0; 0; 0; 0; 0; 0; 0; 0; 0; 0; 0; 0; 0; 0; 0; 0; 0; 0; 0; 0; 0; 0; 0; 0; 0; 0; 0; 0; 0; 0; 0; 0; 0;
    0; 0; 0; 0; 0; 0; 0; 0; 0; 0; 0; 0; 0; 0; 0; 0; 0; 0; 0; 0; 0; 0; 0; 0; 0; 0; 0; 0; 0; 0; 0; 0; 0; 0; 0; 0; 0; 0;
    0; 0; 0; 0; 0; 0; 0; 0; 138; 0; 0; 0];
  (* State 32 *) [0; 0; 0; 0; 0; 0; 0; 0; 0; 0; 0; 0; 0; 0; 0; 0; 0; 0; 0; 0; 0; 0; 0; 0; 0; 0; 0; 0; 0; 0; 0; 0; 0;
    0; 0; 0; 0; 0; 0; 0; 0; 0; 0; 0; 0; 0; 0; 0; 0; 0; 0; 0; 0; 0; 0; 0; 0; 0; 0; 0; 0; 0; 0; 0; 0; 0; 0; 0; 0; 0; 0;
    0; 0; 0; 0; 70; 0; 0; 0; 0; 0; 0; 0];
  (* State 33 *) [0; 0; 0; 0; 0; 0; 0; 0; 0; 0; 0; 0; 0; 0; 0; 0; 0; 0; 0; 0; 0; 0; 0; 0; 0; 0; 0; 0; 128; 0; 0; 0; 0;
    0; 0; 0; 0; 0; 0; 0; 0; 0; 0; 129; 0; 0; 0; 0; 0; 0; 0; 0; 0; 0; 0; 0; 0; 0; 0; 0; 0; 0; 0; 0; 6; 0; 0; 0; 0; 0;
    0; 7; 0; 8; 0; 0; 9; 0; 0; 0; 0; 0; 0];
  (* State 34 *) [0; 72; 0; 0; 0; 0; 0; 0; 0; 0; 0; 0; 0; 0; 0; 0; 0; 0; 0; 0; 0; 0; 0; 0; 0; 0; 0; 0; 0; 0; 0; 0; 0;
    0; 0; 0; 0; 0; 0; 0; 0; 0; 0; 0; 0; 0; 0; 0; 0; 0; 0; 0; 0; 0; 0; 0; 0; 0; 0; 0; 0; 0; 0; 0; 6; 0; 0; 0; 0; 0; 0;
    0; 0; 8; 0; 0; 0; 0; 0; 0; 0; 0; 0];
  (* State 35 *) [0; 0; (-149); 0; 0; (-149); 0; 0; 0; 0; 0; 0; 0; 0; 0; 0; 73; 0; 0; 0; 0; 0; 0; 0; 0; 0; 0; 0; 0; 0;
    0; 0; 0; 0; (-149); 0; 0; (-149); 0; (-149); 0; 0; 0; 0; (-149); 0; 0; 0; 0; 0; 0; (-149); 0; 0; 0; 0; 0; 0; 0;
    (-149); 0; 0; 0; 0; 0; 0; 0; 0; 0; 0; (-149); 0; 0; 0; 0; (-149); 0; 0; 0; 138; 0; 0; 0];
  (* State 36 *) [0; 0; (-163); 0; 0; 0; 0; 0; 0; 0; 0; 0; 0; 0; 0; 0; 0; 0; 0; 0; 0; 0; 0; 0; 0; 0; 0; 0; 0; 0; 0; 0;
    0; 0; (-163); 0; 0; 78; 0; 209; 0; 0; 0; 0; (-163); 0; 0; 0; 0; 0; 0; (-163); 0; 0; 0; 0; 0; 0; 0; (-163); 0; 0;
    0; 0; 0; 0; 0; 0; 0; 0; (-163); 0; 0; 0; 0; 70; 0; 0; 0; 0; 0; 0; 0];
  (* State 37 *) [0; 0; 0; 0; 0; 0; 0; 0; 0; 0; 0; 0; 0; 0; 0; 0; 0; 0; 0; 0; 0; 0; 0; 0; 0; 0; 0; 0; 0; 0; 0; 0; 0;
    0; 0; 0; 0; 0; 0; 0; 0; 0; 0; 0; 0; 0; 0; 0; 0; 0; 0; 0; 0; 0; 0; 0; 0; 0; 0; 0; 0; 0; 0; 0; 0; 0; 0; 0; 0; 0; 0;
    0; 0; 0; 0; 0; 0; 0; 0; 138; 0; 0; 0];
  (* State 38 *) [0; 0; 0; 0; 0; 0; 0; 0; 0; 0; 0; 0; 0; 0; 0; 0; 0; 0; 0; 0; 0; 0; 0; 0; 0; 0; 0; 0; 0; 0; 0; 0; 0;
    0; 0; 0; 0; 0; 0; 0; 0; 0; 0; 0; 0; 0; 0; 0; 0; 0; 0; 0; 0; 0; 0; 0; 0; 0; 0; 0; 0; 0; 0; 0; 0; 0; 0; 0; 0; 0; 0;
    0; 0; 0; 0; 0; 0; 0; 0; 138; 0; 0; 0];
  (* State 39 *) [0; 20; 0; 0; 0; 0; 0; 0; 0; 0; 0; 0; 0; 0; 0; 0; 0; 0; 0; 0; 0; 0; 0; 0; 0; 0; 0; 0; 0; 0; 0; 0; 0;
    0; 0; 0; 0; 0; 0; 0; 0; 0; 0; 0; 0; 0; 0; 0; 0; 0; 0; 0; 0; 0; 0; 0; 0; 0; 0; 0; 0; 0; 0; 0; 0; 0; 0; 0; 0; 0; 0;
    0; 0; 0; 0; 0; 0; 0; 0; 0; 0; 0; 0];
  (* State 40 *) [0; 0; 0; 0; 0; 0; 0; 0; 0; 0; 0; 0; 0; 0; 0; 0; 0; 0; 0; 0; 0; 0; 0; 0; 0; 0; 0; 0; 0; 0; 0; 0; 0;
    0; 0; 0; 0; 0; 0; 0; 0; 0; 0; 0; 0; 0; 0; 0; 0; 0; 0; 0; 0; 0; 0; 0; 0; 0; 0; 0; 0; 0; 0; 0; 0; 0; 0; 0; 0; 0; 0;
    0; 0; 0; 0; 0; 0; 0; 0; 138; 0; 0; 0];
  (* State 41 *) [0; 0; 0; 0; 0; 0; 0; 0; 0; 0; 0; 0; 0; 0; 0; 0; 0; 0; 0; 0; 0; 0; 0; 0; 0; 0; 0; 0; 0; 0; 0; 0; 0;
    0; 0; 0; 0; 0; 0; 0; 0; 0; 0; 0; 0; 0; 0; 0; 0; 0; 0; 0; 0; 0; 0; 0; 0; 0; 0; 0; 0; 0; 0; 0; 0; 0; 0; 0; 0; 0; 0;
    0; 0; 0; 0; 0; 0; 0; 0; 138; 0; 0; 0];
  (* State 42 *) [0; 21; 0; 0; 22; 0; 23; 0; 0; 0; 0; 0; 0; 0; 0; 0; 0; 0; 0; 0; 0; 0; 0; 0; 167; 168; 169; 25; 0; 0;
    0; 0; 0; 0; 0; 0; 0; 0; 0; 0; 0; 0; 0; 0; 0; 0; 0; 0; 0; 0; 0; 0; 0; 0; 0; 170; 0; 0; 0; 0; 0; 0; 0; 0; 0; 0; 0;
    0; 27; 28; 0; 0; 0; 0; 0; 0; 0; 0; 171; 138; 172; 173; 174];
  (* State 43 *) [0; 21; 0; 0; 22; 0; 23; 0; 0; 0; 0; 0; 0; 0; 0; 0; 0; 0; 0; 0; 0; 0; 0; 0; 167; 168; 169; 25; 0; 0;
    0; 0; 0; 0; 0; 0; 0; 0; 0; 0; 0; 0; 0; 0; 0; 0; 0; 0; 0; 0; 0; 0; 0; 0; 0; 170; 0; 0; 0; 0; 0; 0; 0; 0; 0; 0; 0;
    0; 27; 28; 0; 0; 0; 0; 0; 0; 0; 0; 171; 138; 172; 173; 174];
  (* State 44 *) [0; 21; 0; 0; 22; 0; 23; 0; 0; 0; 0; 0; 0; 0; 0; 0; 0; 0; 0; 0; 0; 0; 0; 0; 167; 168; 169; 25; 0; 0;
    0; 0; 0; 0; 0; 0; 0; 0; 0; 0; 0; 0; 0; 0; 0; 0; 0; 0; 0; 0; 0; 0; 0; 0; 0; 170; 0; 0; 0; 0; 0; 0; 0; 0; 0; 0; 0;
    0; 27; 28; 0; 0; 0; 0; 0; 0; 0; 0; 171; 138; 172; 173; 174];
  (* State 45 *) [0; 21; 0; 0; 22; 0; 23; 0; 0; 0; 0; 0; 0; 0; 0; 0; 0; 0; 0; 0; 0; 24; 0; 0; 167; 168; 169; 25; 0; 0;
    0; 0; 0; 0; 0; 0; 0; 0; 0; 0; 0; 0; 0; 0; 0; 0; 0; 0; 0; 0; 0; 0; 0; 26; 0; 170; 0; 0; 0; 0; 0; 0; 0; 0; 0; 0; 0;
    0; 27; 28; 0; 0; 0; 0; 0; 0; 0; 0; 171; 138; 172; 173; 174];
  (* State 46 *) [0; 21; 0; 0; 22; 0; 23; 0; 0; 0; 0; 0; 0; 0; 0; 0; 0; 0; 0; 0; 0; 0; 0; 0; 167; 168; 169; 25; 0; 0;
    0; 0; 0; 0; 0; 0; 0; 0; 0; 0; 0; 0; 0; 0; 0; 0; 0; 0; 0; 0; 0; 0; 0; 0; 0; 170; 0; 0; 0; 0; 0; 0; 0; 0; 0; 0; 0;
    0; 27; 28; 0; 0; 0; 0; 0; 0; 0; 0; 171; 138; 172; 173; 174];
  (* State 47 *) [0; 21; 0; 0; 22; 0; 23; 0; 0; 0; 0; 0; 0; 0; 0; 0; 0; 0; 0; 0; 0; 0; 0; 0; 167; 168; 169; 25; 0; 0;
    0; 0; 0; 0; 0; 0; 0; 0; 0; 0; 0; 0; 0; 0; 0; 0; 0; 0; 0; 0; 0; 0; 0; 0; 0; 170; 0; 0; 0; 0; 0; 0; 0; 0; 0; 0; 0;
    0; 27; 28; 0; 0; 0; 0; 0; 0; 0; 0; 171; 138; 172; 173; 174];
  (* State 48 *) [0; 21; 0; 0; 22; 0; 23; 0; 0; 0; 0; 0; 0; 0; 0; 0; 0; 0; 0; 0; 0; 0; 0; 0; 167; 168; 169; 25; 0; 0;
    0; 0; 0; 0; 0; 0; 0; 0; 0; 0; 0; 0; 0; 0; 0; 0; 0; 0; 0; 0; 0; 0; 0; 0; 0; 170; 0; 0; 0; 0; 0; 0; 0; 0; 0; 0; 0;
    0; 27; 28; 0; 0; 0; 0; 0; 0; 0; 0; 171; 138; 172; 173; 174];
  (* State 49 *) [0; 21; 0; 0; 22; 0; 23; 0; 0; 0; 0; 0; 0; 0; 0; 0; 0; 0; 0; 0; 0; 0; 0; 0; 167; 168; 169; 25; 0; 0;
    0; 0; 0; 0; 0; 0; 0; 0; 0; 0; 0; 0; 0; 0; 0; 0; 0; 0; 0; 0; 0; 0; 0; 0; 0; 170; 0; 0; 0; 0; 0; 0; 0; 0; 0; 0; 0;
    0; 27; 28; 0; 0; 0; 0; 0; 0; 0; 0; 171; 138; 172; 173; 174];
  (* State 50 *) [0; 21; 0; 0; 22; 0; 23; 0; 0; 0; 0; 0; 0; 0; 0; 0; 0; 0; 0; 0; 0; 0; 0; 0; 167; 168; 169; 25; 0; 0;
    0; 0; 0; 0; 0; 0; 0; 0; 0; 0; 0; 0; 0; 0; 0; 0; 0; 0; 0; 0; 0; 0; 0; 0; 0; 170; 0; 0; 0; 0; 0; 0; 0; 0; 0; 0; 0;
    0; 27; 28; 0; 0; 0; 0; 0; 0; 0; 0; 171; 138; 172; 173; 174];
  (* State 51 *) [0; 21; 0; 0; 22; 0; 23; 0; 0; 0; 0; 0; 0; 0; 0; 0; 0; 0; 0; 0; 0; 0; 0; 0; 167; 168; 169; 25; 0; 0;
    0; 0; 0; 0; 0; 0; 0; 0; 0; 0; 0; 0; 0; 0; 0; 0; 0; 0; 0; 0; 0; 0; 0; 0; 0; 170; 0; 0; 0; 0; 0; 0; 0; 0; 0; 0; 0;
    0; 27; 28; 0; 0; 0; 0; 0; 0; 0; 0; 171; 138; 172; 173; 174];
  (* State 52 *) [0; 21; 0; 0; 22; 0; 23; 0; 0; 0; 0; 0; 0; 0; 0; 0; 0; 0; 0; 0; 0; 0; 0; 0; 167; 168; 169; 25; 0; 0;
    0; 0; 0; 0; 0; 0; 0; 0; 0; 0; 0; 0; 0; 0; 0; 0; 0; 0; 0; 0; 0; 0; 0; 0; 0; 170; 0; 0; 0; 0; 0; 0; 0; 0; 0; 0; 0;
    0; 27; 28; 0; 0; 0; 0; 0; 0; 0; 0; 171; 138; 172; 173; 174];
  (* State 53 *) [0; 82; 0; 0; 0; 0; 0; 0; 0; 0; 0; 0; 0; 0; 0; 0; 0; 0; 0; 0; 0; 0; 0; 0; 0; 0; 0; 0; 0; 0; 0; 0; 0;
    0; 0; 0; 0; 0; 0; 0; 0; 0; 0; 0; 0; 0; 0; 0; 0; 0; 0; 0; 0; 0; 0; 0; 0; 0; 0; 0; 0; 0; 0; 0; 0; 0; 0; 0; 0; 0; 0;
    0; 0; 0; 0; 0; 0; 0; 0; 138; 0; 0; 0];
  (* State 54 *) [0; 21; 0; 0; 22; 0; 23; 0; 0; 0; 0; 0; 0; 0; 0; 0; 0; 0; 0; 0; 0; 0; 0; 0; 167; 168; 169; 25; 0; 0;
    0; 0; 0; 0; 0; 0; 0; 0; 0; 0; 0; 0; 0; 0; 0; 0; 0; 0; 0; 0; 0; 0; 0; 0; 0; 170; 0; 0; 0; 0; 0; 0; 0; 0; 0; 0; 0;
    0; 27; 28; 0; 0; 0; 0; 0; 0; 0; 0; 171; 138; 172; 173; 174];
  (* State 55 *) [0; 21; 0; 0; 22; 0; 23; 0; 0; 0; 0; 0; 0; 0; 0; 0; 0; 0; 0; 0; 0; 24; 0; 0; 167; 168; 169; 25; 0; 0;
    0; 0; 0; 0; 0; 0; 0; 0; 0; 0; 0; 0; 0; 0; 0; 0; 0; 0; 0; 0; 0; 0; 0; 26; 0; 170; 0; 0; 0; 0; 0; 0; 0; 0; 0; 0; 0;
    0; 27; 28; 0; 0; 0; 0; 0; 0; 0; 0; 171; 138; 172; 173; 174];
  (* State 56 *) [0; 21; 0; 0; 22; 0; 23; 0; 0; 0; 0; 0; 0; 0; 0; 0; 0; 0; 0; 0; 0; 24; 0; 0; 167; 168; 169; 25; 0; 0;
    0; 0; 0; 0; 0; 0; 0; 0; 0; 0; 0; 0; 0; 0; 0; 0; 0; 0; 0; 0; 0; 0; 0; 26; 0; 170; 0; 0; 0; 0; 0; 0; 0; 0; 0; 0; 0;
    0; 27; 28; 0; 0; 0; 0; 0; 0; 0; 0; 171; 138; 172; 173; 174];
  (* State 57 *) [0; 21; 0; 0; 22; 0; 23; 0; 0; 0; 0; 0; 0; 0; 0; 0; 0; 0; 0; 0; 0; 0; 0; 0; 167; 168; 169; 25; 0; 0;
    0; 0; 0; 0; 0; 0; 0; 0; 0; 0; 0; 0; 0; 0; 0; 0; 0; 0; 0; 0; 0; 0; 0; 0; 0; 170; 0; 0; 0; 0; 0; 0; 0; 0; 0; 0; 0;
    0; 27; 28; 0; 0; 0; 0; 0; 0; 0; 0; 171; 138; 172; 173; 174];
  (* State 58 *) [0; 21; 0; 0; 22; 0; 23; 0; 0; 0; 0; 0; 0; 0; 0; 0; 0; 0; 0; 0; 0; 0; 0; 0; 167; 168; 169; 25; 0; 0;
    0; 0; 0; 0; 0; 0; 0; 0; 0; 0; 0; 0; 0; 0; 0; 0; 0; 0; 0; 0; 0; 0; 0; 0; 0; 170; 0; 0; 0; 0; 0; 0; 0; 0; 0; 0; 0;
    0; 27; 28; 0; 0; 0; 0; 0; 0; 0; 0; 171; 138; 172; 173; 174];
  (* State 59 *) [0; 21; 0; 0; 22; 0; 23; 0; 0; 0; 0; 0; 0; 0; 0; 0; 0; 0; 0; 0; 0; 24; 0; 0; 167; 168; 169; 25; 0; 0;
    0; 0; 0; 0; 0; 0; 0; 0; 0; 0; 0; 0; 0; 0; 0; 0; 0; 0; 0; 0; 0; 0; 0; 26; 0; 170; 0; 0; 0; 0; 0; 0; 0; 0; 0; 0; 0;
    0; 27; 28; 0; 0; 0; 0; 0; 0; 0; 0; 171; 138; 172; 173; 174];
  (* State 60 *) [0; 0; 0; 0; 0; 0; 0; 0; 0; 0; 0; 0; 0; 0; 0; 0; 0; 0; 0; 0; 0; 0; 0; 0; 0; 0; 0; 0; 0; 0; 0; 0; 0;
    0; 0; 0; 0; 0; 0; 0; 0; 0; 0; 0; 0; 0; 0; 0; 0; 0; 0; 0; 0; 0; 0; 0; 0; 0; 0; 0; 0; 0; 0; 0; 6; 0; 0; 0; 0; 0; 0;
    0; 0; 8; 0; 0; 0; 0; 0; 0; 0; 0; 0];
  (* State 61 *) [0; 0; 0; 0; 0; 0; 0; 0; 0; 0; 0; 0; 0; 0; 0; 0; 0; 0; 0; 0; 0; 0; 0; 0; 0; 0; 0; 0; 0; 0; 0; 0; 0;
    0; 0; 0; 0; 0; 0; 0; 0; 0; 0; 0; 0; 0; 0; 0; 0; 0; 0; 0; 0; 0; 0; 0; 0; 0; 0; 0; 0; 0; 0; 0; 0; 0; 0; 0; 0; 0; 0;
    0; 0; 0; 64; 0; 0; 0; 0; 0; 0; 0; 0];
  (* State 62 *) [0; 0; 0; 0; 0; 0; 0; 0; 0; 0; 0; 0; 0; 0; 0; 0; 0; 0; 0; 0; 0; 0; 0; 0; 0; 0; 0; 0; 0; 0; 0; 0; 86;
    243; 0; 0; 0; 0; 0; 0; 0; 0; 0; 0; 0; 0; 0; 0; 0; 0; 0; 0; 0; 0; 0; 0; 0; 0; 0; 0; 0; 0; 0; 0; 0; 0; 0; 0; 0; 0;
    0; 0; 0; 0; 64; 0; 0; 0; 0; 0; 0; 0; 0];
  (* State 63 *) [0; 21; 0; 0; 22; 0; 23; 0; 0; 0; 0; 0; 0; 0; 0; 0; 0; 0; 0; 0; 0; 24; 0; 0; 167; 168; 169; 25; 0; 0;
    0; 0; 0; 0; 0; 0; 0; 0; 0; 0; 0; 0; 0; 0; 0; 0; 0; 0; 0; 0; 0; 0; 0; 26; 0; 170; 0; 0; 0; 0; 0; 0; 0; 0; 0; 0; 0;
    0; 27; 28; 0; 0; 0; 0; 0; 0; 0; 0; 171; 138; 172; 173; 174];
  (* State 64 *) [0; 0; (-136); 0; 0; (-136); 0; 0; 0; 0; 0; 0; 0; 0; 0; 0; 0; 246; 0; 0; 0; 0; 88; 0; 0; 0; 0; 0; 0;
    247; 0; 0; 0; 0; 0; 0; 0; 0; 0; 0; 0; 0; 0; 0; 0; 0; 0; 0; 0; 0; 0; (-136); 0; 0; 0; 0; 0; 0; 0; 0; 0; 0; 0; 0; 0;
    0; 0; 0; 0; 0; 0; 0; 0; 0; 0; 0; 0; 0; 0; 0; 0; 0; 0];
  (* State 65 *) [0; 0; 0; 0; 0; 0; 0; 0; 0; 0; 0; 0; 0; 0; 0; 0; 0; 0; 0; 0; 0; 0; 0; 0; 0; 0; 0; 0; 0; 0; 0; 0; 0;
    0; 0; 0; 0; 0; 0; 0; 0; 0; 0; 0; 0; 0; 0; 0; 0; 0; 0; 0; 0; 0; 0; 0; 0; 0; 0; 0; 0; 0; 0; 0; 0; 0; 0; 0; 0; 0; 0;
    0; 0; 0; 0; 70; 0; 0; 0; 0; 0; 0; 0];
  (* State 66 *) [0; 72; 0; 0; 0; 0; 0; 0; 0; 0; 0; 0; 0; 0; 0; 0; 0; 0; 0; 0; 0; 0; 0; 0; 0; 0; 0; 0; 0; 0; 0; 0; 0;
    0; 0; 0; 0; 0; 0; 0; 0; 0; 0; 0; 0; 0; 0; 0; 0; 0; 0; 0; 0; 0; 0; 0; 0; 0; 0; 0; 0; 0; 0; 0; 6; 0; 0; 0; 0; 0; 0;
    0; 0; 8; 0; 0; 0; 0; 0; 0; 0; 0; 0];
  (* State 67 *) [0; 0; 0; 0; 0; 0; 0; 0; 0; 0; 0; 0; 0; 0; 0; 0; 0; 0; 0; 0; 0; 0; 0; 0; 0; 0; 0; 0; 0; 0; 0; 0; 0;
    0; 0; 0; 0; 0; 0; 0; 0; 0; 0; 0; 0; 0; 0; 0; 0; 0; 0; 0; 0; 0; 0; 0; 0; 0; 0; 0; 0; 0; 0; 0; 0; 0; 0; 0; 0; 0; 0;
    0; 0; 0; 0; 0; 0; 0; 0; 138; 0; 0; 0];
  (* State 68 *) [0; 0; 0; 0; 0; 0; 0; 0; 0; 0; 0; 0; 0; 0; 0; 0; 0; 0; 0; 0; 0; 0; 0; 0; 0; 0; 0; 0; 0; 0; 0; 0; 0;
    0; 0; 0; 0; 0; 0; 0; 0; 0; 0; 0; 0; 0; 0; 0; 0; 0; 0; 0; 0; 0; 0; 0; 0; 0; 0; 0; 0; 0; 0; 0; 0; 0; 0; 0; 0; 0; 0;
    0; 0; 0; 0; 0; 0; 0; 0; 138; 0; 0; 0];
  (* State 69 *) [0; 21; 0; 0; 22; 0; 23; 0; 0; 0; 0; 0; 0; 0; 0; 0; 0; 0; 0; 0; 0; 24; 0; 0; 167; 168; 169; 25; 0; 0;
    0; 0; 0; 0; 0; 0; 0; 0; 0; 0; 0; 0; 0; 0; 0; 0; 0; 0; 0; 0; 0; 0; 0; 26; 0; 170; 0; 0; 0; 0; 0; 0; 0; 0; 0; 0; 0;
    0; 27; 28; 0; 0; 0; 0; 0; 0; 0; 0; 171; 138; 172; 173; 174];
  (* State 70 *) [0; 0; 0; 0; 0; 0; 0; 0; 0; 0; 0; 0; 0; 0; 0; 0; 0; 0; 0; 0; 0; 0; 0; 0; 0; 0; 0; 0; 0; 0; 0; 0; 0;
    0; 0; 0; 0; 0; 0; 0; 0; 0; 0; 0; 0; 0; 0; 0; 0; 0; 0; 0; 0; 0; 0; 0; 0; 0; 0; 0; 0; 0; 0; 0; 6; 0; 0; 0; 0; 0; 0;
    0; 0; 8; 0; 0; 0; 0; 0; 0; 0; 0; 0];
  (* State 71 *) [0; 0; 0; 0; 0; 0; 0; 0; 0; 0; 0; 0; 0; 0; 0; 0; 0; 0; 0; 0; 0; 0; 0; 0; 0; 0; 0; 0; 0; 0; 0; 0; 0;
    0; 0; 0; 0; 0; 0; 0; 0; 0; 0; 0; 0; 0; 0; 0; 0; 0; 0; 0; 0; 0; 0; 0; 0; 0; 0; 0; 0; 0; 0; 0; 0; 0; 0; 0; 0; 0; 0;
    0; 0; 0; 0; 0; 0; 0; 0; 138; 0; 0; 0];
  (* State 72 *) [0; 0; 0; 0; 0; 0; 0; 0; 0; 0; 0; 0; 0; 0; 0; 0; 0; 0; 0; 0; 0; 0; 0; 0; 0; 0; 0; 0; 0; 0; 0; 0; 0;
    0; 0; 0; 0; 0; 0; 0; 0; 0; 0; 0; 0; 0; 0; 0; 0; 0; 0; 0; 0; 0; 0; 0; 0; 0; 0; 0; 0; 0; 0; 0; 0; 0; 0; 0; 0; 0; 0;
    0; 0; 0; 0; 0; 0; 0; 0; 138; 0; 0; 0];
  (* State 73 *) [0; 0; 0; 255; 0; 0; 0; 0; 0; 0; 0; 0; 0; 0; 0; 0; 0; 0; 0; 0; 0; 0; 0; 0; 0; 0; 0; 0; 0; 0; 0; 0; 0;
    0; 0; 0; 0; 0; 0; 0; 0; 0; 0; 0; 0; 0; 0; 0; 0; 0; 0; 0; 0; 0; 0; 0; 0; 0; 0; 0; 0; 0; 0; 0; 0; 0; 0; 0; 0; 0; 0;
    0; 0; 0; 0; 0; 0; 0; 0; 138; 0; 0; 0];
  (* State 74 *) [0; 21; 0; 0; 22; 0; 23; 0; 0; 0; 0; 0; 0; 0; 0; 0; 0; 0; 0; 0; 0; 24; 0; 0; 167; 168; 169; 25; 0; 0;
    0; 0; 0; 0; 0; 0; 0; 0; 0; 0; 0; 0; 0; 0; 0; 0; 0; 0; 0; 0; 0; 0; 0; 26; 0; 170; 0; 0; 0; 0; 0; 0; 0; 0; 0; 0; 0;
    0; 27; 28; 0; 0; 0; 0; 0; 0; 0; 0; 171; 138; 172; 173; 174];
  (* State 75 *) [0; 0; (-167); 0; 0; 0; 0; 0; 0; 0; 0; 0; 0; 0; 0; 0; 0; 0; 0; 0; 0; 0; 0; 0; 0; 0; 0; 0; 0; 0; 0; 0;
    0; 0; (-167); 0; 0; 0; 0; 209; 0; 0; 0; 0; (-167); 0; 0; 0; 0; 0; 0; (-167); 0; 0; 0; 0; 0; 0; 0; (-167); 0; 0; 0;
    0; 0; 0; 0; 0; 0; 0; (-167); 0; 0; 0; 0; 70; 0; 0; 0; 0; 0; 0; 0];
  (* State 76 *) [0; 0; (-162); 0; 0; 0; 0; 0; 0; 0; 0; 0; 0; 0; 0; 0; 0; 0; 0; 0; 0; 0; 0; 0; 0; 0; 0; 0; 0; 0; 0; 0;
    0; 0; (-162); 0; 0; 0; 0; 209; 0; 0; 0; 0; (-162); 0; 0; 0; 0; 0; 0; (-162); 0; 0; 0; 0; 0; 0; 0; (-162); 0; 0; 0;
    0; 0; 0; 0; 0; 0; 0; (-162); 0; 0; 0; 0; 0; 0; 0; 0; 0; 0; 0; 0];
  (* State 77 *) [0; 96; 0; 0; 0; 0; 0; 0; 0; 0; 0; 0; 0; 0; 0; 0; 0; 0; 0; 0; 0; 0; 0; 0; 0; 0; 0; 0; 0; 0; 0; 0; 0;
    0; 0; 0; 0; 0; 0; 0; 0; 0; 0; 0; 0; 0; 0; 0; 0; 0; 0; 0; 0; 0; 0; 0; 0; 0; 0; 0; 0; 0; 0; 0; 0; 0; 0; 0; 0; 0; 0;
    0; 0; 0; 0; 0; 0; 0; 0; 138; 0; 0; 0];
  (* State 78 *) [0; 0; 0; 0; 0; 99; 0; 0; 0; 0; 0; 0; 0; 0; 0; 0; 0; 0; 0; 0; 0; 0; 0; 0; 0; 0; 0; 0; 0; 0; 0; 0; 0;
    0; 0; 0; 0; 0; 0; 0; 0; 0; 0; 0; 0; 0; 0; 0; 0; 0; 0; 0; 0; 0; 0; 0; 0; 0; 0; 0; 0; 0; 0; 0; 0; 0; 0; 0; 0; 0; 0;
    0; 0; 0; 0; 70; 0; 0; 0; 0; 0; 0; 0];
  (* State 79 *) [0; 21; 0; 0; 22; 0; 23; 0; 0; 0; 0; 0; 0; 0; 0; 0; 0; 0; 0; 0; 0; 24; 0; 0; 167; 168; 169; 25; 0; 0;
    0; 0; 0; 0; 0; 0; 0; 0; 0; 0; 0; 0; 0; 0; 0; 0; 0; 0; 0; 0; 0; 0; 0; 26; 0; 170; 0; 0; 0; 0; 0; 0; 0; 0; 0; 0; 0;
    0; 27; 28; 0; 0; 0; 0; 0; 0; 0; 0; 171; 138; 172; 173; 174];
  (* State 80 *) [0; 0; 0; 0; 0; 0; 0; 0; 0; 0; 0; 0; 0; 0; 0; 0; 0; 0; 0; 0; 0; 0; 0; 0; 0; 0; 0; 0; 0; 0; 0; 0; 0;
    0; 0; 0; 0; 0; 0; 0; 0; 0; 0; 0; 0; 0; 0; 0; 0; 0; 0; 0; 0; 0; 0; 0; 0; 0; 0; 0; 0; 0; 0; 0; 6; 0; 0; 0; 0; 0; 0;
    0; 0; 8; 0; 0; 9; 0; 0; 0; 0; 0; 0];
  (* State 81 *) [0; 21; 267; 0; 22; 0; 23; 0; 0; 0; 0; 0; 0; 0; 0; 0; 0; 0; 0; 0; 0; 24; 0; 0; 167; 168; 169; 25; 0;
    0; 0; 0; 0; 0; 0; 0; 0; 0; 0; 0; 0; 0; 0; 0; 0; 0; 0; 0; 0; 0; 0; 0; 0; 26; 0; 170; 0; 0; 0; 0; 0; 0; 0; 0; 6; 0;
    0; 0; 27; 28; 0; 0; 0; 8; 0; 0; 9; 0; 171; 138; 172; 173; 174];
  (* State 82 *) [0; 21; 0; 0; 22; 0; 23; 0; 0; 0; 0; 0; 0; 0; 0; 0; 0; 0; 0; 0; 0; 0; 0; 0; 167; 168; 169; 25; 0; 0;
    0; 0; 0; 0; 0; 0; 0; 0; 0; 0; 0; 0; 0; 0; 0; 0; 0; 0; 0; 0; 0; 0; 0; 0; 0; 170; 0; 0; 0; 0; 0; 0; 0; 0; 0; 0; 0;
    0; 27; 28; 0; 0; 0; 0; 0; 0; 0; 0; 171; 138; 172; 173; 174];
  (* State 83 *) [0; 103; 0; 0; 0; 0; 0; 0; 0; 0; 0; 0; 0; 0; 0; 0; 0; 0; 0; 0; 0; 0; 0; 0; 0; 0; 0; 0; 0; 0; 0; 0; 0;
    0; 0; 0; 0; 0; 0; 0; 0; 0; 0; 0; 0; 0; 0; 0; 0; 0; 0; 0; 0; 0; 0; 0; 0; 0; 0; 0; 0; 0; 0; 0; 0; 0; 0; 0; 0; 0; 0;
    0; 0; 0; 0; 0; 0; 0; 0; 138; 0; 0; 0];
  (* State 84 *) [0; 0; 0; 0; 0; 0; 0; 0; 0; 0; 0; 0; 0; 0; 0; 0; 0; 0; 0; 0; 0; 0; 0; 0; 0; 0; 0; 0; 0; 0; 0; 0; 86;
    272; 0; 0; 0; 0; 0; 0; 0; 0; 0; 0; 0; 0; 0; 0; 0; 0; 0; 0; 0; 0; 0; 0; 0; 0; 0; 0; 0; 0; 0; 0; 0; 0; 0; 0; 0; 0;
    0; 0; 0; 0; 64; 0; 0; 0; 0; 0; 0; 0; 0];
  (* State 85 *) [0; 21; 0; 0; 22; 0; 23; 0; 0; 0; 0; 0; 0; 0; 0; 0; 0; 0; 0; 0; 0; 24; 0; 0; 167; 168; 169; 25; 0; 0;
    0; 0; 0; 0; 0; 0; 0; 0; 0; 0; 0; 0; 0; 0; 0; 0; 0; 0; 0; 0; 0; 0; 0; 26; 0; 170; 0; 0; 0; 0; 0; 0; 0; 0; 0; 0; 0;
    0; 27; 28; 0; 0; 0; 0; 0; 0; 0; 0; 171; 138; 172; 173; 174];
  (* State 86 *) [0; 0; (-136); 0; 0; (-136); 0; 0; 0; 0; 0; 0; 0; 0; 0; 0; 0; 246; 0; 0; 0; 0; 0; 0; 0; 0; 0; 0; 0;
    247; 0; 0; 0; 0; 0; 0; 0; 0; 0; 0; 0; 0; 0; 0; 0; 0; 0; 0; 0; 0; 0; (-136); 0; 0; 0; 0; 0; 0; 0; 0; 0; 0; 0; 0; 0;
    0; 0; 0; 0; 0; 0; 0; 0; 0; 0; 0; 0; 0; 0; 0; 0; 0; 0];
  (* State 87 *) [0; 0; 0; 0; 0; 0; 0; 0; 0; 0; 0; 0; 0; 0; 0; 0; 0; 0; 0; 0; 0; 0; 0; 0; 0; 0; 0; 0; 0; 0; 0; 0; 0;
    0; 0; 0; 0; 0; 0; 0; 0; 0; 0; 0; 0; 0; 0; 0; 0; 0; 0; 0; 0; 0; 0; 0; 0; 0; 0; 0; 0; 0; 0; 0; 0; 0; 0; 0; 0; 0; 0;
    0; 0; 0; 0; 0; 0; 0; 0; 138; 0; 0; 0];
  (* State 88 *) [0; 21; 0; 0; 22; 0; 23; 0; 0; 0; 0; 0; 0; 0; 0; 0; 0; 0; 0; 0; 0; 24; 0; 0; 167; 168; 169; 25; 0; 0;
    0; 0; 0; 0; 0; 0; 0; 0; 0; 0; 0; 0; 0; 0; 0; 0; 0; 0; 0; 0; 0; 0; 0; 26; 0; 170; 0; 0; 0; 0; 0; 0; 0; 0; 0; 0; 0;
    0; 27; 28; 0; 0; 0; 0; 0; 0; 0; 0; 171; 138; 172; 173; 174];
  (* State 89 *) [0; 0; 0; 0; 0; 0; 0; 0; 0; 0; 0; 0; 0; 0; 0; 0; 0; 0; 0; 0; 0; 0; 0; 0; 0; 0; 0; 0; 0; 0; 0; 0; 0;
    0; 0; 0; 0; 0; 0; 0; 0; 0; 0; 0; 0; 0; 0; 0; 0; 0; 0; 0; 0; 0; 0; 0; 0; 0; 0; 0; 0; 0; 0; 0; 6; 0; 0; 0; 0; 0; 0;
    0; 0; 8; 0; 0; 0; 0; 0; 0; 0; 0; 0];
  (* State 90 *) [0; 0; 0; 0; 0; 99; 0; 0; 0; 0; 0; 0; 0; 0; 0; 0; 0; 0; 0; 0; 0; 0; 0; 0; 0; 0; 0; 0; 0; 0; 0; 0; 0;
    0; 0; 0; 0; 0; 0; 0; 0; 0; 0; 0; 0; 0; 0; 0; 0; 0; 0; 0; 0; 0; 0; 0; 0; 0; 0; 0; 0; 0; 0; 0; 0; 0; 0; 0; 0; 0; 0;
    0; 0; 0; 0; 70; 0; 0; 0; 0; 0; 0; 0];
  (* State 91 *) [0; 0; 0; 0; 0; 0; 0; 0; 0; 0; 0; 0; 0; 0; 0; 0; 0; 0; 0; 0; 0; 0; 0; 0; 0; 0; 0; 0; 0; 0; 0; 0; 0;
    0; 0; 0; 0; 0; 0; 0; 0; 0; 0; 0; 0; 0; 0; 0; 0; 0; 0; 0; 0; 0; 0; 0; 0; 0; 0; 0; 0; 0; 0; 0; 0; 0; 0; 0; 0; 0; 0;
    0; 0; 0; 0; 0; 0; 0; 0; 138; 0; 0; 0];
  (* State 92 *) [0; 0; (-166); 0; 0; 0; 0; 0; 0; 0; 0; 0; 0; 0; 0; 0; 0; 0; 0; 0; 0; 0; 0; 0; 0; 0; 0; 0; 0; 0; 0; 0;
    0; 0; (-166); 0; 0; 0; 0; 209; 0; 0; 0; 0; (-166); 0; 0; 0; 0; 0; 0; (-166); 0; 0; 0; 0; 0; 0; 0; (-166); 0; 0; 0;
    0; 0; 0; 0; 0; 0; 0; (-166); 0; 0; 0; 0; 0; 0; 0; 0; 0; 0; 0; 0];
  (* State 93 *) [0; 0; (-204); 0; 0; (-204); 0; 0; 0; 0; 0; 0; 0; 0; 0; 0; 105; 0; 0; 0; 0; 0; 0; (-204); 0; 0; 0; 0;
    0; 0; 0; 0; 0; 0; (-204); 0; 0; 0; (-204); (-204); 0; 0; (-204); 0; (-204); 0; 0; 0; (-204); (-204); 0; (-204);
    (-204); 0; 0; 0; 0; (-204); 0; (-204); 0; 0; 0; (-204); 0; 0; 0; 0; 0; 0; (-204); 0; (-204); 0; 0; (-204); 0; 0;
    0; 138; 0; 0; 0];
  (* State 94 *) [0; 0; (-198); 0; 0; (-198); 0; 0; 0; 0; 0; 0; 0; 0; 0; 0; 0; 0; 0; 0; 0; 0; 0; 286; 0; 0; 0; 0; 0;
    0; 0; 0; 0; 0; (-198); 0; 0; 0; 287; (-198); 0; 0; 288; 0; (-198); 0; 0; 0; 289; 290; 0; (-198); 107; 0; 0; 0; 0;
    0; 0; (-198); 0; 0; 0; 291; 0; 0; 0; 0; 0; 0; (-198); 0; 0; 0; 0; (-198); 0; 0; 0; 0; 0; 0; 0];
  (* State 95 *) [0; 96; 0; 0; 0; 0; 0; 0; 0; 0; 0; 0; 0; 0; 0; 0; 0; 0; 0; 0; 0; 0; 0; 0; 0; 0; 0; 0; 0; 0; 0; 0; 0;
    0; 0; 0; 0; 0; 0; 0; 0; 0; 0; 0; 0; 0; 0; 0; 0; 0; 0; 0; 0; 0; 0; 0; 0; 0; 0; 0; 0; 0; 0; 0; 6; 0; 0; 0; 0; 0; 0;
    0; 0; 8; 0; 0; 9; 0; 0; 138; 0; 0; 0];
  (* State 96 *) [0; 21; 0; 0; 22; 0; 23; 0; 0; 0; 0; 0; 0; 0; 0; 0; 0; 0; 0; 0; 0; 24; 0; 0; 167; 168; 169; 25; 0; 0;
    0; 0; 0; 0; 0; 0; 0; 0; 0; 0; 0; 0; 0; 0; 0; 0; 0; 0; 0; 0; 0; 0; 0; 26; 0; 170; 0; 0; 0; 0; 0; 0; 0; 0; 0; 0; 0;
    0; 27; 28; 0; 0; 0; 0; 0; 0; 0; 0; 171; 138; 172; 173; 174];
  (* State 97 *) [0; 0; 0; 0; 0; 0; 0; 0; 0; 0; 0; 0; 0; 0; 0; 0; 0; 0; 0; 0; 0; 0; 0; 0; 0; 0; 0; 0; 0; 0; 0; 0; 0;
    0; 0; 0; 0; 0; 0; 0; 0; 0; 0; 0; 0; 0; 0; 0; 0; 0; 0; 0; 0; 0; 0; 0; 0; 0; 0; 0; 0; 0; 0; 0; 0; 0; 0; 0; 0; 0; 0;
    0; 0; 0; 0; 0; 0; 0; 0; 138; 0; 0; 0];
  (* State 98 *) [0; 0; 0; 0; 0; 0; 0; 0; 0; 0; 0; 0; 0; 0; 0; 0; 0; 0; 0; 0; 0; 0; 0; 0; 0; 0; 0; 0; 0; 0; 0; 0; 0;
    0; 0; 0; 0; 0; 0; 0; 0; 0; 0; 0; 0; 0; 0; 0; 0; 0; 0; 0; 0; 0; 0; 0; 0; 0; 0; 0; 0; 0; 0; 0; 0; 0; 0; 0; 0; 0; 0;
    0; 0; 0; 0; 0; 0; 0; 0; 138; 0; 0; 0];
  (* State 99 *) [0; 0; 0; 0; 0; 0; 0; 0; 0; 0; 0; 0; 0; 0; 0; 0; 0; 0; 0; 0; 0; 0; 0; 0; 0; 0; 0; 0; 0; 0; 0; 0; 0;
    0; 0; 0; 0; 0; 0; 0; 0; 0; 0; 0; 0; 0; 0; 0; 0; 0; 0; 0; 0; 0; 0; 0; 0; 0; 0; 0; 0; 0; 0; 0; 0; 0; 0; 0; 0; 0; 0;
    0; 0; 0; 0; 0; 0; 0; 0; 138; 0; 0; 0];
  (* State 100 *) [0; 21; 0; 0; 22; 0; 23; 0; 0; 0; 0; 0; 0; 0; 0; 0; 0; 0; 0; 0; 0; 24; 0; 0; 167; 168; 169; 25; 0;
    0; 0; 0; 0; 0; 0; 0; 0; 0; 0; 0; 0; 0; 0; 0; 0; 0; 0; 0; 0; 0; 0; 0; 0; 26; 0; 170; 0; 0; 0; 0; 0; 0; 0; 0; 0; 0;
    0; 0; 27; 28; 0; 0; 0; 0; 0; 0; 0; 0; 171; 138; 172; 173; 174];
  (* State 101 *) [0; 21; 0; 0; 22; 0; 23; 0; 0; 0; 0; 0; 0; 0; 0; 0; 0; 0; 0; 0; 0; 0; 0; 0; 167; 168; 169; 25; 0; 0;
    0; 0; 0; 0; 0; 0; 0; 0; 0; 0; 0; 0; 0; 0; 0; 0; 0; 0; 0; 0; 0; 0; 0; 0; 0; 170; 0; 0; 0; 0; 0; 0; 0; 0; 0; 0; 0;
    0; 27; 28; 0; 0; 0; 0; 0; 0; 0; 0; 171; 138; 172; 173; 174];
  (* State 102 *) [0; 21; 305; 0; 22; 0; 23; 0; 0; 0; 0; 0; 0; 0; 0; 0; 0; 0; 0; 0; 0; 24; 0; 0; 167; 168; 169; 25; 0;
    0; 0; 0; 0; 0; 0; 0; 0; 0; 0; 0; 0; 0; 0; 0; 0; 0; 0; 0; 0; 0; 0; 0; 0; 26; 0; 170; 0; 0; 0; 0; 0; 0; 0; 0; 6; 0;
    0; 0; 27; 28; 0; 0; 0; 8; 0; 0; 9; 0; 171; 138; 172; 173; 174];
  (* State 103 *) [0; 21; 0; 0; 22; 0; 23; 0; 0; 0; 0; 0; 0; 0; 0; 0; 0; 0; 0; 0; 0; 24; 0; 0; 167; 168; 169; 25; 0;
    0; 0; 0; 0; 0; 0; 0; 0; 0; 0; 0; 0; 0; 0; 0; 0; 0; 0; 0; 0; 0; 0; 0; 0; 26; 0; 170; 0; 0; 0; 0; 0; 0; 0; 0; 0; 0;
    0; 0; 27; 28; 0; 0; 0; 0; 0; 0; 0; 0; 171; 138; 172; 173; 174];
  (* State 104 *) [0; 0; 0; 0; 0; 0; 0; 0; 0; 0; 0; 0; 0; 0; 0; 0; 0; 0; 0; 0; 0; 0; 0; 0; 0; 0; 0; 0; 0; 0; 0; 0; 0;
    0; 0; 0; 0; 0; 0; 0; 0; 0; 0; 0; 0; 0; 0; 0; 0; 0; 0; 0; 0; 0; 0; 0; 0; 0; 0; 0; 0; 0; 0; 0; 0; 0; 0; 0; 0; 0; 0;
    0; 0; 0; 0; 0; 0; 0; 0; 138; 0; 0; 0];
  (* State 105 *) [0; 96; 0; 0; 0; 0; 0; 0; 0; 0; 0; 0; 0; 0; 0; 0; 0; 0; 0; 0; 0; 0; 0; 0; 0; 0; 0; 0; 0; 0; 0; 0; 0;
    0; 0; 0; 0; 0; 0; 0; 0; 0; 0; 0; 0; 0; 0; 0; 0; 0; 0; 0; 0; 0; 0; 0; 0; 0; 0; 0; 0; 0; 0; 0; 0; 0; 0; 0; 0; 0; 0;
    0; 0; 0; 0; 0; 0; 0; 0; 138; 0; 0; 0];
  (* State 106 *) [0; 0; 0; 0; 0; 0; 0; 0; 0; 0; 0; 0; 0; 0; 0; 0; 0; 0; 0; 0; 0; 0; 0; 0; 0; 0; 0; 0; 0; 0; 0; 0; 0;
    0; 0; 0; 0; 0; 287; 0; 0; 0; 288; 0; 0; 0; 0; 0; 314; 290; 0; 0; 0; 0; 0; 0; 0; 0; 0; 0; 0; 0; 0; 291; 0; 0; 0; 0;
    0; 0; 0; 0; 0; 0; 0; 0; 0; 0; 0; 0; 0; 0; 0];
  (* State 107 *) [0; 96; 0; 0; 0; 0; 0; 0; 0; 0; 0; 0; 0; 0; 0; 0; 0; 0; 0; 0; 0; 0; 0; 0; 0; 0; 0; 0; 0; 0; 0; 0; 0;
    0; 0; 0; 0; 0; 0; 0; 0; 0; 0; 0; 0; 0; 0; 0; 0; 0; 0; 0; 0; 0; 0; 0; 0; 0; 0; 0; 0; 0; 0; 0; 0; 0; 0; 0; 0; 0; 0;
    0; 0; 0; 0; 0; 0; 0; 0; 138; 0; 0; 0];
  (* State 108 *) [0; 0; 316; 0; 0; 0; 0; 0; 0; 0; 0; 0; 0; 0; 0; 0; 0; 0; 0; 0; 0; 0; 0; 286; 0; 0; 0; 0; 0; 0; 0; 0;
    0; 0; 0; 0; 0; 0; 287; 0; 0; 0; 288; 0; 0; 0; 0; 0; 289; 290; 0; 0; 107; 0; 0; 0; 0; 0; 0; 0; 0; 0; 0; 291; 0; 0;
    0; 0; 0; 0; 0; 0; 0; 0; 0; 0; 0; 0; 0; 0; 0; 0; 0];
  (* State 109 *) [0; 21; 0; 0; 22; 0; 23; 0; 0; 0; 0; 0; 0; 0; 0; 0; 0; 0; 0; 0; 0; 0; 0; 0; 167; 168; 169; 25; 0; 0;
    0; 0; 0; 0; 0; 0; 0; 0; 0; 0; 0; 0; 0; 0; 0; 0; 0; 0; 0; 0; 0; 0; 0; 0; 0; 170; 0; 0; 0; 0; 0; 0; 0; 0; 0; 0; 0;
    0; 27; 28; 0; 0; 0; 0; 0; 0; 0; 0; 171; 138; 172; 173; 174];
  (* State 110 *) [0; 0; 0; 0; 0; 0; 0; 0; 0; 0; 0; 0; 0; 0; 0; 0; 0; 0; 0; 0; 0; 0; 0; 0; 0; 0; 0; 0; 0; 0; 0; 0; 0;
    0; 0; 0; 0; 0; 0; 0; 0; 0; 0; 0; 0; 0; 0; 0; 0; 0; 0; 0; 0; 0; 0; 0; 0; 116; 0; 0; 0; 0; 0; 0; 0; 0; 0; 0; 0; 0;
    0; 0; 321; 0; 0; 0; 0; 0; 0; 0; 0; 0; 0];
  (* State 111 *) [0; 0; (-199); 0; 0; (-199); 0; 0; 0; 0; 0; 0; 0; 0; 0; 0; 0; 0; 0; 0; 0; 0; 0; 286; 0; 0; 0; 0; 0;
    0; 0; 0; 0; 0; (-199); 0; 0; 0; 287; (-199); 0; 0; 288; 0; (-199); 0; 0; 0; 289; 290; 0; (-199); 107; 0; 0; 0; 0;
    0; 0; (-199); 0; 0; 0; 291; 0; 0; 0; 0; 0; 0; (-199); 0; 0; 0; 0; (-199); 0; 0; 0; 0; 0; 0; 0];
  (* State 112 *) [0; 0; (-206); 0; 0; (-206); 0; 0; 0; 0; 0; 0; 0; 0; 0; 0; 105; 0; 0; 0; 0; 0; 0; (-206); 0; 0; 0;
    0; 0; 0; 0; 0; 0; 0; (-206); 0; 0; 0; (-206); (-206); 0; 0; (-206); 0; (-206); 0; 0; 0; (-206); (-206); 0; (-206);
    (-206); 0; 0; 0; 0; (-206); 0; (-206); 0; 0; 0; (-206); 0; 0; 0; 0; 0; 0; (-206); 0; (-206); 0; 0; (-206); 0; 0;
    0; 138; 0; 0; 0];
  (* State 113 *) [0; 21; 0; 0; 22; 0; 23; 0; 0; 0; 0; 0; 0; 0; 0; 0; 0; 0; 0; 0; 0; 24; 0; 0; 167; 168; 169; 25; 0;
    0; 0; 0; 0; 0; 0; 0; 0; 0; 0; 0; 0; 0; 0; 0; 0; 0; 0; 0; 0; 0; 0; 0; 0; 26; 0; 170; 0; 0; 0; 0; 0; 0; 0; 0; 0; 0;
    0; 0; 27; 28; 0; 0; 0; 0; 0; 0; 0; 0; 171; 138; 172; 173; 174];
  (* State 114 *) [0; 0; 0; 0; 0; 0; 0; 0; 0; 0; 0; 0; 0; 0; 0; 0; 0; 0; 0; 0; 0; 0; 0; 0; 0; 0; 0; 0; 0; 0; 0; 0; 0;
    0; 0; 0; 0; 0; 0; 0; 0; 0; 0; 0; 0; 0; 0; 0; 0; 0; 0; 0; 0; 0; 0; 0; 0; 0; 0; 0; 0; 0; 0; 0; 6; 0; 0; 0; 0; 0; 0;
    0; 0; 8; 0; 0; 9; 0; 0; 0; 0; 0; 0];
  (* State 115 *) [0; 21; 0; 0; 22; 0; 23; 0; 0; 0; 0; 0; 0; 0; 0; 0; 0; 0; 0; 0; 0; 24; 0; 0; 167; 168; 169; 25; 0;
    0; 0; 0; 0; 0; 0; 0; 0; 0; 0; 0; 0; 0; 0; 0; 0; 0; 0; 0; 0; 0; 0; 0; 0; 26; 0; 170; 0; 0; 0; 0; 0; 0; 0; 0; 0; 0;
    0; 0; 27; 28; 0; 0; 0; 0; 0; 0; 0; 0; 171; 138; 172; 173; 174];
  (* State 116 *) [0; 0; 0; 0; 0; 0; 0; 0; 0; 0; 0; 0; 0; 0; 0; 0; 0; 0; 0; 0; 0; 0; 0; 0; 0; 0; 0; 0; 0; 0; 0; 0; 0;
    0; 0; 0; 0; 0; 0; 0; 0; 0; 0; 0; 0; 0; 0; 0; 0; 0; 0; 0; 0; 0; 0; 0; 0; 0; 0; 0; 0; 0; 0; 0; 0; 0; 0; 0; 0; 0; 0;
    0; 0; 0; 0; 0; 0; 0; 0; 138; 0; 0; 0];
  (* State 117 *) [0; 0; 0; 0; 0; 0; 0; 0; 0; 0; 0; 0; 0; 0; 0; 0; 0; 0; 0; 0; 0; 0; 0; 0; 0; 0; 0; 0; 0; 0; 0; 0; 0;
    0; 0; 0; 0; 0; 0; 0; 0; 0; 0; 0; 0; 0; 0; 0; 0; 0; 0; 0; 0; 0; 0; 0; 0; 0; 0; 0; 0; 0; 0; 0; 0; 0; 0; 0; 0; 0; 0;
    0; 0; 0; 0; 0; 0; 0; 0; 0; 0; 0; 0];
  (* State 118 *) [0; 0; 0; 0; 0; 0; 0; 0; 0; 0; 0; 0; 0; 0; 0; 0; 0; 0; 0; 0; 0; 0; 0; 0; 0; 0; 0; 0; 0; 0; 0; 0; 0;
    0; 0; 0; 0; 0; 0; 0; 0; 0; 0; 0; 0; 0; 0; 0; 0; 0; 0; 0; 0; 0; 0; 0; 0; 0; 0; 0; 0; 0; 0; 0; 0; 0; 0; 0; 0; 0; 0;
    0; 0; 0; 0; 0; 0; 0; 0; 0; 0; 0; 0];
  (* State 119 *) [0; 0; 0; 0; 0; 0; 0; 0; 0; 0; 0; 0; 0; 0; 0; 0; 0; 0; 0; 0; 0; 0; 0; 0; 0; 0; 0; 0; 0; 0; 0; 0; 0;
    0; 0; 0; 0; 0; 0; 0; 0; 0; 0; 0; 0; 0; 0; 0; 0; 0; 0; 0; 0; 0; 0; 0; 0; 0; 0; 0; 0; 0; 0; 0; 0; 0; 0; 0; 0; 0; 0;
    0; 0; 0; 0; 0; 0; 0; 0; 0; 0; 0; 0];
  (* State 120 *) [0; 0; 0; 0; 0; 0; 0; 0; 0; 0; 0; 0; 0; 0; 0; 0; 0; 0; 0; 0; 0; 0; 0; 0; 0; 0; 0; 0; 0; 0; 0; 0; 0;
    0; 0; 0; 0; 0; 0; 0; 0; 0; 0; 0; 0; 0; 0; 0; 0; 0; 0; 0; 0; 0; 0; 0; 0; 0; 0; 0; 0; 0; 0; 0; 0; 0; 0; 0; 0; 0; 0;
    0; 0; 0; 0; 0; 0; 0; 0; 0; 0; 0; 0];
  (* State 121 *) [0; 0; (-169); 0; 0; 0; 0; 0; 0; 0; 0; 0; 0; 0; 0; 0; 0; 0; 0; 0; 0; 0; 0; 0; 0; 0; 0; 0; 0; 0; 0;
    0; 0; 0; (-169); 0; 0; 0; 0; 0; 0; 0; 0; 0; (-169); 0; 0; 0; 0; 0; 0; (-169); 0; 0; 0; 0; 0; 0; 0; (-169); 0; 0;
    0; 0; 0; 0; 0; 0; 0; 0; (-169); 0; 0; 0; 0; 0; 0; 0; 0; 0; 0; 0; 0];
  (* State 122 *) [0; 0; 0; 0; 0; 0; 0; 0; 0; 0; 0; 0; 0; 0; 0; 0; 0; 0; 0; 0; 0; 0; 0; 0; 0; 0; 0; 0; 0; 0; 0; 0; 0;
    0; 0; 0; 0; 0; 0; 0; 0; 0; 0; 0; 0; 0; 0; 0; 0; 0; 0; 0; 0; 0; 0; 0; 0; 0; 0; 0; 0; 0; 0; 0; 0; 0; 0; 0; 0; 0; 0;
    0; 0; 0; 0; 0; 0; 0; 0; 0; 0; 0; 0];
  (* State 123 *) [0; 0; 0; 0; 0; 0; 0; 0; 0; 0; 0; 0; 0; 0; 0; 0; 0; 0; 0; 0; 0; 0; 0; 0; 0; 0; 0; 0; 0; 0; 0; 0; 0;
    0; 0; 0; 0; 0; 0; 0; 0; 0; 0; 0; 0; 0; 0; 0; 0; 0; 0; 0; 0; 0; 0; 0; 0; 0; 0; 0; 0; 0; 0; 0; 0; 0; 0; 0; 0; 0; 0;
    0; 0; 0; 0; 0; 0; 0; 0; 0; 0; 0; 0];
  (* State 124 *) [0; 0; 0; 0; 0; 0; 0; 0; 0; 0; 0; 0; 0; 0; 0; 0; 0; 0; 0; 0; 0; 0; 0; 0; 0; 0; 0; 0; 0; 0; 0; 0; 0;
    0; 0; 0; 0; 0; 0; 0; 0; 0; 0; 0; 0; 0; 0; 0; 0; 0; 0; 0; 0; 0; 0; 0; 0; 0; 0; 0; 0; 0; 0; 0; 0; 0; 0; 0; 0; 0; 0;
    0; 0; 0; 0; 0; 0; 0; 0; 0; 0; 0; 0];
  (* State 125 *) [0; 0; 0; 0; 0; 0; 0; 0; 0; 0; 0; 0; 0; 0; 0; 0; 0; 0; 0; 0; 0; 0; 0; 0; 0; 0; 0; 0; 0; 0; 0; 0; 0;
    0; 0; 0; 0; 0; 0; 0; 0; 0; 0; 0; 0; 0; 0; 0; 0; 0; 0; 0; 0; 0; 0; 0; 0; 0; 0; 0; 0; 0; 0; 0; 0; 0; 0; 0; 0; 0; 0;
    0; 0; 0; 0; 0; 0; 0; 0; 0; 0; 0; 0];
  (* State 126 *) [0; 0; 0; 0; 0; 0; 0; 0; 0; 0; 0; 0; 0; 0; 0; 0; 0; 0; 0; 0; 0; 0; 0; 0; 0; 0; 0; 0; 0; 0; 0; 0; 0;
    0; 0; 0; 15; 0; 0; 0; 0; 0; 0; 0; 0; 0; 0; 0; 0; 0; 0; 0; 0; 0; 0; 0; 0; 0; 0; 0; 0; 0; 0; 0; 0; 0; 0; 0; 0; 0; 0;
    0; 0; 0; 0; 0; 0; 0; 0; 0; 0; 0; 0];
  (* State 127 *) [0; 0; 0; 0; 0; 0; 0; 0; 0; 0; 0; 0; 0; 0; 0; 0; 0; 0; 0; 0; 0; 0; 0; 0; 0; 0; 0; 0; 0; 0; 0; 0; 0;
    0; 0; 0; 0; 16; 0; 0; 0; 0; 0; 0; 0; 0; 0; 0; 0; 0; 0; 0; 0; 0; 0; 0; 0; 0; 0; 0; 0; 0; 0; 0; 0; 0; 0; 0; 0; 0; 0;
    0; 0; 0; 0; 0; 0; 0; 0; 0; 0; 0; 0];
  (* State 128 *) [0; 0; 0; 0; 0; 0; 0; 0; 0; 0; 0; 0; 0; 0; 0; 0; 0; 0; 0; 0; 0; 0; 0; 0; 0; 0; 0; 0; 0; 0; 0; 0; 0;
    0; 0; 0; 0; 0; 0; 0; 0; 0; 0; 0; 0; 18; 0; 0; 0; 0; 0; 0; 0; 0; 0; 0; 0; 0; 0; 0; 0; 0; 0; 0; 0; 0; 0; 0; 0; 0; 0;
    0; 0; 0; 0; 0; 0; 0; 0; 0; 0; 0; 0];
  (* State 129 *) [0; 0; (-179); 0; 0; 0; 0; 0; 0; 0; 0; 0; 0; 0; 0; 0; 0; 0; 0; 0; 0; 0; 0; 0; 0; 0; 0; 0; 0; 0; 0;
    0; 0; 0; 0; 0; 0; 0; 0; 0; 0; 0; 0; 0; 0; 0; 0; 0; 0; 0; 0; 0; 0; 0; 0; 0; 0; 0; 0; 0; 0; 0; 0; 0; 0; 0; 0; 0; 0;
    0; 0; 0; 0; 0; 0; 0; 0; 0; 0; 0; 0; 0; 0];
  (* State 130 *) [0; 0; 0; 0; 0; 0; 0; 0; 0; 0; 0; 0; 0; 0; 0; 0; 0; 0; 0; 0; 0; 0; 0; 0; 0; 0; 0; 0; 0; 0; 0; 0; 0;
    0; 0; 0; 0; 0; 0; 0; 0; 0; 0; 0; 0; 0; 0; 0; 0; 0; 0; 0; 0; 0; 0; 0; 0; 0; 0; 0; 0; 0; 0; 0; (-62); 0; 0; 0; 0; 0;
    0; 0; 0; (-62); 0; 0; 0; 0; 0; 0; 0; 0; 0];
  (* State 131 *) [0; 0; 0; 0; 0; 0; 0; 0; 0; 0; 0; 0; 0; 0; 0; 0; 0; 0; 0; 0; 0; 0; 0; 0; 0; 0; 0; 0; 0; 0; 0; 0; 0;
    0; 0; 0; 0; 0; 0; 0; 0; 0; 0; 0; 0; 0; 0; 0; 0; 0; 0; 0; 0; 0; 0; 0; 0; 0; 0; 0; 0; 0; 0; 0; (-61); 0; 0; 0; 0; 0;
    0; 0; 0; (-61); 0; 0; 0; 0; 0; 0; 0; 0; 0];
  (* State 132 *) [0; 0; 0; 0; 0; 0; 0; 0; 0; 0; 0; 0; 0; 0; 0; 0; 0; 0; 0; 0; 29; 0; 0; 0; 0; 0; 0; 0; 0; 0; 0; 0; 0;
    0; 0; 0; 0; 0; 0; 0; 0; 0; 0; 0; 0; 0; 0; 0; 0; 0; 0; 0; 0; 0; 0; 0; 0; 0; 0; 0; 0; 0; 0; 0; 0; 0; 0; 0; 0; 0; 0;
    0; 0; 0; 0; 0; 0; 0; 0; 0; 0; 0; 0];
  (* State 133 *) [0; 0; 0; 0; 0; 0; 0; 0; 0; 0; 0; 0; 0; 0; 175; 0; 0; 0; 0; 0; 0; 0; 0; 0; 0; 0; 0; 0; 0; 0; 0; 0;
    0; 0; 0; 0; 0; 0; 0; 0; 0; 0; 0; 0; 0; 0; 0; 0; 0; 0; 0; 0; 0; 0; 0; 0; 0; 0; 0; 0; 0; 0; 0; 0; (-59); 0; 0; 0; 0;
    0; 0; 0; 0; (-59); 0; 0; 0; 0; 0; 0; 0; 0; 0];
  (* State 134 *) [0; 0; 0; 0; 0; 0; 0; 0; 0; 0; 0; 0; 0; 0; 0; 0; 0; 0; 0; 0; 0; 0; 0; 0; 0; 0; 0; 0; 0; 0; 0; 0; 0;
    0; 0; 0; 0; 31; 0; 0; 0; 0; 0; 0; 0; 0; 0; 0; 0; 0; 0; 0; 0; 0; 0; 0; 0; 0; 0; 0; 0; 0; 0; 0; 0; 0; 0; 0; 0; 0; 0;
    0; 0; 0; 0; 0; 0; 0; 0; 0; 0; 0; 0];
  (* State 135 *) [0; 0; 0; 0; 0; 0; 0; 0; 0; 0; 0; 0; 0; 0; 0; 0; 0; 0; 0; 0; 0; 0; 0; 0; 0; 0; 0; 0; 0; 0; 0; 0; 0;
    0; 0; 0; 0; 0; 0; 0; 0; 0; 0; 0; 0; 32; 0; 0; 0; 0; 0; 0; 0; 0; 0; 0; 0; 0; 0; 0; 0; 0; 0; 0; 0; 0; 0; 0; 0; 0; 0;
    0; 0; 0; 0; 0; 0; 0; 0; 0; 0; 0; 0];
  (* State 136 *) [0; 0; 0; 0; 0; 0; 0; 179; 0; 0; 0; 0; 0; 0; 0; 0; 0; 0; 0; 0; 0; 0; 0; 0; 0; 0; 0; 0; 0; 0; 0; 0;
    0; 0; 0; 0; 0; 0; 0; 0; 0; 0; 0; 0; 0; 0; 0; 0; 0; 0; 0; 0; 0; 0; 0; 0; 0; 0; 0; 0; 0; 0; 0; 0; 0; 0; 0; 0; 0; 0;
    0; 0; 0; 0; 0; 0; 0; 0; 0; 0; 0; 0; 0];
  (* State 137 *) [(-82); (-82); (-82); (-82); (-82); (-82); (-82); (-82); (-82); (-82); (-82); (-82); (-82); (-82);
    0; (-82); (-82); (-82); 0; (-82); 0; 0; (-82); (-82); 0; 0; 0; 0; 0; (-82); 0; 0; (-82); (-82); (-82); 0; 0;
    (-82); (-82); (-82); (-82); (-82); (-82); 0; (-82); 0; (-82); (-82); (-82); (-82); (-82); (-82); (-82); (-82);
    (-82); 0; (-82); (-82); (-82); (-82); 0; 0; 0; (-82); (-82); (-82); 0; (-82); 0; 0; (-82); 0; (-82); (-82); (-82);
    (-82); 0; (-82); 0; (-82); 0; 0; 0];
  (* State 138 *) [0; 0; 0; 0; 0; 0; 0; 0; 0; 0; 0; 0; 0; 0; 0; 0; 0; 0; 0; 0; 0; 0; 0; 0; 0; 0; 0; 0; 0; 0; 0; 0; 0;
    0; 0; 0; 0; 0; 0; 0; 0; 0; 0; 0; 0; 0; 0; 0; 0; 0; 0; 0; 0; 0; 0; 0; 0; 0; 0; 0; 0; 0; 0; 0; 0; 0; 0; 0; 0; 0; 0;
    0; 0; 0; 0; 0; 0; 0; 0; 0; 0; 0; 0];
  (* State 139 *) [0; 0; 0; 0; 0; 0; 0; 0; 0; 0; 0; 0; 0; 0; 0; 0; 0; 0; 0; 0; 0; 0; 0; 0; 0; 0; 0; 0; 0; 0; 0; 0; 0;
    0; 0; 0; 0; 0; 0; 0; 0; 0; 0; 0; 0; 0; 0; 0; 0; 0; 0; 0; 0; 0; 0; 0; 0; 0; 0; 0; 0; 34; 0; 0; 0; 0; 0; 0; 0; 0; 0;
    0; 0; 0; 0; 0; 0; 0; 0; 0; 0; 0; 0];
  (* State 140 *) [0; (-171); 0; (-171); (-171); 0; (-171); 0; 0; 0; 0; 0; 0; 0; 0; 0; 0; 0; 0; 0; 0; (-171); 0; 0;
    (-171); (-171); (-171); (-171); 0; 0; 0; 0; 0; 0; 0; 0; 0; 0; 0; 0; 0; 0; 0; 0; 0; 0; 0; 0; 0; 0; 0; 0; 0; (-171);
    0; (-171); 0; 0; 0; 0; 0; 0; 0; 0; 0; 0; 0; 0; (-171); (-171); 0; 0; 0; 0; 0; 0; 0; 0; (-171); (-171); (-171);
    (-171); (-171)];
  (* State 141 *) [0; (-173); 0; (-173); (-173); 0; (-173); 0; 0; 0; 0; 0; 0; 0; 0; 0; 0; 0; 0; 0; 0; (-173); 0; 0;
    (-173); (-173); (-173); (-173); 0; 0; 0; 0; 0; 0; 0; 0; 0; 0; 0; 0; 0; 0; 0; 0; 0; 0; 0; 0; 0; 0; 0; 0; 0; (-173);
    0; (-173); 0; 0; 0; 0; 0; 0; 0; 0; 0; 0; 0; 0; (-173); (-173); 0; 0; 0; 0; 0; 0; 0; 0; (-173); (-173); (-173);
    (-173); (-173)];
  (* State 142 *) [(-146); (-146); (-146); (-146); (-146); (-146); (-146); 38; (-146); (-146); (-146); (-146); (-146);
    (-146); 0; (-146); (-146); (-146); 0; (-146); 0; 0; (-146); (-146); 0; 0; 0; 0; 0; (-146); 0; 0; (-146); (-146);
    (-146); 0; 0; (-146); (-146); (-146); (-146); (-146); (-146); 0; (-146); 0; (-146); (-146); (-146); (-146);
    (-146); (-146); (-146); (-146); (-146); 0; (-146); (-146); (-146); (-146); 0; 0; 0; (-146); (-146); (-146); 0;
    (-146); 0; 0; (-146); 0; (-146); (-146); (-146); (-146); 0; (-146); 0; (-146); 0; 0; 0];
  (* State 143 *) [0; 0; 0; 0; 0; 0; 0; 0; 0; 0; 0; 0; 0; 0; 0; 0; 0; 0; 0; 0; 0; 0; 0; 0; 0; 0; 0; 0; 0; 0; 0; 0; 0;
    0; 0; 0; 0; 0; 0; 0; 0; 0; 0; 0; 0; 0; 0; 0; 0; 0; 0; 0; 0; 0; 0; 0; 0; 0; 0; 0; 0; 0; 0; 0; 0; 39; 0; 0; 0; 0; 0;
    0; 0; 0; 0; 0; 0; 0; 0; 0; 0; 0; 0];
  (* State 144 *) [0; 0; (-209); 0; 0; (-209); 0; 0; 0; 0; 0; 0; 0; 0; 0; 0; 0; 0; 0; 0; 0; 0; 0; 0; 0; 0; 0; 0; 0; 0;
    0; 0; 0; 0; (-209); 0; 0; 0; 0; 0; 0; 0; 0; 0; (-209); 0; 0; 0; 0; 0; 0; (-209); 0; 0; 0; 0; 0; 0; 0; (-209); 0;
    0; 0; 0; 0; 0; 0; 0; 0; 0; (-209); 0; 0; 0; 0; 0; 0; 0; 0; 0; 0; 0; 0];
  (* State 145 *) [0; 0; (-168); 0; 0; 40; 0; 0; 0; 0; 0; 0; 0; 0; 0; 0; 0; 0; 0; 0; 0; 0; 0; 0; 0; 0; 0; 0; 0; 0; 0;
    0; 0; 0; (-168); 0; 0; 0; 0; 0; 0; 0; 0; 0; (-168); 0; 0; 0; 0; 0; 0; (-168); 0; 0; 0; 0; 0; 0; 0; (-168); 0; 0;
    0; 0; 0; 0; 0; 0; 0; 0; (-168); 0; 0; 0; 0; 0; 0; 0; 0; 0; 0; 0; 0];
  (* State 146 *) [0; 0; 0; 0; 0; (-32); 0; 0; 0; 0; 0; 0; 0; 0; 0; 0; 0; 0; 0; 0; 0; 0; 0; 0; 0; 0; 0; 0; (-32); 0;
    0; 0; 0; 0; 0; 0; 0; 0; 0; 0; 0; 0; 0; (-32); 0; 0; 0; 0; 0; 0; 0; 0; 0; 0; 0; 0; 0; 0; 0; 0; 0; 0; 0; 0; (-32);
    0; 0; 0; 0; 0; 0; (-32); 0; (-32); 0; 0; 0; 0; 0; 0; 0; 0; 0];
  (* State 147 *) [0; 0; 0; 0; 0; 41; 0; 0; 0; 0; 0; 0; 0; 0; 0; 0; 0; 0; 0; 0; 0; 0; 0; 0; 0; 0; 0; 0; (-200); 0; 0;
    0; 0; 0; 0; 0; 0; 0; 0; 0; 0; 0; 0; (-200); 0; 0; 0; 0; 0; 0; 0; 0; 0; 0; 0; 0; 0; 0; 0; 0; 0; 0; 0; 0; (-200); 0;
    0; 0; 0; 0; 0; (-200); 0; (-200); 0; 0; 0; 0; 0; 0; 0; 0; 0];
  (* State 148 *) [0; 42; 0; 0; 0; 0; 0; 0; 0; 0; 0; 0; 0; 0; 0; 0; 187; 0; 0; 0; 0; 0; 0; 0; 0; 0; 0; 0; 0; 0; 0; 0;
    0; 0; 0; 0; 0; 0; 0; 0; 0; 0; 0; 0; 0; 0; 0; 0; 0; 0; 0; 0; 0; 0; 0; 0; 0; 0; 0; 0; 0; 0; 0; 0; 0; 0; 0; 0; 0; 0;
    0; 0; 0; 0; 0; 0; 0; 0; 0; 0; 0; 0; 0];
  (* State 149 *) [0; 0; (-170); 0; 0; 0; 0; 0; 0; 0; 0; 0; 0; 0; 0; 0; 0; 0; 0; 0; 0; 0; 0; 0; 0; 0; 0; 0; 0; 0; 0;
    0; 0; 0; (-170); 0; 0; 0; 0; 0; 0; 0; 0; 0; (-170); 0; 0; 0; 0; 0; 0; (-170); 0; 0; 0; 0; 0; 0; 0; (-170); 0; 0;
    0; 0; 0; 0; 0; 0; 0; 0; (-170); 0; 0; 0; 0; 0; 0; 0; 0; 0; 0; 0; 0];
  (* State 150 *) [0; 0; (-178); 0; 0; 0; 0; 0; 0; 0; 0; 0; 0; 0; 0; 0; 0; 0; 0; 0; 0; 0; 0; 0; 0; 0; 0; 0; 0; 0; 0;
    0; 0; 0; 0; 0; 0; 0; 0; 0; 0; 0; 0; 0; 0; 0; 0; 0; 0; 0; 0; 0; 0; 0; 0; 0; 0; 0; 0; 0; 0; 0; 0; 0; 0; 0; 0; 0; 0;
    0; 0; 0; 0; 0; 0; 0; 0; 0; 0; 0; 0; 0; 0];
  (* State 151 *) [(-34); 0; (-34); 0; 43; (-34); 44; 0; 0; (-34); (-34); (-34); (-34); (-34); 0; (-34); (-34); (-34);
    0; (-34); 0; 0; (-34); (-34); 0; 0; 0; 0; 0; (-34); 0; 0; (-34); (-34); (-34); 0; 0; (-34); (-34); (-34); (-34);
    (-34); (-34); 0; (-34); 0; (-34); (-34); (-34); (-34); (-34); (-34); (-34); (-34); (-34); 0; (-34); 0; (-34);
    (-34); 0; 0; 0; (-34); 0; 0; 0; (-34); 0; 0; (-34); 0; 0; 0; (-34); (-34); 0; 45; 0; (-34); 0; 0; 0];
  (* State 152 *) [0; 0; (-127); 0; 0; (-127); 0; 0; 0; 0; 0; 0; 0; 0; 0; 46; (-127); (-127); 0; 0; 0; 0; (-127);
    (-127); 0; 0; 0; 0; 0; (-127); 0; 0; (-127); (-127); (-127); 0; 0; (-127); (-127); (-127); (-127); 0; (-127); 0;
    (-127); 0; 0; 0; (-127); (-127); 0; (-127); (-127); 0; 0; 0; (-127); 0; (-127); (-127); 0; 0; 0; (-127); 0; 0; 0;
    (-127); 0; 0; (-127); 0; 0; 0; (-127); (-127); 0; 0; 0; (-127); 0; 0; 0];
  (* State 153 *) [0; 0; (-58); 0; 0; (-58); 0; 0; 0; 0; 0; 0; 0; 0; 0; (-58); (-58); (-58); 0; 0; 0; 0; (-58); (-58);
    0; 0; 0; 0; 0; (-58); 0; 0; (-58); (-58); (-58); 0; 0; (-58); (-58); (-58); (-58); 0; (-58); 0; (-58); 0; 0; 0;
    (-58); (-58); 0; (-58); (-58); 0; 0; 0; (-58); 0; (-58); (-58); 0; 0; 0; (-58); 0; 0; 0; (-58); 0; 0; (-58); 0; 0;
    0; (-58); (-58); 0; 0; 0; (-58); 0; 0; 0];
  (* State 154 *) [47; 0; (-57); 0; 0; (-57); 0; 0; 0; 48; 49; 50; 51; 52; 0; (-57); (-57); (-57); 0; 53; 0; 0; (-57);
    (-57); 0; 0; 0; 0; 0; (-57); 0; 0; (-57); (-57); (-57); 0; 0; (-57); (-57); (-57); (-57); 54; (-57); 0; (-57); 0;
    188; 189; (-57); (-57); 55; (-57); (-57); 190; 191; 0; (-57); 0; (-57); (-57); 0; 0; 0; (-57); 0; 0; 0; (-57); 0;
    0; (-57); 0; 0; 0; (-57); (-57); 0; 0; 0; (-57); 0; 0; 0];
  (* State 155 *) [0; 0; (-122); 0; 0; (-122); 0; 0; 0; 0; 0; 0; 0; 0; 0; (-122); (-122); (-122); 0; 0; 0; 0; (-122);
    (-122); 0; 0; 0; 0; 0; (-122); 0; 0; (-122); (-122); (-122); 0; 0; (-122); (-122); (-122); (-122); 0; (-122); 0;
    (-122); 0; 0; 0; (-122); (-122); 0; (-122); (-122); 0; 0; 0; (-122); 0; (-122); (-122); 0; 0; 0; (-122); 0; 0; 0;
    (-122); 0; 0; (-122); 0; 0; 0; (-122); (-122); 0; 0; 0; (-122); 0; 0; 0];
  (* State 156 *) [0; 0; (-105); 0; 0; 56; 0; 0; 0; 0; 0; 0; 0; 0; 0; 0; 0; 0; 0; 0; 0; 0; 0; 0; 0; 0; 0; 0; 0; 0; 0;
    0; 0; 0; 0; 0; 0; 0; 0; 0; 0; 0; 0; 0; 0; 0; 0; 0; 0; 0; 0; 0; 0; 0; 0; 0; 57; 0; 0; 0; 0; 0; 0; 0; 0; 0; 0; 0; 0;
    0; 0; 0; 0; 0; 0; 0; 0; 0; 0; 0; 0; 0; 0];
  (* State 157 *) [(-144); 0; (-144); (-144); (-144); (-144); (-144); 0; (-144); (-144); (-144); (-144); (-144);
    (-144); 0; (-144); (-144); (-144); 0; (-144); 0; 0; (-144); (-144); 0; 0; 0; 0; 0; (-144); 0; 0; (-144); (-144);
    (-144); 0; 0; (-144); (-144); (-144); (-144); (-144); (-144); 0; (-144); 0; (-144); (-144); (-144); (-144);
    (-144); (-144); (-144); (-144); (-144); 0; (-144); 0; (-144); (-144); 0; 0; 0; (-144); 0; 0; 0; (-144); 0; 0;
    (-144); 0; 0; 0; (-144); (-144); 0; (-144); 0; (-144); 0; 0; 0];
  (* State 158 *) [(-12); 0; (-12); 58; (-12); (-12); (-12); 0; 59; (-12); (-12); (-12); (-12); (-12); 0; (-12);
    (-12); (-12); 0; (-12); 0; 0; (-12); (-12); 0; 0; 0; 0; 0; (-12); 0; 0; (-12); (-12); (-12); 0; 0; (-12); (-12);
    (-12); (-12); (-12); (-12); 0; (-12); 0; (-12); (-12); (-12); (-12); (-12); (-12); (-12); (-12); (-12); 0; (-12);
    0; (-12); (-12); 0; 0; 0; (-12); 0; 0; 0; (-12); 0; 0; (-12); 0; 0; 0; (-12); (-12); 0; (-12); 0; (-12); 0; 0; 0];
  (* State 159 *) [0; 0; (-16); 0; 0; (-16); 0; 0; 0; 0; 0; 0; 0; 0; 0; (-16); (-16); (-16); 0; 0; 0; 0; (-16); (-16);
    0; 0; 0; 0; 0; (-16); 0; 0; (-16); (-16); (-16); 0; 0; (-16); (-16); (-16); (-16); 0; (-16); 0; (-16); 0; 0; 0;
    (-16); (-16); 0; (-16); (-16); 0; 0; 0; (-16); 0; (-16); (-16); 0; 0; 0; (-16); 0; 0; 0; (-16); 0; 0; (-16); 0; 0;
    0; (-16); (-16); 0; 0; 0; (-16); 0; 0; 0];
  (* State 160 *) [(-110); 0; (-110); (-110); (-110); (-110); (-110); 0; (-110); (-110); (-110); (-110); (-110);
    (-110); 0; (-110); (-110); (-110); 0; (-110); 0; 0; (-110); (-110); 0; 0; 0; 0; 0; (-110); 0; 0; (-110); (-110);
    (-110); 0; 0; (-110); (-110); (-110); (-110); (-110); (-110); 0; (-110); 0; (-110); (-110); (-110); (-110);
    (-110); (-110); (-110); (-110); (-110); 0; (-110); 0; (-110); (-110); 0; 0; 0; (-110); 0; 0; 0; (-110); 0; 0;
    (-110); 0; 0; 0; (-110); (-110); 0; (-110); 0; (-110); 0; 0; 0];
  (* State 161 *) [0; 0; (-72); 0; 0; (-72); 0; 0; 0; 0; 0; 0; 0; 0; 0; 0; (-72); (-72); 0; 0; 0; 0; (-72); (-72); 0;
    0; 0; 0; 0; (-72); 0; 0; (-72); (-72); (-72); 0; 0; (-72); (-72); (-72); (-72); 0; (-72); 0; (-72); 0; 0; 0;
    (-72); (-72); 0; (-72); (-72); 0; 0; 0; (-72); 0; 60; (-72); 0; 0; 0; (-72); 0; 0; 0; (-72); 0; 0; (-72); 0; 0; 0;
    (-72); (-72); 0; 0; 0; (-72); 0; 0; 0];
  (* State 162 *) [(-211); 0; (-211); (-211); (-211); (-211); (-211); 0; (-211); (-211); (-211); (-211); (-211);
    (-211); 0; (-211); (-211); (-211); 0; (-211); 0; 0; (-211); (-211); 0; 0; 0; 0; 0; (-211); 0; 0; (-211); (-211);
    (-211); 0; 0; (-211); (-211); (-211); (-211); (-211); (-211); 0; (-211); 0; (-211); (-211); (-211); (-211);
    (-211); (-211); (-211); (-211); (-211); 0; (-211); 0; (-211); (-211); 0; 0; 0; (-211); 0; 0; 0; (-211); 0; 0;
    (-211); 0; 0; 0; (-211); (-211); 0; (-211); 0; (-211); 0; 0; 0];
  (* State 163 *) [(-145); 0; (-145); (-145); (-145); (-145); (-145); 0; (-145); (-145); (-145); (-145); (-145);
    (-145); 0; (-145); (-145); (-145); 0; (-145); 0; 0; (-145); (-145); 0; 0; 0; 0; 0; (-145); 0; 0; (-145); (-145);
    (-145); 0; 0; (-145); (-145); (-145); (-145); (-145); (-145); 0; (-145); 0; (-145); (-145); (-145); (-145);
    (-145); (-145); (-145); (-145); (-145); 0; (-145); 0; (-145); (-145); 0; 0; 0; (-145); 0; 0; 0; (-145); 0; 0;
    (-145); 0; 0; 0; (-145); (-145); 0; (-145); 0; (-145); 0; 0; 0];
  (* State 164 *) [(-111); 0; (-111); (-111); (-111); (-111); (-111); 0; (-111); (-111); (-111); (-111); (-111);
    (-111); 0; (-111); (-111); (-111); 0; (-111); 0; 0; (-111); (-111); 0; 0; 0; 0; 0; (-111); 0; 0; (-111); (-111);
    (-111); 0; 0; (-111); (-111); (-111); (-111); (-111); (-111); 0; (-111); 0; (-111); (-111); (-111); (-111);
    (-111); (-111); (-111); (-111); (-111); 0; (-111); 0; (-111); (-111); 0; 0; 0; (-111); 0; 0; 0; (-111); 0; 0;
    (-111); 0; 0; 0; (-111); (-111); 0; (-111); 0; (-111); 0; 0; 0];
  (* State 165 *) [(-119); 0; (-119); (-119); (-119); (-119); (-119); 0; (-119); (-119); (-119); (-119); (-119);
    (-119); 0; (-119); (-119); (-119); 0; (-119); 0; 0; (-119); (-119); 0; 0; 0; 0; 0; (-119); 0; 0; (-119); (-119);
    (-119); 0; 0; (-119); (-119); (-119); (-119); (-119); (-119); 0; (-119); 0; (-119); (-119); (-119); (-119);
    (-119); (-119); (-119); (-119); (-119); 0; (-119); 0; (-119); (-119); 0; 0; 0; (-119); 0; 0; 0; (-119); 0; 0;
    (-119); 0; 0; 0; (-119); (-119); 0; (-119); 0; (-119); 0; 0; 0];
  (* State 166 *) [(-114); 0; (-114); (-114); (-114); (-114); (-114); 0; (-114); (-114); (-114); (-114); (-114);
    (-114); 0; (-114); (-114); (-114); 0; (-114); 0; 0; (-114); (-114); 0; 0; 0; 0; 0; (-114); 0; 0; (-114); (-114);
    (-114); 0; 0; (-114); (-114); (-114); (-114); (-114); (-114); 0; (-114); 0; (-114); (-114); (-114); (-114);
    (-114); (-114); (-114); (-114); (-114); 0; (-114); 0; (-114); (-114); 0; 0; 0; (-114); 0; 0; 0; (-114); 0; 0;
    (-114); 0; 0; 0; (-114); (-114); 0; (-114); 0; (-114); 0; 0; 0];
  (* State 167 *) [(-113); 0; (-113); (-113); (-113); (-113); (-113); 0; (-113); (-113); (-113); (-113); (-113);
    (-113); 0; (-113); (-113); (-113); 0; (-113); 0; 0; (-113); (-113); 0; 0; 0; 0; 0; (-113); 0; 0; (-113); (-113);
    (-113); 0; 0; (-113); (-113); (-113); (-113); (-113); (-113); 0; (-113); 0; (-113); (-113); (-113); (-113);
    (-113); (-113); (-113); (-113); (-113); 0; (-113); 0; (-113); (-113); 0; 0; 0; (-113); 0; 0; 0; (-113); 0; 0;
    (-113); 0; 0; 0; (-113); (-113); 0; (-113); 0; (-113); 0; 0; 0];
  (* State 168 *) [(-115); 0; (-115); (-115); (-115); (-115); (-115); 0; (-115); (-115); (-115); (-115); (-115);
    (-115); 0; (-115); (-115); (-115); 0; (-115); 0; 0; (-115); (-115); 0; 0; 0; 0; 0; (-115); 0; 0; (-115); (-115);
    (-115); 0; 0; (-115); (-115); (-115); (-115); (-115); (-115); 0; (-115); 0; (-115); (-115); (-115); (-115);
    (-115); (-115); (-115); (-115); (-115); 0; (-115); 0; (-115); (-115); 0; 0; 0; (-115); 0; 0; 0; (-115); 0; 0;
    (-115); 0; 0; 0; (-115); (-115); 0; (-115); 0; (-115); 0; 0; 0];
  (* State 169 *) [(-112); 0; (-112); (-112); (-112); (-112); (-112); 0; (-112); (-112); (-112); (-112); (-112);
    (-112); 0; (-112); (-112); (-112); 0; (-112); 0; 0; (-112); (-112); 0; 0; 0; 0; 0; (-112); 0; 0; (-112); (-112);
    (-112); 0; 0; (-112); (-112); (-112); (-112); (-112); (-112); 0; (-112); 0; (-112); (-112); (-112); (-112);
    (-112); (-112); (-112); (-112); (-112); 0; (-112); 0; (-112); (-112); 0; 0; 0; (-112); 0; 0; 0; (-112); 0; 0;
    (-112); 0; 0; 0; (-112); (-112); 0; (-112); 0; (-112); 0; 0; 0];
  (* State 170 *) [(-126); 0; (-126); (-126); (-126); (-126); (-126); 0; (-126); (-126); (-126); (-126); (-126);
    (-126); 0; (-126); (-126); (-126); 0; (-126); 0; 0; (-126); (-126); 0; 0; 0; 0; 0; (-126); 0; 0; (-126); (-126);
    (-126); 0; 0; (-126); (-126); (-126); (-126); (-126); (-126); 0; (-126); 0; (-126); (-126); (-126); (-126);
    (-126); (-126); (-126); (-126); (-126); 0; (-126); 0; (-126); (-126); 0; 0; 0; (-126); 0; 0; 0; (-126); 0; 0;
    (-126); 0; 0; 0; (-126); (-126); 0; (-126); 0; (-126); 0; 0; 0];
  (* State 171 *) [(-124); 0; (-124); (-124); (-124); (-124); (-124); 0; (-124); (-124); (-124); (-124); (-124);
    (-124); 0; (-124); (-124); (-124); 0; (-124); 0; 0; (-124); (-124); 0; 0; 0; 0; 0; (-124); 0; 0; (-124); (-124);
    (-124); 0; 0; (-124); (-124); (-124); (-124); (-124); (-124); 0; (-124); 0; (-124); (-124); (-124); (-124);
    (-124); (-124); (-124); (-124); (-124); 0; (-124); 0; (-124); (-124); 0; 0; 0; (-124); 0; 0; 0; (-124); 0; 0;
    (-124); 0; 0; 0; (-124); (-124); 0; (-124); 0; (-124); 0; 0; 0];
  (* State 172 *) [(-125); 0; (-125); (-125); (-125); (-125); (-125); 0; (-125); (-125); (-125); (-125); (-125);
    (-125); 0; (-125); (-125); (-125); 0; (-125); 0; 0; (-125); (-125); 0; 0; 0; 0; 0; (-125); 0; 0; (-125); (-125);
    (-125); 0; 0; (-125); (-125); (-125); (-125); (-125); (-125); 0; (-125); 0; (-125); (-125); (-125); (-125);
    (-125); (-125); (-125); (-125); (-125); 0; (-125); 0; (-125); (-125); 0; 0; 0; (-125); 0; 0; 0; (-125); 0; 0;
    (-125); 0; 0; 0; (-125); (-125); 0; (-125); 0; (-125); 0; 0; 0];
  (* State 173 *) [(-191); 0; (-191); (-191); (-191); (-191); (-191); 0; (-191); (-191); (-191); (-191); (-191);
    (-191); 0; (-191); (-191); (-191); 0; (-191); 0; 0; (-191); (-191); 0; 0; 0; 0; 0; (-191); 0; 0; (-191); (-191);
    (-191); 0; 0; (-191); (-191); (-191); (-191); (-191); (-191); 0; (-191); 0; (-191); (-191); (-191); (-191);
    (-191); (-191); (-191); (-191); (-191); 0; (-191); 0; (-191); (-191); 0; 0; 0; (-191); 0; 0; 0; (-191); 0; 0;
    (-191); 0; 0; 0; (-191); (-191); 0; (-191); 0; (-191); 0; 0; 0];
  (* State 174 *) [0; 0; 0; 0; 0; 0; 0; 0; 0; 0; 0; 0; 0; 0; 0; 0; 0; 0; 0; 0; 0; 0; 0; 0; 0; 0; 0; 0; 0; 0; 0; 0; 0;
    0; 0; 0; 0; 0; 0; 0; 0; 0; 0; 0; 0; 0; 0; 0; 0; 0; 0; 0; 0; 0; 0; 0; 0; 0; 0; 0; 0; 0; 0; 0; (-60); 0; 0; 0; 0; 0;
    0; 0; 0; (-60); 0; 0; 0; 0; 0; 0; 0; 0; 0];
  (* State 175 *) [0; 0; (-175); 0; 0; 0; 0; 0; 0; 0; 0; 0; 0; 0; 0; 0; 0; 0; 0; 0; 0; 0; 0; 0; 0; 0; 0; 0; 0; 0; 0;
    0; 0; 0; 0; 0; 0; 0; 0; 0; 0; 0; 0; 0; 0; 0; 0; 0; 0; 0; 0; 0; 0; 0; 0; 0; 0; 0; 0; 0; 0; 0; 0; 0; 0; 0; 0; 0; 0;
    0; 0; 0; 0; 0; 0; 0; 0; 0; 0; 0; 0; 0; 0];
  (* State 176 *) [0; 0; 0; 0; 0; 0; 0; 0; 0; 0; 0; 0; 0; 0; 0; 0; 0; 0; 0; 0; 0; 0; 0; 0; 0; 0; 0; 0; 0; 0; 0; 0; 0;
    0; 0; 0; 0; 0; 0; 0; 0; 0; 0; 0; 0; 0; 0; 0; 0; 0; 0; 0; 0; 0; 0; 0; 0; 0; 0; 0; 0; 0; 0; 0; 0; 68; 0; 0; 0; 0; 0;
    0; 0; 0; 0; 0; 0; 0; 0; 0; 0; 0; 0];
  (* State 177 *) [0; 0; 0; 0; 0; 0; 0; 0; 0; 0; 0; 0; 0; 0; 0; 0; 69; 0; 0; 0; 0; 0; 0; 0; 0; 0; 0; 0; 0; 0; 0; 0; 0;
    0; 0; 0; 0; 0; 0; 0; 0; 0; 0; 0; 0; 0; 0; 0; 0; 0; 0; 0; 0; 0; 0; 0; 0; 0; 0; 0; 0; 0; 0; 0; 0; 0; 0; 0; 0; 0; 0;
    0; 0; 0; 0; 0; 0; 0; 0; 0; 0; 0; 0];
  (* State 178 *) [0; 0; 0; 0; 0; 0; 0; 0; 0; 0; 0; 0; 0; 0; 0; 0; 0; 0; 0; 0; 0; 0; 0; 0; 0; 0; 0; 0; 0; 0; 0; 0; 0;
    0; 0; 0; 0; 0; 0; 0; 0; 0; 0; 0; 0; 0; 0; 0; 0; 0; 0; 0; 0; 0; 0; 0; 0; 0; 0; 0; 0; 0; 0; 0; 0; 0; 0; 0; 0; 0; 0;
    0; 0; 0; 0; 0; 0; 0; 0; (-157); 0; 0; 0];
  (* State 179 *) [0; 0; 0; 0; 0; 0; 0; 0; 0; 0; 0; 0; 0; 0; 0; 0; 0; 0; 0; 0; 0; 0; 0; 0; 0; 0; 0; 0; 0; 0; 0; 0; 0;
    0; 0; 0; 0; 0; 0; 0; 0; 0; 0; 0; 0; 0; 0; 0; 0; 0; 0; 0; 0; 0; 0; 0; 0; 0; 0; 0; 0; 0; 0; 0; 0; 0; 0; 0; 0; 0; 0;
    0; 0; 0; 0; 0; 0; 0; 0; 0; 0; 0; 0];
  (* State 180 *) [(-146); 0; (-146); (-146); (-146); (-146); (-146); 74; (-146); (-146); (-146); (-146); (-146);
    (-146); 0; (-146); (-146); 0; 0; (-146); 0; 0; 0; 0; 0; 0; 0; 0; 0; 0; 0; 0; 0; 0; (-146); 0; 0; (-146); 0;
    (-146); 0; (-146); 0; 0; (-146); 0; (-146); (-146); 0; 0; (-146); (-146); 0; (-146); (-146); 0; 0; 0; (-146);
    (-146); 0; 0; 0; 0; 0; 0; 0; 0; 0; 0; (-146); 0; 0; 0; 0; (-146); 0; (-146); 0; (-146); 0; 0; 0];
  (* State 181 *) [0; 0; (-153); 0; 0; (-153); 0; 0; 0; 0; 0; 0; 0; 0; 0; 0; 0; 0; 0; 0; 0; 0; 0; 0; 0; 0; 0; 0; 0; 0;
    0; 0; 0; 0; (-153); 0; 0; (-153); 0; (-153); 0; 0; 0; 0; (-153); 0; 0; 0; 0; 0; 0; (-153); 0; 0; 0; 0; 0; 0; 0;
    (-153); 0; 0; 0; 0; 0; 0; 0; 0; 0; 0; (-153); 0; 0; 0; 0; (-153); 0; 0; 0; 0; 0; 0; 0];
  (* State 182 *) [0; 0; (-156); 0; 0; 75; 0; 0; 0; 0; 0; 0; 0; 0; 0; 0; 0; 0; 0; 0; 0; 0; 0; 0; 0; 0; 0; 0; 0; 0; 0;
    0; 0; 0; (-156); 0; 0; (-156); 0; (-156); 0; 0; 0; 0; (-156); 0; 0; 0; 0; 0; 0; (-156); 0; 0; 0; 0; 0; 0; 0;
    (-156); 0; 0; 0; 0; 0; 0; 0; 0; 0; 0; (-156); 0; 0; 0; 0; (-156); 0; 0; 0; 0; 0; 0; 0];
  (* State 183 *) [0; 0; (-155); 0; 0; 0; 0; 0; 0; 0; 0; 0; 0; 0; 0; 0; 0; 0; 0; 0; 0; 0; 0; 0; 0; 0; 0; 0; 0; 0; 0;
    0; 0; 0; (-155); 0; 0; (-155); 0; (-155); 0; 0; 0; 0; (-155); 0; 0; 0; 0; 0; 0; (-155); 0; 0; 0; 0; 0; 0; 0;
    (-155); 0; 0; 0; 0; 0; 0; 0; 0; 0; 0; (-155); 0; 0; 0; 0; (-155); 0; 0; 0; 0; 0; 0; 0];
  (* State 184 *) [0; 0; (-75); 0; 0; (-75); 0; 0; 0; 0; 0; 0; 0; 0; 0; 0; 0; 0; 0; 0; 0; 0; 0; 0; 0; 0; 0; 0; 0; 0;
    0; 0; 0; 0; (-75); 0; 0; 0; 0; 0; (-75); 0; 0; 0; (-75); 0; 0; 0; 0; 0; 0; (-75); 0; 0; 0; 0; 0; 0; 0; (-75); 0;
    0; 0; 0; 0; 0; 0; 0; 0; 0; (-75); 0; 0; 0; 0; 0; 0; 0; 0; 0; 0; 0; 0];
  (* State 185 *) [0; 0; 215; 0; 0; 80; 0; 0; 0; 0; 0; 0; 0; 0; 0; 0; 0; 0; 0; 0; 0; 0; 0; 0; 0; 0; 0; 0; 0; 0; 0; 0;
    0; 0; 0; 0; 0; 0; 0; 0; 0; 0; 0; 0; 0; 0; 0; 0; 0; 0; 0; 0; 0; 0; 0; 0; 0; 0; 0; 0; 0; 0; 0; 0; 0; 0; 0; 0; 0; 0;
    0; 0; 0; 0; 0; 0; 0; 0; 0; 0; 0; 0; 0];
  (* State 186 *) [0; 81; 0; 0; 0; 0; 0; 0; 0; 0; 0; 0; 0; 0; 0; 0; 0; 0; 0; 0; 0; 0; 0; 0; 0; 0; 0; 0; 0; 0; 0; 0; 0;
    0; 0; 0; 0; 0; 0; 0; 0; 0; 0; 0; 0; 0; 0; 0; 0; 0; 0; 0; 0; 0; 0; 0; 0; 0; 0; 0; 0; 0; 0; 0; 0; 0; 0; 0; 0; 0; 0;
    0; 0; 0; 0; 0; 0; 0; 0; 0; 0; 0; 0];
  (* State 187 *) [0; 0; 0; 0; 0; 0; 0; 0; 0; 0; 0; 0; 0; 0; 0; 0; 0; 0; 0; 0; 0; 0; 0; 0; 0; 0; 0; 0; 0; 0; 0; 0; 0;
    0; 0; 0; 0; 0; 0; 0; 0; 0; 0; 0; 0; 0; 0; 0; 0; 0; 0; 0; 0; 230; 0; 231; 0; 0; 0; 0; 0; 0; 0; 0; 0; 0; 0; 0; 0; 0;
    0; 0; 0; 0; 0; 0; 0; 0; 0; 0; 0; 0; 0];
  (* State 188 *) [(-44); 0; (-44); 0; 0; (-44); 0; 0; 0; (-44); (-44); (-44); (-44); (-44); 0; (-44); (-44); (-44);
    0; (-44); 0; 0; (-44); (-44); 0; 0; 0; 0; 0; (-44); 0; 0; (-44); (-44); (-44); 0; 0; (-44); (-44); (-44); (-44);
    (-44); (-44); 0; (-44); 0; (-44); (-44); (-44); (-44); (-44); (-44); (-44); (-44); (-44); 0; (-44); 0; (-44);
    (-44); 0; 0; 0; (-44); 0; 0; 0; (-44); 0; 0; (-44); 0; 0; 0; (-44); (-44); 0; 0; 0; (-44); 0; 0; 0];
  (* State 189 *) [0; 0; 0; 0; 0; 0; 0; 0; 0; 0; 0; 0; 0; 0; 0; 0; 0; 0; 0; 83; 0; 0; 0; 0; 0; 0; 0; 0; 0; 0; 0; 0; 0;
    0; 0; 0; 0; 0; 0; 0; 0; 84; 0; 0; 0; 0; 0; 0; 0; 0; 0; 0; 0; 0; 0; 233; 0; 0; 0; 0; 0; 0; 0; 0; 0; 0; 0; 0; 0; 0;
    0; 0; 0; 0; 0; 0; 0; 0; 0; 0; 0; 0; 0];
  (* State 190 *) [(-45); 0; (-45); 0; 0; (-45); 0; 0; 0; (-45); (-45); (-45); (-45); (-45); 0; (-45); (-45); (-45);
    0; (-45); 0; 0; (-45); (-45); 0; 0; 0; 0; 0; (-45); 0; 0; (-45); (-45); (-45); 0; 0; (-45); (-45); (-45); (-45);
    (-45); (-45); 0; (-45); 0; (-45); (-45); (-45); (-45); (-45); (-45); (-45); (-45); (-45); 0; (-45); 0; (-45);
    (-45); 0; 0; 0; (-45); 0; 0; 0; (-45); 0; 0; (-45); 0; 0; 0; (-45); (-45); 0; 0; 0; (-45); 0; 0; 0];
  (* State 191 *) [0; 0; 239; 0; 0; 80; 0; 0; 0; 0; 0; 0; 0; 0; 0; 0; 0; 0; 0; 0; 0; 0; 0; 0; 0; 0; 0; 0; 0; 0; 0; 0;
    0; 0; 0; 0; 0; 0; 0; 0; 0; 0; 0; 0; 0; 0; 0; 0; 0; 0; 0; 0; 0; 0; 0; 0; 0; 0; 0; 0; 0; 0; 0; 0; 0; 0; 0; 0; 0; 0;
    0; 0; 0; 0; 0; 0; 0; 0; 0; 0; 0; 0; 0];
  (* State 192 *) [0; 0; 240; 0; 0; 0; 0; 0; 0; 0; 0; 0; 0; 0; 0; 0; 0; 0; 0; 0; 0; 0; 0; 0; 0; 0; 0; 0; 0; 0; 0; 0;
    0; 0; 0; 0; 0; 0; 0; 0; 0; 0; 0; 0; 0; 0; 0; 0; 0; 0; 0; 0; 0; 0; 0; 0; 0; 0; 0; 0; 0; 0; 0; 0; 0; 0; 0; 0; 0; 0;
    0; 0; 0; 0; 0; 0; 0; 0; 0; 0; 0; 0; 0];
  (* State 193 *) [(-212); 0; (-212); (-212); (-212); (-212); (-212); 0; (-212); (-212); (-212); (-212); (-212);
    (-212); 0; (-212); (-212); (-212); 0; (-212); 0; 0; (-212); (-212); 0; 0; 0; 0; 0; (-212); 0; 0; (-212); (-212);
    (-212); 0; 0; (-212); (-212); (-212); (-212); (-212); (-212); 0; (-212); 0; (-212); (-212); (-212); (-212);
    (-212); (-212); (-212); (-212); (-212); 0; (-212); 0; (-212); (-212); 0; 0; 0; (-212); 0; 0; 0; (-212); 0; 0;
    (-212); 0; 0; 0; (-212); (-212); 0; (-212); 0; (-212); 0; 0; 0];
  (* State 194 *) [(-213); 0; (-213); (-213); (-213); (-213); (-213); 0; (-213); (-213); (-213); (-213); (-213);
    (-213); 0; (-213); (-213); (-213); 0; (-213); 0; 0; (-213); (-213); 0; 0; 0; 0; 0; (-213); 0; 0; (-213); (-213);
    (-213); 0; 0; (-213); (-213); (-213); (-213); (-213); (-213); 0; (-213); 0; (-213); (-213); (-213); (-213);
    (-213); (-213); (-213); (-213); (-213); 0; (-213); 0; (-213); (-213); 0; 0; 0; (-213); 0; 0; 0; (-213); 0; 0;
    (-213); 0; 0; 0; (-213); (-213); 0; (-213); 0; (-213); 0; 0; 0];
  (* State 195 *) [0; 0; 0; 0; 0; 0; 0; 0; 0; 0; 0; 0; 0; 0; 0; 0; 0; 0; 0; 0; 0; 0; 0; 0; 0; 0; 0; 0; 0; 0; 0; 0;
    (-219); (-219); 0; 0; 0; 0; 0; 0; 0; 0; 0; 0; 0; 0; 0; 0; 0; 0; 0; 0; 0; 0; 0; 0; 0; 0; 0; 0; 0; 0; 0; 0; 0; 0; 0;
    0; 0; 0; 0; 0; 0; 0; (-219); 0; 0; 0; 0; 0; 0; 0; 0];
  (* State 196 *) [(-116); 0; (-116); (-116); (-116); (-116); (-116); 0; (-116); (-116); (-116); (-116); (-116);
    (-116); 0; (-116); (-116); (-116); 0; (-116); 0; 0; (-116); (-116); 0; 0; 0; 0; 0; (-116); 0; 0; (-116); (-116);
    (-116); 0; 0; (-116); (-116); (-116); (-116); (-116); (-116); 0; (-116); 0; (-116); (-116); (-116); (-116);
    (-116); (-116); (-116); (-116); (-116); 0; (-116); 0; (-116); (-116); 0; 0; 0; (-116); 0; 0; 0; (-116); 0; 0;
    (-116); 0; 0; 0; (-116); (-116); 0; (-116); 0; (-116); 0; 0; 0];
  (* State 197 *) [0; 0; (-123); 0; 0; (-123); 0; 0; 0; 0; 0; 0; 0; 0; 0; (-123); (-123); (-123); 0; 0; 0; 0; (-123);
    (-123); 0; 0; 0; 0; 0; (-123); 0; 0; (-123); (-123); (-123); 0; 0; (-123); (-123); (-123); (-123); 0; (-123); 0;
    (-123); 0; 0; 0; (-123); (-123); 0; (-123); (-123); 0; 0; 0; (-123); 0; (-123); (-123); 0; 0; 0; (-123); 0; 0; 0;
    (-123); 0; 0; (-123); 0; 0; 0; (-123); (-123); 0; 0; 0; (-123); 0; 0; 0];
  (* State 198 *) [(-117); 0; (-117); (-117); (-117); (-117); (-117); 0; (-117); (-117); (-117); (-117); (-117);
    (-117); 0; (-117); (-117); (-117); 0; (-117); 0; 0; (-117); (-117); 0; 0; 0; 0; 0; (-117); 0; 0; (-117); (-117);
    (-117); 0; 0; (-117); (-117); (-117); (-117); (-117); (-117); 0; (-117); 0; (-117); (-117); (-117); (-117);
    (-117); (-117); (-117); (-117); (-117); 0; (-117); 0; (-117); (-117); 0; 0; 0; (-117); 0; 0; 0; (-117); 0; 0;
    (-117); 0; 0; 0; (-117); (-117); 0; (-117); 0; (-117); 0; 0; 0];
  (* State 199 *) [(-118); 0; (-118); (-118); (-118); (-118); (-118); 0; (-118); (-118); (-118); (-118); (-118);
    (-118); 0; (-118); (-118); (-118); 0; (-118); 0; 0; (-118); (-118); 0; 0; 0; 0; 0; (-118); 0; 0; (-118); (-118);
    (-118); 0; 0; (-118); (-118); (-118); (-118); (-118); (-118); 0; (-118); 0; (-118); (-118); (-118); (-118);
    (-118); (-118); (-118); (-118); (-118); 0; (-118); 0; (-118); (-118); 0; 0; 0; (-118); 0; 0; 0; (-118); 0; 0;
    (-118); 0; 0; 0; (-118); (-118); 0; (-118); 0; (-118); 0; 0; 0];
  (* State 200 *) [0; 0; (-140); 0; 0; (-140); 0; 0; 0; 0; 0; 0; 0; 0; 0; 0; 0; 0; 0; 0; 0; 0; 0; 0; 0; 0; 0; 0; 0; 0;
    0; 0; 0; 0; 0; 0; 0; 0; 0; 0; 0; 0; 0; 0; 0; 0; 0; 0; 0; 0; 0; (-140); 0; 0; 0; 0; 0; 0; 0; 0; 0; 0; 0; 0; 0; 0;
    0; 0; 0; 0; 0; 0; 0; 0; 0; 0; 0; 0; 0; 0; 0; 0; 0];
  (* State 201 *) [0; 0; (-129); 0; 0; 89; 0; 0; 0; 0; 0; 0; 0; 0; 0; 0; 0; 0; 0; 0; 0; 0; 0; 0; 0; 0; 0; 0; 0; 0; 0;
    0; 0; 0; 0; 0; 0; 0; 0; 0; 0; 0; 0; 0; 0; 0; 0; 0; 0; 0; 0; (-129); 0; 0; 0; 0; 0; 0; 0; 0; 0; 0; 0; 0; 0; 0; 0;
    0; 0; 0; 0; 0; 0; 0; 0; 0; 0; 0; 0; 0; 0; 0; 0];
  (* State 202 *) [0; 0; (-174); 0; 0; 0; 0; 0; 0; 0; 0; 0; 0; 0; 0; 0; 0; 0; 0; 0; 0; 0; 0; 0; 0; 0; 0; 0; 0; 0; 0;
    0; 0; 0; 0; 0; 0; 0; 0; 0; 0; 0; 0; 0; 0; 0; 0; 0; 0; 0; 0; 0; 0; 0; 0; 0; 0; 0; 0; 0; 0; 0; 0; 0; 0; 0; 0; 0; 0;
    0; 0; 0; 0; 0; 0; 0; 0; 0; 0; 0; 0; 0; 0];
  (* State 203 *) [0; 0; 0; 0; 0; 0; 0; 0; 0; 0; 0; 0; 0; 0; 0; 0; 0; 0; 0; 0; 0; 0; 0; 0; 0; 0; 0; 0; 0; 0; 0; 0; 0;
    0; 0; 0; 0; 0; 0; 0; 0; 0; 0; 0; 0; 0; 0; 0; 0; 0; 0; 0; 0; 0; 0; 0; 0; 0; 0; 0; 0; 0; 0; 0; 0; 0; 0; 0; 0; 0; 0;
    0; 0; 0; 0; 0; 0; 0; 0; 0; 0; 0; 0];
  (* State 204 *) [0; 0; 0; 0; 0; 0; 0; 0; 0; 0; 0; 0; 0; 0; 0; 0; 0; 0; 0; 0; 0; 0; 0; 0; 0; 0; 0; 0; 0; 0; 0; 0; 0;
    0; 0; 0; 0; 0; 0; 0; 0; 0; 0; 0; 0; 0; 0; 0; 0; 0; 0; 0; 0; 0; 0; 0; 0; 0; 0; 0; 0; 0; 0; 0; 0; 0; 0; 0; 0; 0; 0;
    0; 0; 0; 0; 0; 0; 0; 0; 0; 0; 0; 0];
  (* State 205 *) [0; 0; 0; 0; 0; 0; 0; 0; 0; 0; 0; 0; 0; 0; 0; 0; 0; 0; 0; 0; 0; 0; 0; 0; 0; 0; 0; 0; 0; 0; 0; 0; 0;
    0; 0; 0; 0; 0; 0; 0; 0; 0; 0; 0; 0; 0; 0; 0; 0; 0; 0; 0; 0; 0; 0; 0; 0; 0; 0; 0; 0; 0; 0; 0; 0; 0; 0; 0; 0; 0; 0;
    0; 0; 0; 0; 0; 0; 0; 0; 0; 0; 0; 0];
  (* State 206 *) [0; 0; (-151); 0; 0; (-151); 0; 0; 0; 0; 0; 0; 0; 0; 0; 0; 0; 0; 0; 0; 0; 0; 0; 0; 0; 0; 0; 0; 0; 0;
    0; 0; 0; 0; (-151); 0; 0; (-151); 0; (-151); 0; 0; 0; 0; (-151); 0; 0; 0; 0; 0; 0; (-151); 0; 0; 0; 0; 0; 0; 0;
    (-151); 0; 0; 0; 0; 0; 0; 0; 0; 0; 0; (-151); 0; 0; 0; 0; (-151); 0; 0; 0; 0; 0; 0; 0];
  (* State 207 *) [0; 0; (-161); 0; 0; 0; 0; 0; 0; 0; 0; 0; 0; 0; 0; 0; 0; 0; 0; 0; 0; 0; 0; 0; 0; 0; 0; 0; 0; 0; 0;
    0; 0; 0; (-161); 0; 0; 0; 0; 0; 0; 0; 0; 0; (-161); 0; 0; 0; 0; 0; 0; (-161); 0; 0; 0; 0; 0; 0; 0; (-161); 0; 0;
    0; 0; 0; 0; 0; 0; 0; 0; (-161); 0; 0; 0; 0; 0; 0; 0; 0; 0; 0; 0; 0];
  (* State 208 *) [0; 0; 0; 0; 0; 0; 0; 0; 0; 0; 0; 0; 0; 0; 0; 0; 0; 0; 0; 0; 97; 0; 0; 0; 0; 0; 0; 0; 0; 0; 0; 0; 0;
    0; 0; 0; 0; 0; 0; 0; 0; 0; 0; 0; 0; 0; 0; 0; 0; 0; 0; 0; 0; 0; 0; 0; 0; 0; 0; 0; 0; 0; 0; 0; 0; 0; 0; 0; 0; 0; 0;
    0; 0; 0; 0; 0; 0; 0; 0; 0; 0; 0; 0];
  (* State 209 *) [(-147); (-147); (-147); (-147); (-147); (-147); (-147); 98; (-147); (-147); (-147); (-147); (-147);
    (-147); 0; (-147); (-147); (-147); 0; (-147); 0; 0; (-147); (-147); 0; 0; 0; 0; 0; (-147); 0; 0; (-147); (-147);
    (-147); 0; 0; (-147); (-147); (-147); (-147); (-147); (-147); 0; (-147); 0; (-147); (-147); (-147); (-147);
    (-147); (-147); (-147); (-147); (-147); 0; (-147); (-147); (-147); (-147); 0; 0; 0; (-147); (-147); (-147); 0;
    (-147); 0; 0; (-147); 0; (-147); (-147); (-147); (-147); 0; (-147); 0; (-147); 0; 0; 0];
  (* State 210 *) [0; 0; 0; 0; 0; (-19); 0; 0; 0; 0; 0; 0; 0; 0; 0; 0; 0; 0; 0; 0; 0; 0; 0; 0; 0; 0; 0; 0; 0; 0; 0; 0;
    0; 0; 0; 0; 0; 0; 0; 0; 0; 0; 0; 0; 0; 0; 0; 0; 0; 0; 0; 0; 0; 0; 0; 0; 0; 0; 0; 0; 0; 0; 0; 0; 0; 0; 0; 0; 0; 0;
    0; 0; 0; 0; 0; (-19); 0; 0; 0; 0; 0; 0; 0];
  (* State 211 *) [0; 0; (-83); 0; 0; (-83); 0; 0; 0; 0; 0; (-83); 0; 0; 0; 0; 0; 0; 0; 0; 0; 0; 0; 0; 0; 0; 0; 0; 0;
    0; 0; 0; 0; 0; 0; 0; 0; 0; 0; 0; 0; 0; 0; 0; 0; 0; 0; 0; 0; 0; 0; 0; 0; 0; 0; 0; 0; 0; 0; 0; 0; 0; 0; 0; 0; 0; 0;
    0; 0; 0; 0; 0; 0; 0; 0; 0; 0; 0; 0; 0; 0; 0; 0];
  (* State 212 *) [0; 0; 0; 0; 0; 100; 0; 0; 0; 0; 0; 101; 0; 0; 0; 0; 0; 0; 0; 0; 0; 0; 0; 0; 0; 0; 0; 0; 0; 0; 0; 0;
    0; 0; 0; 0; 0; 0; 0; 0; 0; 0; 0; 0; 0; 0; 0; 0; 0; 0; 0; 0; 0; 0; 0; 0; 0; 0; 0; 0; 0; 0; 0; 0; 0; 0; 0; 0; 0; 0;
    0; 0; 0; 0; 0; 0; 0; 0; 0; 0; 0; 0; 0];
  (* State 213 *) [0; 0; (-210); 0; 0; (-210); 0; 0; 0; 0; 0; 0; 0; 0; 0; 0; 0; 0; 0; 0; 0; 0; 0; 0; 0; 0; 0; 0; 0; 0;
    0; 0; 0; 0; (-210); 0; 0; 0; 0; 0; 0; 0; 0; 0; (-210); 0; 0; 0; 0; 0; 0; (-210); 0; 0; 0; 0; 0; 0; 0; (-210); 0;
    0; 0; 0; 0; 0; 0; 0; 0; 0; (-210); 0; 0; 0; 0; 0; 0; 0; 0; 0; 0; 0; 0];
  (* State 214 *) [0; 0; (-208); 0; 0; (-208); 0; 0; 0; 0; 0; 0; 0; 0; 0; 0; 0; 0; 0; 0; 0; 0; 0; 0; 0; 0; 0; 0; 0; 0;
    0; 0; 0; 0; (-208); 0; 0; 0; 0; 0; 0; 0; 0; 0; (-208); 0; 0; 0; 0; 0; 0; (-208); 0; 0; 0; 0; 0; 0; 0; (-208); 0;
    0; 0; 0; 0; 0; 0; 0; 0; 0; (-208); 0; 0; 0; 0; 0; 0; 0; 0; 0; 0; 0; 0];
  (* State 215 *) [0; 0; 0; 0; 0; (-33); 0; 0; 0; 0; 0; 0; 0; 0; 0; 0; 0; 0; 0; 0; 0; 0; 0; 0; 0; 0; 0; 0; (-33); 0;
    0; 0; 0; 0; 0; 0; 0; 0; 0; 0; 0; 0; 0; (-33); 0; 0; 0; 0; 0; 0; 0; 0; 0; 0; 0; 0; 0; 0; 0; 0; 0; 0; 0; 0; (-33);
    0; 0; 0; 0; 0; 0; (-33); 0; (-33); 0; 0; 0; 0; 0; 0; 0; 0; 0];
  (* State 216 *) [0; 0; 263; 0; 0; 100; 0; 0; 0; 0; 0; 0; 0; 0; 0; 0; 0; 0; 0; 0; 0; 0; 0; 0; 0; 0; 0; 0; 0; 0; 0; 0;
    0; 0; 0; 0; 0; 0; 0; 0; 0; 0; 0; 0; 0; 0; 0; 0; 0; 0; 0; 0; 0; 0; 0; 0; 0; 0; 0; 0; 0; 0; 0; 0; 0; 0; 0; 0; 0; 0;
    0; 0; 0; 0; 0; 0; 0; 0; 0; 0; 0; 0; 0];
  (* State 217 *) [(-13); 0; (-13); 58; (-13); (-13); (-13); 0; 59; (-13); (-13); (-13); (-13); (-13); 0; (-13);
    (-13); (-13); 0; (-13); 0; 0; (-13); (-13); 0; 0; 0; 0; 0; (-13); 0; 0; (-13); (-13); (-13); 0; 0; (-13); (-13);
    (-13); (-13); (-13); (-13); 0; (-13); 0; (-13); (-13); (-13); (-13); (-13); (-13); (-13); (-13); (-13); 0; (-13);
    0; (-13); (-13); 0; 0; 0; (-13); 0; 0; 0; (-13); 0; 0; (-13); 0; 0; 0; (-13); (-13); 0; (-13); 0; (-13); 0; 0; 0];
  (* State 218 *) [(-14); 0; (-14); 58; (-14); (-14); (-14); 0; 59; (-14); (-14); (-14); (-14); (-14); 0; (-14);
    (-14); (-14); 0; (-14); 0; 0; (-14); (-14); 0; 0; 0; 0; 0; (-14); 0; 0; (-14); (-14); (-14); 0; 0; (-14); (-14);
    (-14); (-14); (-14); (-14); 0; (-14); 0; (-14); (-14); (-14); (-14); (-14); (-14); (-14); (-14); (-14); 0; (-14);
    0; (-14); (-14); 0; 0; 0; (-14); 0; 0; 0; (-14); 0; 0; (-14); 0; 0; 0; (-14); (-14); 0; (-14); 0; (-14); 0; 0; 0];
  (* State 219 *) [(-15); 0; (-15); 58; (-15); (-15); (-15); 0; 59; (-15); (-15); (-15); (-15); (-15); 0; (-15);
    (-15); (-15); 0; (-15); 0; 0; (-15); (-15); 0; 0; 0; 0; 0; (-15); 0; 0; (-15); (-15); (-15); 0; 0; (-15); (-15);
    (-15); (-15); (-15); (-15); 0; (-15); 0; (-15); (-15); (-15); (-15); (-15); (-15); (-15); (-15); (-15); 0; (-15);
    0; (-15); (-15); 0; 0; 0; (-15); 0; 0; 0; (-15); 0; 0; (-15); 0; 0; 0; (-15); (-15); 0; (-15); 0; (-15); 0; 0; 0];
  (* State 220 *) [0; 0; (-17); 0; 0; (-17); 0; 0; 0; 0; 0; 0; 0; 0; 0; (-17); (-17); (-17); 0; 0; 0; 0; (-17); (-17);
    0; 0; 0; 0; 0; (-17); 0; 0; (-17); (-17); (-17); 0; 0; (-17); (-17); (-17); (-17); 0; (-17); 0; (-17); 0; 0; 0;
    (-17); (-17); 0; (-17); (-17); 0; 0; 0; (-17); 0; (-17); (-17); 0; 0; 0; (-17); 0; 0; 0; (-17); 0; 0; (-17); 0; 0;
    0; (-17); (-17); 0; 0; 0; (-17); 0; 0; 0];
  (* State 221 *) [(-36); 0; (-36); 0; 43; (-36); 44; 0; 0; (-36); (-36); (-36); (-36); (-36); 0; (-36); (-36); (-36);
    0; (-36); 0; 0; (-36); (-36); 0; 0; 0; 0; 0; (-36); 0; 0; (-36); (-36); (-36); 0; 0; (-36); (-36); (-36); (-36);
    (-36); (-36); 0; (-36); 0; (-36); (-36); (-36); (-36); (-36); (-36); (-36); (-36); (-36); 0; (-36); 0; (-36);
    (-36); 0; 0; 0; (-36); 0; 0; 0; (-36); 0; 0; (-36); 0; 0; 0; (-36); (-36); 0; 45; 0; (-36); 0; 0; 0];
  (* State 222 *) [(-37); 0; (-37); 0; 43; (-37); 44; 0; 0; (-37); (-37); (-37); (-37); (-37); 0; (-37); (-37); (-37);
    0; (-37); 0; 0; (-37); (-37); 0; 0; 0; 0; 0; (-37); 0; 0; (-37); (-37); (-37); 0; 0; (-37); (-37); (-37); (-37);
    (-37); (-37); 0; (-37); 0; (-37); (-37); (-37); (-37); (-37); (-37); (-37); (-37); (-37); 0; (-37); 0; (-37);
    (-37); 0; 0; 0; (-37); 0; 0; 0; (-37); 0; 0; (-37); 0; 0; 0; (-37); (-37); 0; 45; 0; (-37); 0; 0; 0];
  (* State 223 *) [(-39); 0; (-39); 0; 43; (-39); 44; 0; 0; (-39); (-39); (-39); (-39); (-39); 0; (-39); (-39); (-39);
    0; (-39); 0; 0; (-39); (-39); 0; 0; 0; 0; 0; (-39); 0; 0; (-39); (-39); (-39); 0; 0; (-39); (-39); (-39); (-39);
    (-39); (-39); 0; (-39); 0; (-39); (-39); (-39); (-39); (-39); (-39); (-39); (-39); (-39); 0; (-39); 0; (-39);
    (-39); 0; 0; 0; (-39); 0; 0; 0; (-39); 0; 0; (-39); 0; 0; 0; (-39); (-39); 0; 45; 0; (-39); 0; 0; 0];
  (* State 224 *) [(-35); 0; (-35); 0; 43; (-35); 44; 0; 0; (-35); (-35); (-35); (-35); (-35); 0; (-35); (-35); (-35);
    0; (-35); 0; 0; (-35); (-35); 0; 0; 0; 0; 0; (-35); 0; 0; (-35); (-35); (-35); 0; 0; (-35); (-35); (-35); (-35);
    (-35); (-35); 0; (-35); 0; (-35); (-35); (-35); (-35); (-35); (-35); (-35); (-35); (-35); 0; (-35); 0; (-35);
    (-35); 0; 0; 0; (-35); 0; 0; 0; (-35); 0; 0; (-35); 0; 0; 0; (-35); (-35); 0; 45; 0; (-35); 0; 0; 0];
  (* State 225 *) [(-38); 0; (-38); 0; 43; (-38); 44; 0; 0; (-38); (-38); (-38); (-38); (-38); 0; (-38); (-38); (-38);
    0; (-38); 0; 0; (-38); (-38); 0; 0; 0; 0; 0; (-38); 0; 0; (-38); (-38); (-38); 0; 0; (-38); (-38); (-38); (-38);
    (-38); (-38); 0; (-38); 0; (-38); (-38); (-38); (-38); (-38); (-38); (-38); (-38); (-38); 0; (-38); 0; (-38);
    (-38); 0; 0; 0; (-38); 0; 0; 0; (-38); 0; 0; (-38); 0; 0; 0; (-38); (-38); 0; 45; 0; (-38); 0; 0; 0];
  (* State 226 *) [(-40); 0; (-40); 0; 43; (-40); 44; 0; 0; (-40); (-40); (-40); (-40); (-40); 0; (-40); (-40); (-40);
    0; (-40); 0; 0; (-40); (-40); 0; 0; 0; 0; 0; (-40); 0; 0; (-40); (-40); (-40); 0; 0; (-40); (-40); (-40); (-40);
    (-40); (-40); 0; (-40); 0; (-40); (-40); (-40); (-40); (-40); (-40); (-40); (-40); (-40); 0; (-40); 0; (-40);
    (-40); 0; 0; 0; (-40); 0; 0; 0; (-40); 0; 0; (-40); 0; 0; 0; (-40); (-40); 0; 45; 0; (-40); 0; 0; 0];
  (* State 227 *) [0; 0; 0; 0; 43; 0; 44; 0; 0; 0; 0; 0; 0; 0; 0; 102; 0; 0; 0; 0; 0; 0; 0; 0; 0; 0; 0; 0; 0; 0; 0; 0;
    0; 0; 0; 0; 0; 0; 0; 0; 0; 0; 0; 0; 0; 0; 0; 0; 0; 0; 0; 0; 0; 0; 0; 0; 0; 0; 0; 0; 0; 0; 0; 0; 0; 0; 0; 0; 0; 0;
    0; 0; 0; 0; 0; 0; 0; 45; 0; 0; 0; 0; 0];
  (* State 228 *) [(-53); 0; (-53); 0; 0; (-53); 0; 0; 0; (-53); (-53); (-53); (-53); (-53); 0; (-53); (-53); (-53);
    0; (-53); 0; 0; (-53); (-53); 0; 0; 0; 0; 0; (-53); 0; 0; (-53); (-53); (-53); 0; 0; (-53); (-53); (-53); (-53);
    (-53); (-53); 0; (-53); 0; (-53); (-53); (-53); (-53); (-53); (-53); (-53); (-53); (-53); 0; (-53); 0; (-53);
    (-53); 0; 0; 0; (-53); 0; 0; 0; (-53); 0; 0; (-53); 0; 0; 0; (-53); (-53); 0; 0; 0; (-53); 0; 0; 0];
  (* State 229 *) [0; 0; 0; 0; 0; 0; 0; 0; 0; 0; 0; 0; 0; 0; 0; 0; 0; 0; 0; 0; 0; 0; 0; 0; 0; 0; 0; 0; 0; 0; 0; 0; 0;
    0; 0; 0; 0; 0; 0; 0; 0; 0; 0; 0; 0; 0; 0; 0; 0; 0; 0; 0; 0; 0; 0; 268; 0; 0; 0; 0; 0; 0; 0; 0; 0; 0; 0; 0; 0; 0;
    0; 0; 0; 0; 0; 0; 0; 0; 0; 0; 0; 0; 0];
  (* State 230 *) [(-41); 0; (-41); 0; 0; (-41); 0; 0; 0; (-41); (-41); (-41); (-41); (-41); 0; (-41); (-41); (-41);
    0; (-41); 0; 0; (-41); (-41); 0; 0; 0; 0; 0; (-41); 0; 0; (-41); (-41); (-41); 0; 0; (-41); (-41); (-41); (-41);
    (-41); (-41); 0; (-41); 0; (-41); (-41); (-41); (-41); (-41); (-41); (-41); (-41); (-41); 0; (-41); 0; (-41);
    (-41); 0; 0; 0; (-41); 0; 0; 0; (-41); 0; 0; (-41); 0; 0; 0; (-41); (-41); 0; 0; 0; (-41); 0; 0; 0];
  (* State 231 *) [(-43); 0; (-43); 0; 43; (-43); 44; 0; 0; (-43); (-43); (-43); (-43); (-43); 0; (-43); (-43); (-43);
    0; (-43); 0; 0; (-43); (-43); 0; 0; 0; 0; 0; (-43); 0; 0; (-43); (-43); (-43); 0; 0; (-43); (-43); (-43); (-43);
    (-43); (-43); 0; (-43); 0; (-43); (-43); (-43); (-43); (-43); (-43); (-43); (-43); (-43); 0; (-43); 0; (-43);
    (-43); 0; 0; 0; (-43); 0; 0; 0; (-43); 0; 0; (-43); 0; 0; 0; (-43); (-43); 0; 45; 0; (-43); 0; 0; 0];
  (* State 232 *) [(-46); 0; (-46); 0; 0; (-46); 0; 0; 0; (-46); (-46); (-46); (-46); (-46); 0; (-46); (-46); (-46);
    0; (-46); 0; 0; (-46); (-46); 0; 0; 0; 0; 0; (-46); 0; 0; (-46); (-46); (-46); 0; 0; (-46); (-46); (-46); (-46);
    (-46); (-46); 0; (-46); 0; (-46); (-46); (-46); (-46); (-46); (-46); (-46); (-46); (-46); 0; (-46); 0; (-46);
    (-46); 0; 0; 0; (-46); 0; 0; 0; (-46); 0; 0; (-46); 0; 0; 0; (-46); (-46); 0; 0; 0; (-46); 0; 0; 0];
  (* State 233 *) [0; 0; (-106); 0; 0; 0; 0; 0; 0; 0; 0; 0; 0; 0; 0; 0; 0; 0; 0; 0; 0; 0; 0; 0; 0; 0; 0; 0; 0; 0; 0;
    0; 0; 0; 0; 0; 0; 0; 0; 0; 0; 0; 0; 0; 0; 0; 0; 0; 0; 0; 0; 0; 0; 0; 0; 0; 0; 0; 0; 0; 0; 0; 0; 0; 0; 0; 0; 0; 0;
    0; 0; 0; 0; 0; 0; 0; 0; 0; 0; 0; 0; 0; 0];
  (* State 234 *) [0; 0; (-107); 0; 0; 0; 0; 0; 0; 0; 0; 0; 0; 0; 0; 0; 0; 0; 0; 0; 0; 0; 0; 0; 0; 0; 0; 0; 0; 0; 0;
    0; 0; 0; 0; 0; 0; 0; 0; 0; 0; 0; 0; 0; 0; 0; 0; 0; 0; 0; 0; 0; 0; 0; 0; 0; 0; 0; 0; 0; 0; 0; 0; 0; 0; 0; 0; 0; 0;
    0; 0; 0; 0; 0; 0; 0; 0; 0; 0; 0; 0; 0; 0];
  (* State 235 *) [(-120); 0; (-120); (-120); (-120); (-120); (-120); 0; (-120); (-120); (-120); (-120); (-120);
    (-120); 0; (-120); (-120); (-120); 0; (-120); 0; 0; (-120); (-120); 0; 0; 0; 0; 0; (-120); 0; 0; (-120); (-120);
    (-120); 0; 0; (-120); (-120); (-120); (-120); (-120); (-120); 0; (-120); 0; (-120); (-120); (-120); (-120);
    (-120); (-120); (-120); (-120); (-120); 0; (-120); 0; (-120); (-120); 0; 0; 0; (-120); 0; 0; 0; (-120); 0; 0;
    (-120); 0; 0; 0; (-120); (-120); 0; (-120); 0; (-120); 0; 0; 0];
  (* State 236 *) [(-121); 0; (-121); (-121); (-121); (-121); (-121); 0; (-121); (-121); (-121); (-121); (-121);
    (-121); 0; (-121); (-121); (-121); 0; (-121); 0; 0; (-121); (-121); 0; 0; 0; 0; 0; (-121); 0; 0; (-121); (-121);
    (-121); 0; 0; (-121); (-121); (-121); (-121); (-121); (-121); 0; (-121); 0; (-121); (-121); (-121); (-121);
    (-121); (-121); (-121); (-121); (-121); 0; (-121); 0; (-121); (-121); 0; 0; 0; (-121); 0; 0; 0; (-121); 0; 0;
    (-121); 0; 0; 0; (-121); (-121); 0; (-121); 0; (-121); 0; 0; 0];
  (* State 237 *) [0; 0; (-128); 0; 0; (-128); 0; 0; 0; 0; 0; 0; 0; 0; 0; 46; (-128); (-128); 0; 0; 0; 0; (-128);
    (-128); 0; 0; 0; 0; 0; (-128); 0; 0; (-128); (-128); (-128); 0; 0; (-128); (-128); (-128); (-128); 0; (-128); 0;
    (-128); 0; 0; 0; (-128); (-128); 0; (-128); (-128); 0; 0; 0; (-128); 0; (-128); (-128); 0; 0; 0; (-128); 0; 0; 0;
    (-128); 0; 0; (-128); 0; 0; 0; (-128); (-128); 0; 0; 0; (-128); 0; 0; 0];
  (* State 238 *) [(-142); 0; (-142); (-142); (-142); (-142); (-142); 0; (-142); (-142); (-142); (-142); (-142);
    (-142); 0; (-142); (-142); (-142); 0; (-142); 0; 0; (-142); (-142); 0; 0; 0; 0; 0; (-142); 0; 0; (-142); (-142);
    (-142); 0; 0; (-142); (-142); (-142); (-142); (-142); (-142); 0; (-142); 0; (-142); (-142); (-142); (-142);
    (-142); (-142); (-142); (-142); (-142); 0; (-142); 0; (-142); (-142); 0; 0; 0; (-142); 0; 0; 0; (-142); 0; 0;
    (-142); 0; 0; 0; (-142); (-142); 0; (-142); 0; (-142); 0; 0; 0];
  (* State 239 *) [(-143); 0; (-143); (-143); (-143); (-143); (-143); 0; (-143); (-143); (-143); (-143); (-143);
    (-143); 0; (-143); (-143); (-143); 0; (-143); 0; 0; (-143); (-143); 0; 0; 0; 0; 0; (-143); 0; 0; (-143); (-143);
    (-143); 0; 0; (-143); (-143); (-143); (-143); (-143); (-143); 0; (-143); 0; (-143); (-143); (-143); (-143);
    (-143); (-143); (-143); (-143); (-143); 0; (-143); 0; (-143); (-143); 0; 0; 0; (-143); 0; 0; 0; (-143); 0; 0;
    (-143); 0; 0; 0; (-143); (-143); 0; (-143); 0; (-143); 0; 0; 0];
  (* State 240 *) [0; 0; 0; 0; 0; 0; 0; 0; 0; 0; 0; 0; 0; 0; 0; 0; 0; 0; 0; 0; 0; 0; 0; 0; 0; 0; 0; 0; 0; 0; 0; 0; 0;
    273; 0; 0; 0; 0; 0; 0; 0; 0; 0; 0; 0; 0; 0; 0; 0; 0; 0; 0; 0; 0; 0; 0; 0; 0; 0; 0; 0; 0; 0; 0; 0; 0; 0; 0; 0; 0;
    0; 0; 0; 0; 0; 0; 0; 0; 0; 0; 0; 0; 0];
  (* State 241 *) [0; 0; 0; 0; 0; 0; 0; 0; 0; 0; 0; 0; 0; 0; 0; 0; 0; 0; 0; 0; 0; 0; 0; 0; 0; 0; 0; 0; 0; 0; 0; 0;
    (-220); (-220); 0; 0; 0; 0; 0; 0; 0; 0; 0; 0; 0; 0; 0; 0; 0; 0; 0; 0; 0; 0; 0; 0; 0; 0; 0; 0; 0; 0; 0; 0; 0; 0; 0;
    0; 0; 0; 0; 0; 0; 0; (-220); 0; 0; 0; 0; 0; 0; 0; 0];
  (* State 242 *) [0; 0; (-26); 0; 0; (-26); 0; 0; 0; 0; 0; 0; 0; 0; 0; (-26); (-26); (-26); 0; 0; 0; 0; (-26); (-26);
    0; 0; 0; 0; 0; (-26); 0; 0; (-26); (-26); (-26); 0; 0; (-26); (-26); (-26); (-26); 0; (-26); 0; (-26); 0; 0; 0;
    (-26); (-26); 0; (-26); (-26); 0; 0; 0; (-26); 0; (-26); (-26); 0; 0; 0; (-26); 0; 0; 0; (-26); 0; 0; (-26); 0; 0;
    0; (-26); (-26); 0; 0; 0; (-26); 0; 0; 0];
  (* State 243 *) [0; 0; 0; 0; 0; 0; 0; 0; 0; 0; 0; 0; 0; 0; 0; 0; 0; 0; 0; 0; 0; 0; 0; 0; 0; 0; 0; 0; 0; 0; 0; 0; 0;
    0; 0; 0; 0; 0; 0; 0; 0; 0; 0; 0; 0; 0; 0; 0; 0; 0; 0; 0; 0; 0; 0; 0; 0; 0; 0; 0; 0; 0; 0; 0; 0; 0; 0; 104; 0; 0;
    0; 0; 0; 0; 0; 0; 0; 0; 0; 0; 0; 0; 0];
  (* State 244 *) [0; 0; (-139); 0; 0; (-139); 0; 0; 0; 0; 0; 0; 0; 0; 0; 0; 0; 0; 0; 0; 0; 0; 0; 0; 0; 0; 0; 0; 0; 0;
    0; 0; 0; 0; 0; 0; 0; 0; 0; 0; 0; 0; 0; 0; 0; 0; 0; 0; 0; 0; 0; (-139); 0; 0; 0; 0; 0; 0; 0; 0; 0; 0; 0; 0; 0; 0;
    0; 0; 0; 0; 0; 0; 0; 0; 0; 0; 0; 0; 0; 0; 0; 0; 0];
  (* State 245 *) [0; 0; (-135); 0; 0; (-135); 0; 0; 0; 0; 0; 0; 0; 0; 0; 0; 0; 0; 0; 0; 0; 0; 0; 0; 0; 0; 0; 0; 0; 0;
    0; 0; 0; 0; 0; 0; 0; 0; 0; 0; 0; 0; 0; 0; 0; 0; 0; 0; 0; 0; 0; (-135); 0; 0; 0; 0; 0; 0; 0; 0; 0; 0; 0; 0; 0; 0;
    0; 0; 0; 0; 0; 0; 0; 0; 0; 0; 0; 0; 0; 0; 0; 0; 0];
  (* State 246 *) [0; 0; (-137); 0; 0; (-137); 0; 0; 0; 0; 0; 0; 0; 0; 0; 0; 0; 0; 0; 0; 0; 0; 0; 0; 0; 0; 0; 0; 0; 0;
    0; 0; 0; 0; 0; 0; 0; 0; 0; 0; 0; 0; 0; 0; 0; 0; 0; 0; 0; 0; 0; (-137); 0; 0; 0; 0; 0; 0; 0; 0; 0; 0; 0; 0; 0; 0;
    0; 0; 0; 0; 0; 0; 0; 0; 0; 0; 0; 0; 0; 0; 0; 0; 0];
  (* State 247 *) [0; 0; 0; 0; 0; 0; 0; 0; 0; 0; 0; 0; 0; 0; 0; 0; 0; 0; 0; 0; 0; 0; 0; 0; 0; 0; 0; 0; 0; 0; 0; 0; 0;
    0; 0; 0; 0; 0; 0; 0; 0; 0; 0; 0; 0; 0; 0; 0; 0; 0; 0; 0; 0; 0; 0; 0; 0; 0; 0; 0; 0; 0; 0; 0; 0; 0; 0; 0; 0; 0; 0;
    0; 0; 0; 0; 0; 0; 0; 0; 0; 0; 0; 0];
  (* State 248 *) [0; 0; 0; 0; 0; 0; 0; 0; 0; 0; 0; 0; 0; 0; 0; 0; 0; 0; 0; 0; 0; 0; 0; 0; 0; 0; 0; 0; 0; 0; 0; 0; 0;
    0; 0; 0; 0; 0; 0; 0; 0; 0; 0; 0; 0; 0; 0; 0; 0; 0; 0; 0; 0; 0; 0; 0; 0; 0; 0; 0; 0; 0; 0; 0; 0; 0; 0; 0; 0; 0; 0;
    0; 0; 0; 0; 0; 0; 0; 0; 0; 0; 0; 0];
  (* State 249 *) [0; 0; 0; 0; 0; 0; 0; 179; 0; 0; 0; 0; 0; 0; 0; 0; 0; 0; 0; 0; 0; 0; 0; 0; 0; 0; 0; 0; 0; 0; 0; 0;
    0; 0; 0; 0; 0; 0; 0; 0; 0; 0; 0; 0; 0; 0; 0; 0; 0; 0; 0; 0; 0; 0; 0; 0; 0; 0; 0; 0; 0; 0; 0; 0; 0; 0; 0; 0; 0; 0;
    0; 0; 0; 0; 0; 0; 0; 0; 0; 0; 0; 0; 0];
  (* State 250 *) [0; 0; (-221); 0; 0; 0; 0; 0; 0; 0; 0; 0; 0; 0; 0; 0; 0; 0; 0; 0; 0; 0; 0; 0; 0; 0; 0; 0; 0; 0; 0;
    0; 0; 0; (-221); 0; 0; 0; 0; (-221); 0; 0; 0; 0; (-221); 0; 0; 0; 0; 0; 0; (-221); 0; 0; 0; 0; 0; 0; 0; (-221); 0;
    0; 0; 0; 0; 0; 0; 0; 0; 0; (-221); 0; 0; 0; 0; 0; 0; 0; 0; 0; 0; 0; 0];
  (* State 251 *) [0; 0; 0; 0; 0; 0; 0; 0; 0; 0; 0; 0; 0; 0; 0; 0; 0; 0; 0; 0; 0; 0; 0; 0; 0; 0; 0; 0; 0; 0; 0; 0; 0;
    0; 0; 0; 0; 0; 0; 0; 0; 0; 0; 0; 0; 0; 0; 0; 0; 0; 0; 0; 0; 0; 0; 0; 0; 0; 0; 0; 0; 0; 0; 0; 0; 0; 0; 0; 0; 0; 0;
    0; 0; 0; 0; 0; 0; 0; 0; 0; 0; 0; 0];
  (* State 252 *) [0; 0; 281; 0; 0; 100; 0; 0; 0; 0; 0; 0; 0; 0; 0; 0; 0; 0; 0; 0; 0; 0; 0; 0; 0; 0; 0; 0; 0; 0; 0; 0;
    0; 0; 0; 0; 0; 0; 0; 0; 0; 0; 0; 0; 0; 0; 0; 0; 0; 0; 0; 0; 0; 0; 0; 0; 0; 0; 0; 0; 0; 0; 0; 0; 0; 0; 0; 0; 0; 0;
    0; 0; 0; 0; 0; 0; 0; 0; 0; 0; 0; 0; 0];
  (* State 253 *) [0; 0; (-150); 0; 0; (-150); 0; 0; 0; 0; 0; 0; 0; 0; 0; 0; 0; 0; 0; 0; 0; 0; 0; 0; 0; 0; 0; 0; 0; 0;
    0; 0; 0; 0; (-150); 0; 0; (-150); 0; (-150); 0; 0; 0; 0; (-150); 0; 0; 0; 0; 0; 0; (-150); 0; 0; 0; 0; 0; 0; 0;
    (-150); 0; 0; 0; 0; 0; 0; 0; 0; 0; 0; (-150); 0; 0; 0; 0; (-150); 0; 0; 0; 0; 0; 0; 0];
  (* State 254 *) [0; 0; (-152); 0; 0; (-152); 0; 0; 0; 0; 0; 0; 0; 0; 0; 0; 0; 0; 0; 0; 0; 0; 0; 0; 0; 0; 0; 0; 0; 0;
    0; 0; 0; 0; (-152); 0; 0; (-152); 0; (-152); 0; 0; 0; 0; (-152); 0; 0; 0; 0; 0; 0; (-152); 0; 0; 0; 0; 0; 0; 0;
    (-152); 0; 0; 0; 0; 0; 0; 0; 0; 0; 0; (-152); 0; 0; 0; 0; (-152); 0; 0; 0; 0; 0; 0; 0];
  (* State 255 *) [0; 0; (-154); 0; 0; (-154); 0; 0; 0; 0; 0; 0; 0; 0; 0; 0; 0; 0; 0; 0; 0; 0; 0; 0; 0; 0; 0; 0; 0; 0;
    0; 0; 0; 0; (-154); 0; 0; (-154); 0; (-154); 0; 0; 0; 0; (-154); 0; 0; 0; 0; 0; 0; (-154); 0; 0; 0; 0; 0; 0; 0;
    (-154); 0; 0; 0; 0; 0; 0; 0; 0; 0; 0; (-154); 0; 0; 0; 0; (-154); 0; 0; 0; 0; 0; 0; 0];
  (* State 256 *) [0; 0; (-165); 0; 0; 0; 0; 0; 0; 0; 0; 0; 0; 0; 0; 0; 0; 0; 0; 0; 0; 0; 0; 0; 0; 0; 0; 0; 0; 0; 0;
    0; 0; 0; (-165); 0; 0; 0; 0; 0; 0; 0; 0; 0; (-165); 0; 0; 0; 0; 0; 0; (-165); 0; 0; 0; 0; 0; 0; 0; (-165); 0; 0;
    0; 0; 0; 0; 0; 0; 0; 0; (-165); 0; 0; 0; 0; 0; 0; 0; 0; 0; 0; 0; 0];
  (* State 257 *) [0; 0; (-160); 0; 0; 0; 0; 0; 0; 0; 0; 0; 0; 0; 0; 0; 0; 0; 0; 0; 0; 0; 0; 0; 0; 0; 0; 0; 0; 0; 0;
    0; 0; 0; (-160); 0; 0; 0; 0; 0; 0; 0; 0; 0; (-160); 0; 0; 0; 0; 0; 0; (-160); 0; 0; 0; 0; 0; 0; 0; (-160); 0; 0;
    0; 0; 0; 0; 0; 0; 0; 0; (-160); 0; 0; 0; 0; 0; 0; 0; 0; 0; 0; 0; 0];
  (* State 258 *) [0; 0; (-77); 0; 0; 108; 0; 0; 0; 0; 0; 0; 0; 0; 0; 0; 0; 0; 0; 0; 0; 0; 0; 0; 0; 0; 0; 0; 0; 0; 0;
    0; 0; 0; (-77); 0; 0; 0; 0; (-77); 0; 0; 0; 0; (-77); 0; 0; 0; 0; 0; 0; (-77); 0; 0; 0; 0; 0; 0; 0; (-77); 0; 0;
    0; 0; 0; 0; 0; 0; 0; 0; (-77); 0; 0; 0; 0; (-77); 0; 0; 0; 0; 0; 0; 0];
  (* State 259 *) [0; 0; (-196); 0; 0; (-196); 0; 0; 0; 0; 0; 0; 0; 0; 0; 0; 0; 0; 0; 0; 0; 0; 0; (-196); 0; 0; 0; 0;
    0; 0; 0; 0; 0; 0; (-196); 0; 0; 0; (-196); (-196); 0; 0; (-196); 0; (-196); 0; 0; 0; (-196); (-196); 0; (-196);
    (-196); 0; 0; 0; 0; 0; 0; (-196); 0; 0; 0; (-196); 0; 0; 0; 0; 0; 0; (-196); 0; 0; 0; 0; (-196); 0; 0; 0; 0; 0; 0;
    0];
  (* State 260 *) [0; 0; 0; 0; 0; 0; 0; 0; 0; 0; 0; 0; 0; 0; 0; 0; 0; 0; 0; 0; 0; 0; 0; 0; 0; 0; 0; 0; 0; 0; 0; 0; 0;
    0; 0; 0; 0; 0; 0; 0; 0; 0; 0; 0; 0; 0; 0; 0; 0; 0; 0; 0; 0; 0; 0; 0; 0; 0; 0; 0; 0; 0; 0; 0; 0; 0; 0; 0; 0; 0; 0;
    0; 0; 0; 0; 0; 0; 0; 0; 0; 0; 0; 0];
  (* State 261 *) [0; 0; (-76); 0; 0; (-76); 0; 0; 0; 0; 0; 0; 0; 0; 0; 0; 0; 0; 0; 0; 0; 0; 0; 0; 0; 0; 0; 0; 0; 0;
    0; 0; 0; 0; (-76); 0; 0; 0; 0; 0; (-76); 0; 0; 0; (-76); 0; 0; 0; 0; 0; 0; (-76); 0; 0; 0; 0; 0; 0; 0; (-76); 0;
    0; 0; 0; 0; 0; 0; 0; 0; 0; (-76); 0; 0; 0; 0; 0; 0; 0; 0; 0; 0; 0; 0];
  (* State 262 *) [0; 0; 0; 0; 0; 0; 0; 0; 0; 0; 0; 0; 0; 0; 0; 0; 298; 0; 0; 0; 0; 0; 0; 0; 0; 0; 0; 0; 0; 0; 0; 0;
    0; 0; 0; 0; 0; 0; 0; 0; 0; 0; 0; 0; 0; 0; 0; 0; 0; 0; 0; 0; 0; 0; 0; 0; 0; 0; 0; 0; 0; 0; 0; 0; 0; 0; 0; 0; 0; 0;
    0; 0; 0; 0; 0; 0; 0; 0; 0; 0; 0; 0; 0];
  (* State 263 *) [0; 0; 299; 0; 0; 0; 0; 0; 0; 0; 0; 0; 0; 0; 0; 0; 0; 0; 0; 0; 0; 0; 0; 0; 0; 0; 0; 0; 0; 0; 0; 0;
    0; 0; 0; 0; 0; 0; 0; 0; 0; 0; 0; 0; 0; 0; 0; 0; 0; 0; 0; 0; 0; 0; 0; 0; 0; 0; 0; 0; 0; 0; 0; 0; 0; 0; 0; 0; 0; 0;
    0; 0; 0; 0; 0; 0; 0; 0; 0; 0; 0; 0; 0];
  (* State 264 *) [0; 0; 301; 0; 0; 80; 0; 0; 0; 0; 0; 0; 0; 0; 0; 0; 0; 0; 0; 0; 0; 0; 0; 0; 0; 0; 0; 0; 0; 0; 0; 0;
    0; 0; 0; 0; 0; 0; 0; 0; 0; 0; 0; 0; 0; 0; 0; 0; 0; 0; 0; 0; 0; 0; 0; 0; 0; 0; 0; 0; 0; 0; 0; 0; 0; 0; 0; 0; 0; 0;
    0; 0; 0; 0; 0; 0; 0; 0; 0; 0; 0; 0; 0];
  (* State 265 *) [0; 0; 302; 0; 0; 0; 0; 0; 0; 0; 0; 0; 0; 0; 0; 0; 0; 0; 0; 0; 0; 0; 0; 0; 0; 0; 0; 0; 0; 0; 0; 0;
    0; 0; 0; 0; 0; 0; 0; 0; 0; 0; 0; 0; 0; 0; 0; 0; 0; 0; 0; 0; 0; 0; 0; 0; 0; 0; 0; 0; 0; 0; 0; 0; 0; 0; 0; 0; 0; 0;
    0; 0; 0; 0; 0; 0; 0; 0; 0; 0; 0; 0; 0];
  (* State 266 *) [(-47); 0; (-47); 0; 0; (-47); 0; 0; 0; (-47); (-47); (-47); (-47); (-47); 0; (-47); (-47); (-47);
    0; (-47); 0; 0; (-47); (-47); 0; 0; 0; 0; 0; (-47); 0; 0; (-47); (-47); (-47); 0; 0; (-47); (-47); (-47); (-47);
    (-47); (-47); 0; (-47); 0; (-47); (-47); (-47); (-47); (-47); (-47); (-47); (-47); (-47); 0; (-47); 0; (-47);
    (-47); 0; 0; 0; (-47); 0; 0; 0; (-47); 0; 0; (-47); 0; 0; 0; (-47); (-47); 0; 0; 0; (-47); 0; 0; 0];
  (* State 267 *) [(-42); 0; (-42); 0; 0; (-42); 0; 0; 0; (-42); (-42); (-42); (-42); (-42); 0; (-42); (-42); (-42);
    0; (-42); 0; 0; (-42); (-42); 0; 0; 0; 0; 0; (-42); 0; 0; (-42); (-42); (-42); 0; 0; (-42); (-42); (-42); (-42);
    (-42); (-42); 0; (-42); 0; (-42); (-42); (-42); (-42); (-42); (-42); (-42); (-42); (-42); 0; (-42); 0; (-42);
    (-42); 0; 0; 0; (-42); 0; 0; 0; (-42); 0; 0; (-42); 0; 0; 0; (-42); (-42); 0; 0; 0; (-42); 0; 0; 0];
  (* State 268 *) [0; 0; 0; 0; 43; 0; 44; 0; 0; 0; 0; 0; 0; 0; 0; 110; 0; 0; 0; 0; 0; 0; 0; 0; 0; 0; 0; 0; 0; 0; 0; 0;
    0; 0; 0; 0; 0; 0; 0; 0; 0; 0; 0; 0; 0; 0; 0; 0; 0; 0; 0; 0; 0; 0; 0; 0; 0; 0; 0; 0; 0; 0; 0; 0; 0; 0; 0; 0; 0; 0;
    0; 0; 0; 0; 0; 0; 0; 45; 0; 0; 0; 0; 0];
  (* State 269 *) [(-54); 0; (-54); 0; 0; (-54); 0; 0; 0; (-54); (-54); (-54); (-54); (-54); 0; (-54); (-54); (-54);
    0; (-54); 0; 0; (-54); (-54); 0; 0; 0; 0; 0; (-54); 0; 0; (-54); (-54); (-54); 0; 0; (-54); (-54); (-54); (-54);
    (-54); (-54); 0; (-54); 0; (-54); (-54); (-54); (-54); (-54); (-54); (-54); (-54); (-54); 0; (-54); 0; (-54);
    (-54); 0; 0; 0; (-54); 0; 0; 0; (-54); 0; 0; (-54); 0; 0; 0; (-54); (-54); 0; 0; 0; (-54); 0; 0; 0];
  (* State 270 *) [0; 0; 0; 0; 0; 0; 0; 0; 0; 0; 0; 0; 0; 0; 0; 0; 0; 0; 0; 0; 0; 0; 0; 0; 0; 0; 0; 0; 0; 0; 0; 0; 0;
    306; 0; 0; 0; 0; 0; 0; 0; 0; 0; 0; 0; 0; 0; 0; 0; 0; 0; 0; 0; 0; 0; 0; 0; 0; 0; 0; 0; 0; 0; 0; 0; 0; 0; 0; 0; 0;
    0; 0; 0; 0; 0; 0; 0; 0; 0; 0; 0; 0; 0];
  (* State 271 *) [0; 0; (-25); 0; 0; (-25); 0; 0; 0; 0; 0; 0; 0; 0; 0; (-25); (-25); (-25); 0; 0; 0; 0; (-25); (-25);
    0; 0; 0; 0; 0; (-25); 0; 0; (-25); (-25); (-25); 0; 0; (-25); (-25); (-25); (-25); 0; (-25); 0; (-25); 0; 0; 0;
    (-25); (-25); 0; (-25); (-25); 0; 0; 0; (-25); 0; (-25); (-25); 0; 0; 0; (-25); 0; 0; 0; (-25); 0; 0; (-25); 0; 0;
    0; (-25); (-25); 0; 0; 0; (-25); 0; 0; 0];
  (* State 272 *) [0; 0; (-24); 0; 0; (-24); 0; 0; 0; 0; 0; 0; 0; 0; 0; (-24); (-24); (-24); 0; 0; 0; 0; (-24); (-24);
    0; 0; 0; 0; 0; (-24); 0; 0; (-24); (-24); (-24); 0; 0; (-24); (-24); (-24); (-24); 0; (-24); 0; (-24); 0; 0; 0;
    (-24); (-24); 0; (-24); (-24); 0; 0; 0; (-24); 0; (-24); (-24); 0; 0; 0; (-24); 0; 0; 0; (-24); 0; 0; (-24); 0; 0;
    0; (-24); (-24); 0; 0; 0; (-24); 0; 0; 0];
  (* State 273 *) [0; 0; 0; 0; 0; 0; 0; 0; 0; 0; 0; 0; 0; 0; 0; 0; 0; 0; 0; 0; 0; 0; 0; 0; 0; 0; 0; 0; 0; 0; 0; 0; 0;
    (-69); 0; 0; 0; 0; 0; 0; 0; 0; 0; 0; 0; 0; 0; 0; 0; 0; 0; 0; 0; 0; 0; 0; 0; 0; 0; 0; 0; 0; 0; 0; 0; 0; 0; 0; 0; 0;
    0; 0; 0; 0; 0; 0; 0; 0; 0; 0; 0; 0; 0];
  (* State 274 *) [0; 0; (-138); 0; 0; (-138); 0; 0; 0; 0; 0; 0; 0; 0; 0; 0; 0; 0; 0; 0; 0; 0; 0; 0; 0; 0; 0; 0; 0; 0;
    0; 0; 0; 0; 0; 0; 0; 0; 0; 0; 0; 0; 0; 0; 0; 0; 0; 0; 0; 0; 0; (-138); 0; 0; 0; 0; 0; 0; 0; 0; 0; 0; 0; 0; 0; 0;
    0; 0; 0; 0; 0; 0; 0; 0; 0; 0; 0; 0; 0; 0; 0; 0; 0];
  (* State 275 *) [0; 0; (-132); 0; 0; (-132); 0; 0; 0; 0; 0; 0; 0; 0; 0; 0; 0; (-132); 0; 0; 0; 0; 0; 0; 0; 0; 0; 0;
    0; (-132); 0; 0; 0; 0; 0; 0; 0; 0; 0; 0; 0; 0; 0; 0; 0; 0; 0; 0; 0; 0; 0; (-132); 0; 0; 0; 0; 0; 0; 0; 0; 0; 0; 0;
    0; 0; 0; 0; 0; 0; 0; 0; 0; 0; 0; 0; 0; 0; 0; 0; 0; 0; 0; 0];
  (* State 276 *) [0; 0; (-141); 0; 0; (-141); 0; 0; 0; 0; 0; 0; 0; 0; 0; 0; 0; 0; 0; 0; 0; 0; 0; 0; 0; 0; 0; 0; 0; 0;
    0; 0; 0; 0; 0; 0; 0; 0; 0; 0; 0; 0; 0; 0; 0; 0; 0; 0; 0; 0; 0; (-141); 0; 0; 0; 0; 0; 0; 0; 0; 0; 0; 0; 0; 0; 0;
    0; 0; 0; 0; 0; 0; 0; 0; 0; 0; 0; 0; 0; 0; 0; 0; 0];
  (* State 277 *) [0; 0; 0; 0; 0; 0; 0; 0; 0; 0; 0; 0; 0; 0; 0; 0; 0; 0; 0; 0; 0; 0; 0; 0; 0; 0; 0; 0; 0; 0; 0; 0; 0;
    0; 0; 0; 0; 0; 0; 0; 0; 0; 0; 0; 0; 0; 0; 0; 0; 0; 0; 0; 0; 0; 0; 0; 0; 0; 0; 0; 0; 0; 0; 0; 0; 0; 0; 0; 0; 0; 0;
    0; 0; 0; 0; 0; 0; 0; 0; 0; 0; 0; 0];
  (* State 278 *) [0; 0; 0; 0; 0; 0; 0; 0; 0; 0; 0; 0; 0; 0; 0; 0; 0; 0; 0; 0; 0; 0; 0; 0; 0; 0; 0; 0; 0; 0; 0; 0; 0;
    0; 0; 0; 0; 0; 0; 0; 0; 0; 0; 0; 0; 0; 0; 0; 0; 0; 0; 0; 0; 0; 0; 0; 0; 0; 0; 0; 0; 0; 0; 0; 0; 0; 0; 0; 0; 0; 0;
    0; 0; 0; 0; 0; 0; 0; 0; 0; 0; 0; 0];
  (* State 279 *) [0; 0; 0; 0; 0; 0; 0; 0; 0; 0; 0; 0; 0; 0; 0; 0; 0; 0; 0; 0; 0; 0; 0; 0; 0; 0; 0; 0; 0; 0; 0; 0; 0;
    0; 0; 0; 0; 0; 0; 0; 0; 0; 0; 0; 0; 0; 0; 0; 0; 0; 0; 0; 0; 0; 0; 0; 0; 0; 0; 0; 0; 0; 0; 0; 0; 0; 0; 0; 0; 0; 0;
    0; 0; 0; 0; 0; 0; 0; 0; 0; 0; 0; 0];
  (* State 280 *) [0; 0; 0; 0; 0; 0; 0; 0; 0; 0; 0; 0; 0; 0; 0; 0; 0; 0; 0; 0; 0; 0; 0; 0; 0; 0; 0; 0; 0; 0; 0; 0; 0;
    0; 0; 0; 0; 0; 0; 0; 0; 0; 0; 0; 0; 0; 0; 0; 0; 0; 0; 0; 0; 0; 0; 0; 0; 0; 0; 0; 0; 0; 0; 0; (-27); 0; 0; 0; 0; 0;
    0; 0; 0; (-27); 0; 0; 0; 0; 0; 0; 0; 0; 0];
  (* State 281 *) [0; 0; (-164); 0; 0; 0; 0; 0; 0; 0; 0; 0; 0; 0; 0; 0; 0; 0; 0; 0; 0; 0; 0; 0; 0; 0; 0; 0; 0; 0; 0;
    0; 0; 0; (-164); 0; 0; 0; 0; 0; 0; 0; 0; 0; (-164); 0; 0; 0; 0; 0; 0; (-164); 0; 0; 0; 0; 0; 0; 0; (-164); 0; 0;
    0; 0; 0; 0; 0; 0; 0; 0; (-164); 0; 0; 0; 0; 0; 0; 0; 0; 0; 0; 0; 0];
  (* State 282 *) [0; 0; (-193); 0; 0; (-193); 0; 0; 0; 0; 0; 0; 0; 0; 0; 0; 0; 0; 0; 0; 0; 0; 0; (-193); 0; 0; 0; 0;
    0; 0; 0; 0; 0; 0; (-193); 0; 0; 0; (-193); (-193); 0; 0; (-193); 0; (-193); 0; 0; 0; (-193); (-193); 0; (-193);
    (-193); 0; 0; 0; 0; (-193); 0; (-193); 0; 0; 0; (-193); 0; 0; 0; 0; 0; 0; (-193); 0; (-193); 0; 0; (-193); 0; 0;
    0; 0; 0; 0; 0];
  (* State 283 *) [0; 0; (-203); 0; 0; (-203); 0; 0; 0; 0; 0; 0; 0; 0; 0; 0; 0; 0; 0; 0; 0; 0; 0; (-203); 0; 0; 0; 0;
    0; 0; 0; 0; 0; 0; (-203); 0; 0; 0; (-203); (-203); 0; 0; (-203); 0; (-203); 0; 0; 0; (-203); (-203); 0; (-203);
    (-203); 0; 0; 0; 0; (-203); 0; (-203); 0; 0; 0; (-203); 0; 0; 0; 0; 0; 0; (-203); 0; (-203); 0; 0; (-203); 0; 0;
    0; 0; 0; 0; 0];
  (* State 284 *) [0; 0; 0; 0; 0; 0; 0; 0; 0; 0; 0; 0; 0; 0; 0; 0; 0; 0; 0; 0; 0; 0; 0; 0; 0; 0; 0; 0; 0; 0; 0; 0; 0;
    0; 0; 0; 0; 0; 0; 0; 0; 0; 0; 0; 0; 0; 0; 0; 309; 0; 0; 0; 0; 0; 0; 0; 0; 0; 0; 0; 0; 0; 0; 0; 0; 0; 0; 0; 0; 0;
    0; 0; 0; 0; 0; 0; 0; 0; 0; 0; 0; 0; 0];
  (* State 285 *) [0; 0; 0; 0; 0; 0; 0; 0; 0; 0; 0; 0; 0; 0; 0; 0; 0; 0; 0; 0; 0; 0; 0; 0; 0; 0; 0; 0; 0; 0; 0; 0; 0;
    0; 0; 0; 0; 0; 0; 0; 0; 0; 0; 0; 0; 0; 0; 0; 310; 0; 0; 0; 0; 0; 0; 0; 0; 0; 0; 0; 0; 0; 0; 0; 0; 0; 0; 0; 0; 0;
    0; 0; 0; 0; 0; 0; 0; 0; 0; 0; 0; 0; 0];
  (* State 286 *) [0; 0; 0; 0; 0; 0; 0; 0; 0; 0; 0; 0; 0; 0; 0; 0; 0; 0; 0; 0; 0; 0; 0; 0; 0; 0; 0; 0; 0; 0; 0; 0; 0;
    0; 0; 0; 0; 0; 0; 0; 0; 0; 0; 0; 0; 0; 0; 0; (-101); 0; 0; 0; 0; 0; 0; 0; 0; 0; 0; 0; 311; 0; 0; 0; 0; 0; 0; 0; 0;
    0; 0; 0; 0; 0; 0; 0; 0; 0; 0; 0; 0; 0; 0];
  (* State 287 *) [0; 0; 0; 0; 0; 0; 0; 0; 0; 0; 0; 0; 0; 0; 0; 0; 0; 0; 0; 0; 0; 0; 0; 0; 0; 0; 0; 0; 0; 0; 0; 0; 0;
    0; 0; 0; 0; 0; 0; 0; 0; 0; 0; 0; 0; 0; 0; 0; (-102); 0; 0; 0; 0; 0; 0; 0; 0; 0; 0; 0; 0; 0; 0; 0; 0; 0; 0; 0; 0;
    0; 0; 0; 0; 0; 0; 0; 0; 0; 0; 0; 0; 0; 0];
  (* State 288 *) [0; (-92); 0; 0; 0; 0; 0; 0; 0; 0; 0; 0; 0; 0; 0; 0; 0; 0; 0; 0; 0; 0; 0; 0; 0; 0; 0; 0; 0; 0; 0; 0;
    0; 0; 0; 0; 0; 0; 0; 0; 0; 0; 0; 0; 0; 0; 0; 0; 0; 0; 0; 0; 0; 0; 0; 0; 0; 0; 0; 0; 0; 0; 0; 0; 0; 0; 0; 0; 0; 0;
    0; 0; 0; 0; 0; 0; 0; 0; 0; (-92); 0; 0; 0];
  (* State 289 *) [0; 0; 0; 0; 0; 0; 0; 0; 0; 0; 0; 0; 0; 0; 0; 0; 0; 0; 0; 0; 0; 0; 0; 0; 0; 0; 0; 0; 0; 0; 0; 0; 0;
    0; 0; 0; 0; 0; 0; 0; 0; 0; 0; 0; 0; 0; 0; 0; (-97); 0; 0; 0; 0; 0; 0; 0; 0; 0; 0; 0; 312; 0; 0; 0; 0; 0; 0; 0; 0;
    0; 0; 0; 0; 0; 0; 0; 0; 0; 0; 0; 0; 0; 0];
  (* State 290 *) [0; 0; 0; 0; 0; 0; 0; 0; 0; 0; 0; 0; 0; 0; 0; 0; 0; 0; 0; 0; 0; 0; 0; 0; 0; 0; 0; 0; 0; 0; 0; 0; 0;
    0; 0; 0; 0; 0; 0; 0; 0; 0; 0; 0; 0; 0; 0; 0; (-99); 0; 0; 0; 0; 0; 0; 0; 0; 0; 0; 0; 315; 0; 0; 0; 0; 0; 0; 0; 0;
    0; 0; 0; 0; 0; 0; 0; 0; 0; 0; 0; 0; 0; 0];
  (* State 291 *) [0; 0; 113; 0; 0; 0; 0; 0; 0; 0; 0; 0; 0; 0; 0; 0; 0; 0; 0; 0; 0; 0; 0; 0; 0; 0; 0; 0; 0; 0; 0; 0;
    0; 0; 0; 0; 0; 0; 0; 0; 0; 0; 0; 0; 0; 0; 0; 0; 0; 0; 0; 0; 0; 0; 0; 0; 0; 0; 0; 0; 0; 0; 0; 0; 0; 0; 0; 0; 0; 0;
    0; 0; 0; 0; 0; 0; 0; 0; 0; 0; 0; 0; 0];
  (* State 292 *) [0; 0; (-78); 0; 0; 80; 0; 0; 0; 0; 0; 0; 0; 0; 0; 0; 0; 0; 0; 0; 0; 0; 0; 0; 0; 0; 0; 0; 0; 0; 0;
    0; 0; 0; (-78); 0; 0; 0; 0; 0; 114; 0; 0; 0; (-78); 0; 0; 0; 0; 0; 0; (-78); 0; 0; 0; 0; 0; 0; 0; (-78); 0; 0; 0;
    0; 0; 0; 0; 0; 0; 0; (-78); 0; 0; 0; 0; 0; 0; 0; 0; 0; 0; 0; 0];
  (* State 293 *) [(-148); (-148); (-148); (-148); (-148); (-148); (-148); 0; (-148); (-148); (-148); (-148); (-148);
    (-148); 0; (-148); (-148); (-148); 0; (-148); 0; 0; (-148); (-148); 0; 0; 0; 0; 0; (-148); 0; 0; (-148); (-148);
    (-148); 0; 0; (-148); (-148); (-148); (-148); (-148); (-148); 0; (-148); 0; (-148); (-148); (-148); (-148);
    (-148); (-148); (-148); (-148); (-148); 0; (-148); (-148); (-148); (-148); 0; 0; 0; (-148); (-148); (-148); 0;
    (-148); 0; 0; (-148); 0; (-148); (-148); (-148); (-148); 0; (-148); 0; (-148); 0; 0; 0];
  (* State 294 *) [0; 0; 0; 0; 0; (-20); 0; 0; 0; 0; 0; 0; 0; 0; 0; 0; 0; 0; 0; 0; 0; 0; 0; 0; 0; 0; 0; 0; 0; 0; 0; 0;
    0; 0; 0; 0; 0; 0; 0; 0; 0; 0; 0; 0; 0; 0; 0; 0; 0; 0; 0; 0; 0; 0; 0; 0; 0; 0; 0; 0; 0; 0; 0; 0; 0; 0; 0; 0; 0; 0;
    0; 0; 0; 0; 0; (-20); 0; 0; 0; 0; 0; 0; 0];
  (* State 295 *) [0; 0; (-84); 0; 0; (-84); 0; 0; 0; 0; 0; (-84); 0; 0; 0; 0; 0; 0; 0; 0; 0; 0; 0; 0; 0; 0; 0; 0; 0;
    0; 0; 0; 0; 0; 0; 0; 0; 0; 0; 0; 0; 0; 0; 0; 0; 0; 0; 0; 0; 0; 0; 0; 0; 0; 0; 0; 0; 0; 0; 0; 0; 0; 0; 0; 0; 0; 0;
    0; 0; 0; 0; 0; 0; 0; 0; 0; 0; 0; 0; 0; 0; 0; 0];
  (* State 296 *) [0; 0; 0; 0; 0; (-18); 0; 0; 0; 0; 0; 0; 0; 0; 0; 0; 0; 0; 0; 0; 0; 0; 0; 0; 0; 0; 0; 0; 0; 0; 0; 0;
    0; 0; 0; 0; 0; 0; 0; 0; 0; 0; 0; 0; 0; 0; 0; 0; 0; 0; 0; 0; 0; 0; 0; 0; 0; 0; 0; 0; 0; 0; 0; 0; 0; 0; 0; 0; 0; 0;
    0; 0; 0; 0; 0; (-18); 0; 0; 0; 0; 0; 0; 0];
  (* State 297 *) [0; 115; 0; 0; 0; 0; 0; 0; 0; 0; 0; 0; 0; 0; 0; 0; 0; 0; 0; 0; 0; 0; 0; 0; 0; 0; 0; 0; 0; 0; 0; 0;
    0; 0; 0; 0; 0; 0; 0; 0; 0; 0; 0; 0; 0; 0; 0; 0; 0; 0; 0; 0; 0; 0; 0; 0; 0; 0; 0; 0; 0; 0; 0; 0; 0; 0; 0; 0; 0; 0;
    0; 0; 0; 0; 0; 0; 0; 0; 0; 0; 0; 0; 0];
  (* State 298 *) [0; 0; 0; 0; 0; (-30); 0; 0; 0; 0; 0; 0; 0; 0; 0; 0; 0; 0; 0; 0; 0; 0; 0; 0; 0; 0; 0; 0; (-30); 0;
    0; 0; 0; 0; 0; 0; 0; 0; 0; 0; 0; 0; 0; (-30); 0; 0; 0; 0; 0; 0; 0; 0; 0; 0; 0; 0; 0; 0; 0; 0; 0; 0; 0; 0; (-30);
    0; 0; 0; 0; 0; 0; (-30); 0; (-30); 0; 0; 0; 0; 0; 0; 0; 0; 0];
  (* State 299 *) [(-55); 0; (-55); 0; 43; (-55); 44; 0; 0; (-55); (-55); (-55); (-55); (-55); 0; (-55); (-55); (-55);
    0; (-55); 0; 0; (-55); (-55); 0; 0; 0; 0; 0; (-55); 0; 0; (-55); (-55); (-55); 0; 0; (-55); (-55); (-55); (-55);
    (-55); (-55); 0; (-55); 0; (-55); (-55); (-55); (-55); (-55); (-55); (-55); (-55); (-55); 0; (-55); 0; (-55);
    (-55); 0; 0; 0; (-55); 0; 0; 0; (-55); 0; 0; (-55); 0; 0; 0; (-55); (-55); 0; 45; 0; (-55); 0; 0; 0];
  (* State 300 *) [(-49); 0; (-49); 0; 0; (-49); 0; 0; 0; (-49); (-49); (-49); (-49); (-49); 0; (-49); (-49); (-49);
    0; (-49); 0; 0; (-49); (-49); 0; 0; 0; 0; 0; (-49); 0; 0; (-49); (-49); (-49); 0; 0; (-49); (-49); (-49); (-49);
    (-49); (-49); 0; (-49); 0; (-49); (-49); (-49); (-49); (-49); (-49); (-49); (-49); (-49); 0; (-49); 0; (-49);
    (-49); 0; 0; 0; (-49); 0; 0; 0; (-49); 0; 0; (-49); 0; 0; 0; (-49); (-49); 0; 0; 0; (-49); 0; 0; 0];
  (* State 301 *) [(-51); 0; (-51); 0; 0; (-51); 0; 0; 0; (-51); (-51); (-51); (-51); (-51); 0; (-51); (-51); (-51);
    0; (-51); 0; 0; (-51); (-51); 0; 0; 0; 0; 0; (-51); 0; 0; (-51); (-51); (-51); 0; 0; (-51); (-51); (-51); (-51);
    (-51); (-51); 0; (-51); 0; (-51); (-51); (-51); (-51); (-51); (-51); (-51); (-51); (-51); 0; (-51); 0; (-51);
    (-51); 0; 0; 0; (-51); 0; 0; 0; (-51); 0; 0; (-51); 0; 0; 0; (-51); (-51); 0; 0; 0; (-51); 0; 0; 0];
  (* State 302 *) [0; 0; 318; 0; 0; 80; 0; 0; 0; 0; 0; 0; 0; 0; 0; 0; 0; 0; 0; 0; 0; 0; 0; 0; 0; 0; 0; 0; 0; 0; 0; 0;
    0; 0; 0; 0; 0; 0; 0; 0; 0; 0; 0; 0; 0; 0; 0; 0; 0; 0; 0; 0; 0; 0; 0; 0; 0; 0; 0; 0; 0; 0; 0; 0; 0; 0; 0; 0; 0; 0;
    0; 0; 0; 0; 0; 0; 0; 0; 0; 0; 0; 0; 0];
  (* State 303 *) [0; 0; 319; 0; 0; 0; 0; 0; 0; 0; 0; 0; 0; 0; 0; 0; 0; 0; 0; 0; 0; 0; 0; 0; 0; 0; 0; 0; 0; 0; 0; 0;
    0; 0; 0; 0; 0; 0; 0; 0; 0; 0; 0; 0; 0; 0; 0; 0; 0; 0; 0; 0; 0; 0; 0; 0; 0; 0; 0; 0; 0; 0; 0; 0; 0; 0; 0; 0; 0; 0;
    0; 0; 0; 0; 0; 0; 0; 0; 0; 0; 0; 0; 0];
  (* State 304 *) [(-48); 0; (-48); 0; 0; (-48); 0; 0; 0; (-48); (-48); (-48); (-48); (-48); 0; (-48); (-48); (-48);
    0; (-48); 0; 0; (-48); (-48); 0; 0; 0; 0; 0; (-48); 0; 0; (-48); (-48); (-48); 0; 0; (-48); (-48); (-48); (-48);
    (-48); (-48); 0; (-48); 0; (-48); (-48); (-48); (-48); (-48); (-48); (-48); (-48); (-48); 0; (-48); 0; (-48);
    (-48); 0; 0; 0; (-48); 0; 0; 0; (-48); 0; 0; (-48); 0; 0; 0; (-48); (-48); 0; 0; 0; (-48); 0; 0; 0];
  (* State 305 *) [0; 0; (-23); 0; 0; (-23); 0; 0; 0; 0; 0; 0; 0; 0; 0; (-23); (-23); (-23); 0; 0; 0; 0; (-23); (-23);
    0; 0; 0; 0; 0; (-23); 0; 0; (-23); (-23); (-23); 0; 0; (-23); (-23); (-23); (-23); 0; (-23); 0; (-23); 0; 0; 0;
    (-23); (-23); 0; (-23); (-23); 0; 0; 0; (-23); 0; (-23); (-23); 0; 0; 0; (-23); 0; 0; 0; (-23); 0; 0; (-23); 0; 0;
    0; (-23); (-23); 0; 0; 0; (-23); 0; 0; 0];
  (* State 306 *) [0; 0; 0; 0; 0; 0; 0; 0; 0; 0; 0; 0; 0; 0; 0; 0; 0; 0; 0; 0; 0; 0; 0; 0; 0; 0; 0; 0; 0; 0; 0; 0;
    (-218); (-218); 0; 0; 0; 0; 0; 0; 0; 0; 0; 0; 0; 0; 0; 0; 0; 0; 0; 0; 0; 0; 0; 0; 0; 0; 0; 0; 0; 0; 0; 0; 0; 0; 0;
    0; 0; 0; 0; 0; 0; 0; (-218); 0; 0; 0; 0; 0; 0; 0; 0];
  (* State 307 *) [0; 0; (-192); 0; 0; (-192); 0; 0; 0; 0; 0; 0; 0; 0; 0; 0; 0; 0; 0; 0; 0; 0; 0; (-192); 0; 0; 0; 0;
    0; 0; 0; 0; 0; 0; (-192); 0; 0; 0; (-192); (-192); 0; 0; (-192); 0; (-192); 0; 0; 0; (-192); (-192); 0; (-192);
    (-192); 0; 0; 0; 0; (-192); 0; (-192); 0; 0; 0; (-192); 0; 0; 0; 0; 0; 0; (-192); 0; (-192); 0; 0; (-192); 0; 0;
    0; 0; 0; 0; 0];
  (* State 308 *) [0; (-91); 0; 0; 0; 0; 0; 0; 0; 0; 0; 0; 0; 0; 0; 0; 0; 0; 0; 0; 0; 0; 0; 0; 0; 0; 0; 0; 0; 0; 0; 0;
    0; 0; 0; 0; 0; 0; 0; 0; 0; 0; 0; 0; 0; 0; 0; 0; 0; 0; 0; 0; 0; 0; 0; 0; 0; 0; 0; 0; 0; 0; 0; 0; 0; 0; 0; 0; 0; 0;
    0; 0; 0; 0; 0; 0; 0; 0; 0; (-91); 0; 0; 0];
  (* State 309 *) [0; (-95); 0; 0; 0; 0; 0; 0; 0; 0; 0; 0; 0; 0; 0; 0; 0; 0; 0; 0; 0; 0; 0; 0; 0; 0; 0; 0; 0; 0; 0; 0;
    0; 0; 0; 0; 0; 0; 0; 0; 0; 0; 0; 0; 0; 0; 0; 0; 0; 0; 0; 0; 0; 0; 0; 0; 0; 0; 0; 0; 0; 0; 0; 0; 0; 0; 0; 0; 0; 0;
    0; 0; 0; 0; 0; 0; 0; 0; 0; (-95); 0; 0; 0];
  (* State 310 *) [0; 0; 0; 0; 0; 0; 0; 0; 0; 0; 0; 0; 0; 0; 0; 0; 0; 0; 0; 0; 0; 0; 0; 0; 0; 0; 0; 0; 0; 0; 0; 0; 0;
    0; 0; 0; 0; 0; 0; 0; 0; 0; 0; 0; 0; 0; 0; 0; (-100); 0; 0; 0; 0; 0; 0; 0; 0; 0; 0; 0; 0; 0; 0; 0; 0; 0; 0; 0; 0;
    0; 0; 0; 0; 0; 0; 0; 0; 0; 0; 0; 0; 0; 0];
  (* State 311 *) [0; 0; 0; 0; 0; 0; 0; 0; 0; 0; 0; 0; 0; 0; 0; 0; 0; 0; 0; 0; 0; 0; 0; 0; 0; 0; 0; 0; 0; 0; 0; 0; 0;
    0; 0; 0; 0; 0; 0; 0; 0; 0; 0; 0; 0; 0; 0; 0; (-96); 0; 0; 0; 0; 0; 0; 0; 0; 0; 0; 0; 0; 0; 0; 0; 0; 0; 0; 0; 0; 0;
    0; 0; 0; 0; 0; 0; 0; 0; 0; 0; 0; 0; 0];
  (* State 312 *) [0; 0; 0; 0; 0; 0; 0; 0; 0; 0; 0; 0; 0; 0; 0; 0; 0; 0; 0; 0; 0; 0; 0; 0; 0; 0; 0; 0; 0; 0; 0; 0; 0;
    0; 0; 0; 0; 0; 0; 0; 0; 0; 0; 0; 0; 0; 0; 0; 322; 0; 0; 0; 0; 0; 0; 0; 0; 0; 0; 0; 0; 0; 0; 0; 0; 0; 0; 0; 0; 0;
    0; 0; 0; 0; 0; 0; 0; 0; 0; 0; 0; 0; 0];
  (* State 313 *) [0; (-94); 0; 0; 0; 0; 0; 0; 0; 0; 0; 0; 0; 0; 0; 0; 0; 0; 0; 0; 0; 0; 0; 0; 0; 0; 0; 0; 0; 0; 0; 0;
    0; 0; 0; 0; 0; 0; 0; 0; 0; 0; 0; 0; 0; 0; 0; 0; 0; 0; 0; 0; 0; 0; 0; 0; 0; 0; 0; 0; 0; 0; 0; 0; 0; 0; 0; 0; 0; 0;
    0; 0; 0; 0; 0; 0; 0; 0; 0; (-94); 0; 0; 0];
  (* State 314 *) [0; 0; 0; 0; 0; 0; 0; 0; 0; 0; 0; 0; 0; 0; 0; 0; 0; 0; 0; 0; 0; 0; 0; 0; 0; 0; 0; 0; 0; 0; 0; 0; 0;
    0; 0; 0; 0; 0; 0; 0; 0; 0; 0; 0; 0; 0; 0; 0; (-98); 0; 0; 0; 0; 0; 0; 0; 0; 0; 0; 0; 0; 0; 0; 0; 0; 0; 0; 0; 0; 0;
    0; 0; 0; 0; 0; 0; 0; 0; 0; 0; 0; 0; 0];
  (* State 315 *) [0; 0; (-207); 0; 0; (-207); 0; 0; 0; 0; 0; 0; 0; 0; 0; 0; 0; 0; 0; 0; 0; 0; 0; (-207); 0; 0; 0; 0;
    0; 0; 0; 0; 0; 0; (-207); 0; 0; 0; (-207); (-207); 0; 0; (-207); 0; (-207); 0; 0; 0; (-207); (-207); 0; (-207);
    (-207); 0; 0; 0; 0; (-207); 0; (-207); 0; 0; 0; (-207); 0; 0; 0; 0; 0; 0; (-207); 0; (-207); 0; 0; (-207); 0; 0;
    0; 0; 0; 0; 0];
  (* State 316 *) [(-56); 0; (-56); 0; 43; (-56); 44; 0; 0; (-56); (-56); (-56); (-56); (-56); 0; (-56); (-56); (-56);
    0; (-56); 0; 0; (-56); (-56); 0; 0; 0; 0; 0; (-56); 0; 0; (-56); (-56); (-56); 0; 0; (-56); (-56); (-56); (-56);
    (-56); (-56); 0; (-56); 0; (-56); (-56); (-56); (-56); (-56); (-56); (-56); (-56); (-56); 0; (-56); 0; (-56);
    (-56); 0; 0; 0; (-56); 0; 0; 0; (-56); 0; 0; (-56); 0; 0; 0; (-56); (-56); 0; 45; 0; (-56); 0; 0; 0];
  (* State 317 *) [(-50); 0; (-50); 0; 0; (-50); 0; 0; 0; (-50); (-50); (-50); (-50); (-50); 0; (-50); (-50); (-50);
    0; (-50); 0; 0; (-50); (-50); 0; 0; 0; 0; 0; (-50); 0; 0; (-50); (-50); (-50); 0; 0; (-50); (-50); (-50); (-50);
    (-50); (-50); 0; (-50); 0; (-50); (-50); (-50); (-50); (-50); (-50); (-50); (-50); (-50); 0; (-50); 0; (-50);
    (-50); 0; 0; 0; (-50); 0; 0; 0; (-50); 0; 0; (-50); 0; 0; 0; (-50); (-50); 0; 0; 0; (-50); 0; 0; 0];
  (* State 318 *) [(-52); 0; (-52); 0; 0; (-52); 0; 0; 0; (-52); (-52); (-52); (-52); (-52); 0; (-52); (-52); (-52);
    0; (-52); 0; 0; (-52); (-52); 0; 0; 0; 0; 0; (-52); 0; 0; (-52); (-52); (-52); 0; 0; (-52); (-52); (-52); (-52);
    (-52); (-52); 0; (-52); 0; (-52); (-52); (-52); (-52); (-52); (-52); (-52); (-52); (-52); 0; (-52); 0; (-52);
    (-52); 0; 0; 0; (-52); 0; 0; 0; (-52); 0; 0; (-52); 0; 0; 0; (-52); (-52); 0; 0; 0; (-52); 0; 0; 0];
  (* State 319 *) [0; 0; (-197); 0; 0; (-197); 0; 0; 0; 0; 0; 0; 0; 0; 0; 0; 0; 0; 0; 0; 0; 0; 0; (-197); 0; 0; 0; 0;
    0; 0; 0; 0; 0; 0; (-197); 0; 0; 0; (-197); (-197); 0; 0; (-197); 0; (-197); 0; 0; 0; (-197); (-197); 0; (-197);
    (-197); 0; 0; 0; 0; 0; 0; (-197); 0; 0; 0; (-197); 0; 0; 0; 0; 0; 0; (-197); 0; 0; 0; 0; (-197); 0; 0; 0; 0; 0; 0;
    0];
  (* State 320 *) [0; 117; 0; 0; 0; 0; 0; 0; 0; 0; 0; 0; 0; 0; 0; 0; 0; 0; 0; 0; 0; 0; 0; 0; 0; 0; 0; 0; 0; 0; 0; 0;
    0; 0; 0; 0; 0; 0; 0; 0; 0; 0; 0; 0; 0; 0; 0; 0; 0; 0; 0; 0; 0; 0; 0; 0; 0; 0; 0; 0; 0; 0; 0; 0; 0; 0; 0; 0; 0; 0;
    0; 0; 0; 0; 0; 0; 0; 0; 0; 0; 0; 0; 0];
  (* State 321 *) [0; (-93); 0; 0; 0; 0; 0; 0; 0; 0; 0; 0; 0; 0; 0; 0; 0; 0; 0; 0; 0; 0; 0; 0; 0; 0; 0; 0; 0; 0; 0; 0;
    0; 0; 0; 0; 0; 0; 0; 0; 0; 0; 0; 0; 0; 0; 0; 0; 0; 0; 0; 0; 0; 0; 0; 0; 0; 0; 0; 0; 0; 0; 0; 0; 0; 0; 0; 0; 0; 0;
    0; 0; 0; 0; 0; 0; 0; 0; 0; (-93); 0; 0; 0];
  (* State 322 *) [0; 0; (-205); 0; 0; (-205); 0; 0; 0; 0; 0; 0; 0; 0; 0; 0; 0; 0; 0; 0; 0; 0; 0; (-205); 0; 0; 0; 0;
    0; 0; 0; 0; 0; 0; (-205); 0; 0; 0; (-205); (-205); 0; 0; (-205); 0; (-205); 0; 0; 0; (-205); (-205); 0; (-205);
    (-205); 0; 0; 0; 0; (-205); 0; (-205); 0; 0; 0; (-205); 0; 0; 0; 0; 0; 0; (-205); 0; (-205); 0; 0; (-205); 0; 0;
    0; 0; 0; 0; 0];
  (* State 323 *) [0; 0; (-79); 0; 0; 0; 0; 0; 0; 0; 0; 0; 0; 0; 0; 0; 0; 0; 0; 0; 0; 0; 0; 0; 0; 0; 0; 0; 0; 0; 0; 0;
    0; 0; (-79); 0; 0; 0; 0; 0; 0; 0; 0; 0; (-79); 0; 0; 0; 0; 0; 0; (-79); 0; 0; 0; 0; 0; 0; 0; (-79); 0; 0; 0; 0; 0;
    0; 0; 0; 0; 0; (-79); 0; 0; 0; 0; 0; 0; 0; 0; 0; 0; 0; 0];
  (* State 324 *) [0; 0; 327; 0; 0; 0; 0; 0; 0; 0; 0; 0; 0; 0; 0; 0; 0; 0; 0; 0; 0; 0; 0; 0; 0; 0; 0; 0; 0; 0; 0; 0;
    0; 0; 0; 0; 0; 0; 0; 0; 0; 0; 0; 0; 0; 0; 0; 0; 0; 0; 0; 0; 0; 0; 0; 0; 0; 0; 0; 0; 0; 0; 0; 0; 0; 0; 0; 0; 0; 0;
    0; 0; 0; 0; 0; 0; 0; 0; 0; 0; 0; 0; 0];
  (* State 325 *) [0; 0; (-89); 0; 0; (-89); 0; 0; 0; 0; 0; 0; 0; 0; 0; 0; 0; 0; 0; 0; 0; 0; 0; (-89); 0; 0; 0; 0; 0;
    0; 0; 0; 0; 0; (-89); 0; 0; 0; (-89); (-89); 0; 0; (-89); 0; (-89); 0; 0; 0; (-89); (-89); 0; (-89); (-89); 0; 0;
    0; 0; 0; 0; (-89); 0; 0; 0; (-89); 0; 0; 0; 0; 0; 0; (-89); 0; 0; 0; 0; (-89); 0; 0; 0; 0; 0; 0; 0];
  (* State 326 *) [0; 0; 0; 0; 0; (-31); 0; 0; 0; 0; 0; 0; 0; 0; 0; 0; 0; 0; 0; 0; 0; 0; 0; 0; 0; 0; 0; 0; (-31); 0;
    0; 0; 0; 0; 0; 0; 0; 0; 0; 0; 0; 0; 0; (-31); 0; 0; 0; 0; 0; 0; 0; 0; 0; 0; 0; 0; 0; 0; 0; 0; 0; 0; 0; 0; (-31);
    0; 0; 0; 0; 0; 0; (-31); 0; (-31); 0; 0; 0; 0; 0; 0; 0; 0; 0];
  (* State 327 *) [0; 0; 329; 0; 0; 100; 0; 0; 0; 0; 0; 0; 0; 0; 0; 0; 0; 0; 0; 0; 0; 0; 0; 0; 0; 0; 0; 0; 0; 0; 0; 0;
    0; 0; 0; 0; 0; 0; 0; 0; 0; 0; 0; 0; 0; 0; 0; 0; 0; 0; 0; 0; 0; 0; 0; 0; 0; 0; 0; 0; 0; 0; 0; 0; 0; 0; 0; 0; 0; 0;
    0; 0; 0; 0; 0; 0; 0; 0; 0; 0; 0; 0; 0];
  (* State 328 *) [0; 0; (-90); 0; 0; (-90); 0; 0; 0; 0; 0; 0; 0; 0; 0; 0; 0; 0; 0; 0; 0; 0; 0; (-90); 0; 0; 0; 0; 0;
    0; 0; 0; 0; 0; (-90); 0; 0; 0; (-90); (-90); 0; 0; (-90); 0; (-90); 0; 0; 0; (-90); (-90); 0; (-90); (-90); 0; 0;
    0; 0; 0; 0; (-90); 0; 0; 0; (-90); 0; 0; 0; 0; 0; 0; (-90); 0; 0; 0; 0; (-90); 0; 0; 0; 0; 0; 0; 0]].

(** src/sql/parser.rs:741-1400 [__EOF_ACTION]. *)
Definition sql_eof_actions : list Z := [
    0; (-181); 0; 0; 0; 0; 0; 0; 0; 0; (-180); 0; (-177); 0; 0; 0; 0; 0; 0; 0; 0; 0; 0; 0; 0; 0; 0; 0; 0; (-176); 0;
    0; (-66); 0; 0; (-149); (-163); 0; 0; 0; 0; 0; 0; 0; 0; 0; 0; 0; 0; 0; 0; 0; 0; 0; 0; 0; 0; 0; 0; 0; 0; 0; 0; 0;
    (-136); (-64); 0; 0; 0; 0; 0; 0; 0; 0; 0; (-167); (-162); 0; (-217); 0; 0; 0; 0; 0; 0; 0; (-136); 0; 0; 0;
    (-215); 0; (-166); (-204); (-198); 0; 0; 0; 0; 0; 0; 0; 0; 0; 0; 0; 0; 0; 0; 0; 0; (-199); (-206); 0; 0; 0; 0;
    (-185); (-189); (-186); (-188); (-169); (-187); (-224); (-182); (-190); 0; 0; 0; (-179); 0; 0; 0; 0; 0; 0;
    (-68); (-82); (-184); 0; 0; 0; (-146); 0; (-209); (-168); 0; 0; 0; (-170); (-178); (-34); (-127); (-58); (-57);
    (-122); (-105); (-144); (-12); (-16); (-110); (-72); (-211); (-145); (-111); (-119); (-114); (-113); (-115);
    (-112); (-126); (-124); (-125); (-191); 0; (-175); 0; 0; 0; (-67); (-146); (-153); (-156); (-155); (-75); 0; 0;
    0; (-44); 0; (-45); 0; 0; (-212); (-213); 0; (-116); (-123); (-117); (-118); (-140); (-129); (-174); (-65);
    (-183); (-88); (-151); (-161); 0; (-147); (-19); 0; 0; (-210); (-208); 0; 0; (-13); (-14); (-15); (-17); (-36);
    (-37); (-39); (-35); (-38); (-40); 0; (-53); 0; (-41); (-43); (-46); (-106); (-107); (-120); (-121); (-128);
    (-142); (-143); 0; 0; (-26); 0; (-139); (-135); (-137); (-63); (-87); (-22); (-221); (-86); 0; (-150); (-152);
    (-154); (-165); (-160); (-77); (-196); (-216); (-76); 0; 0; 0; 0; (-47); (-42); 0; (-54); 0; (-25); (-24); 0;
    (-138); (-132); (-141); (-85); (-214); (-21); 0; (-164); (-193); (-203); 0; 0; 0; 0; 0; 0; 0; 0; (-78); (-148);
    (-20); 0; (-18); 0; 0; (-55); (-49); (-51); 0; 0; (-48); (-23); 0; (-192); 0; 0; 0; 0; 0; 0; 0; (-207); (-56);
    (-50); (-52); (-197); 0; 0; (-205); (-79); 0; (-89); 0; 0; (-90)].

Local Open Scope nat_scope.

(** src/sql/parser.rs:1401-1654 [__goto]. *)
Definition sql_gotos : list (nat * (list (list nat * nat) * nat)) := [
  (6, ([([46], 221); ([47], 222); ([48], 223); ([49], 224); ([50], 225); ([51], 226); ([52], 227); ([54], 231); ([82],
    268); ([101], 299); ([109], 316)], 151));
  (7, ([([59], 237)], 152));
  (8, ([([98], 294)], 210));
  (9, ([([67], 90)], 78));
  (10, ([], 117));
  (11, ([], 153));
  (12, ([([66], 89)], 70));
  (14, ([([40], 215)], 146));
  (15, ([], 147));
  (16, ([], 154));
  (17, ([([25], 197)], 155));
  (18, ([], 9));
  (19, ([], 118));
  (20, ([], 119));
  (21, ([([84], 270)], 240));
  (23, ([([18; 74], 35); ([23], 61); ([28; 88], 64); ([11], 156); ([55], 233); ([56], 234); ([63], 243); ([69], 250);
    ([79], 261); ([85], 273); ([100], 296); ([103], 306); ([113], 323); ([115], 325)], 184));
  (25, ([([20], 191); ([81], 264); ([96], 292); ([102], 302)], 185));
  (26, ([], 75));
  (27, ([([75], 256); ([76], 257); ([92], 281)], 207));
  (29, ([([3], 136); ([8; 40], 148); ([16], 179); ([18; 74], 180); ([35], 206); ([37; 73], 209); ([38; 41; 67; 71; 98;
    116], 211); ([68], 249); ([72], 253); ([87], 275); ([91], 279); ([93; 112], 282); ([97], 293); ([99], 295);
    ([104], 307)], 142));
  (30, ([([41], 216); ([71], 252); ([116], 327)], 212));
  (31, ([], 120));
  (32, ([], 319));
  (33, ([], 105));
  (34, ([([106], 312)], 284));
  (36, ([([10], 150); ([12], 175); ([29], 202)], 129));
  (38, ([], 157));
  (39, ([([42], 217); ([43], 218); ([44], 219)], 158));
  (40, ([([45], 220)], 159));
  (41, ([], 160));
  (42, ([], 161));
  (43, ([([12], 29)], 10));
  (45, ([], 86));
  (47, ([([86], 274)], 244));
  (48, ([([88], 276)], 200));
  (49, ([], 201));
  (50, ([], 162));
  (51, ([([15], 32); ([17], 34); ([30], 65); ([31], 66); ([77; 95; 105; 107], 93); ([6], 143); ([13], 176); ([53],
    228); ([83], 269)], 163));
  (52, ([([74], 255)], 181));
  (53, ([], 182));
  (54, ([], 36));
  (55, ([([68], 91)], 16));
  (57, ([([9], 149); ([34], 205); ([66], 248); ([70], 251); ([89], 277)], 121));
  (58, ([([2; 60], 12)], 1));
  (59, ([], 18));
  (60, ([([20], 192); ([80], 263); ([81], 265); ([95], 291); ([102], 303); ([114], 324)], 122));
  (61, ([], 123));
  (62, ([([4], 138); ([33], 204)], 124));
  (63, ([([14], 177); ([24], 196); ([26], 198); ([27], 199)], 164));
  (64, ([([112], 322)], 283));
  (66, ([([95], 108); ([107], 111)], 94));
  (67, ([], 258));
  (68, ([([0; 4; 33], 2)], 60));
  (70, ([([105], 110)], 259));
  (71, ([([39], 213)], 144));
  (72, ([], 145));
  (73, ([([21], 193); ([22], 194); ([57], 235); ([58], 236)], 165));
  (74, ([], 125));
  (75, ([([62; 84], 241)], 195));
  (76, ([([61], 84)], 62));
  (77, ([([75], 92); ([32], 203); ([65], 247); ([78], 260); ([90], 278)], 76))].

(** src/sql/parser.rs:3230-7430: what [__reduce0] to [__reduce222] return. *)
Definition sql_reductions : list (nat * nat) := [
    (1, 0); (0, 0); (1, 1); (0, 1); (1, 2); (0, 2); (1, 3); (0, 3); (2, 4); (2, 5); (0, 5); (1, 6); (3, 6); (3, 6);
    (3, 6); (1, 7); (3, 7); (3, 8); (1, 9); (3, 9); (6, 10); (5, 10); (5, 11); (4, 11); (4, 11); (3, 11); (3, 12);
    (1, 13); (0, 13); (5, 14); (8, 14); (1, 15); (3, 15); (1, 16); (3, 16); (3, 16); (3, 16); (3, 16); (3, 16);
    (3, 16); (3, 16); (4, 16); (3, 16); (2, 16); (2, 16); (3, 16); (4, 16); (5, 16); (5, 16); (6, 16); (5, 16);
    (6, 16); (3, 16); (4, 16); (5, 16); (6, 16); (1, 17); (1, 17); (1, 18); (2, 18); (1, 18); (1, 18); (5, 19);
    (4, 19); (4, 19); (3, 19); (3, 20); (2, 20); (2, 21); (1, 22); (0, 22); (1, 23); (1, 24); (0, 24); (1, 25);
    (3, 25); (2, 26); (3, 27); (5, 27); (1, 28); (0, 28); (1, 29); (1, 30); (3, 30); (6, 31); (5, 31); (5, 31);
    (4, 31); (2, 32); (4, 32); (2, 33); (1, 33); (3, 33); (2, 33); (2, 33); (2, 34); (1, 34); (2, 34); (1, 34);
    (2, 34); (1, 34); (1, 34); (1, 35); (0, 35); (2, 36); (4, 36); (4, 36); (1, 37); (0, 37); (1, 38); (1, 38);
    (1, 38); (1, 38); (1, 38); (1, 38); (2, 38); (2, 38); (2, 38); (1, 39); (3, 39); (3, 39); (1, 40); (2, 40);
    (1, 41); (1, 41); (1, 41); (1, 42); (3, 42); (3, 43); (1, 44); (0, 44); (2, 45); (1, 46); (0, 46); (1, 47);
    (0, 47); (1, 47); (3, 48); (2, 48); (1, 49); (3, 49); (3, 50); (3, 50); (1, 50); (1, 50); (1, 51); (3, 51);
    (5, 51); (1, 52); (3, 52); (2, 52); (3, 52); (1, 53); (3, 53); (1, 54); (1, 54); (2, 55); (1, 56); (0, 56);
    (5, 57); (4, 57); (4, 57); (3, 57); (6, 57); (5, 57); (5, 57); (4, 57); (2, 57); (1, 58); (3, 58); (1, 59);
    (0, 59); (1, 59); (4, 60); (3, 60); (3, 60); (2, 60); (3, 60); (2, 60); (2, 60); (1, 60); (1, 61); (4, 61);
    (2, 61); (1, 61); (1, 61); (1, 62); (1, 62); (1, 62); (1, 62); (1, 63); (2, 64); (1, 64); (1, 65); (0, 65);
    (1, 66); (4, 66); (1, 67); (3, 67); (2, 68); (1, 69); (0, 69); (2, 70); (1, 70); (4, 70); (3, 70); (3, 70);
    (3, 71); (1, 72); (3, 72); (1, 73); (2, 73); (2, 73); (6, 74); (5, 74); (5, 74); (4, 74); (4, 75); (1, 76);
    (2, 76); (2, 77); (1, 78); (0, 78)].

Definition sql_tables : tables :=
  {| action_rows := sql_action_rows; eof_actions := sql_eof_actions; gotos := sql_gotos; reductions := sql_reductions |}.

(** src/sql/parser.rs:1847-1940 [__token_to_integer]: the terminal of each entry of the lexer's list. *)
Definition sql_token_index : list (nat * nat) := [
    (68, 0); (69, 1); (70, 2); (71, 3); (72, 4); (73, 5); (74, 6); (75, 7); (76, 8); (77, 9); (78, 10); (79, 11);
    (80, 12); (81, 13); (5, 14); (6, 15); (7, 16); (8, 17); (9, 18); (10, 19); (11, 20); (12, 21); (13, 22);
    (14, 23); (15, 24); (16, 25); (17, 26); (18, 27); (19, 28); (20, 29); (21, 30); (22, 31); (23, 32); (24, 33);
    (25, 34); (26, 35); (27, 36); (28, 37); (29, 38); (30, 39); (31, 40); (32, 41); (33, 42); (34, 43); (35, 44);
    (36, 45); (37, 46); (38, 47); (39, 48); (40, 49); (41, 50); (42, 51); (43, 52); (44, 53); (45, 54); (46, 55);
    (47, 56); (48, 57); (49, 58); (50, 59); (51, 60); (52, 61); (53, 62); (54, 63); (55, 64); (56, 65); (57, 66);
    (58, 67); (59, 68); (60, 69); (61, 70); (62, 71); (63, 72); (64, 73); (65, 74); (66, 75); (67, 76); (82, 77);
    (1, 78); (3, 79); (2, 80); (4, 81); (0, 82)].
