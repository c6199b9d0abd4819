(** * Tables of a parser of types

    LALRPOP writes src/core/types/parser.rs when the crate is built; the file is not in /repo. These LALR(1) tables and
    the certificate were computed by a script from src/core/types/parser.lalrpop. Nothing here is trusted: the tables are
    checked against the grammar, and tables that pass can only differ in their numbering. *)

From Verif Require Import Base StrModel LrModel LrSpec LrProofs.
Local Open Scope Z_scope.

Definition type_action_rows : list (list Z) := [
  [0; 0; 9; 0; 0; 0; 10; 11; 12; 13; 14; 15; 16; 17; 18; 19; 20; 21; 22; 23; 24; 25; 26; 0; 0];
  [0; 0; 0; (-3); (-3); 0; 0; 0; 0; 0; 0; 0; 0; 0; 0; 0; 0; 0; 0; 0; 0; 0; 0; 0; (-3)];
  [0; 0; 0; (-6); (-6); 0; 0; 0; 0; 0; 0; 0; 0; 0; 0; 0; 0; 0; 0; 0; 0; 0; 0; 0; (-6)];
  [0; 0; 0; (-2); (-2); 0; 0; 0; 0; 0; 0; 0; 0; 0; 0; 0; 0; 0; 0; 0; 0; 0; 0; 0; (-2)];
  [0; 0; 0; (-5); (-5); 0; 0; 0; 0; 0; 0; 0; 0; 0; 0; 0; 0; 0; 0; 0; 0; 0; 0; 0; (-5)];
  [0; 0; 0; (-4); (-4); 0; 0; 0; 0; 0; 0; 0; 0; 0; 0; 0; 0; 0; 0; 0; 0; 0; 0; 0; (-4)];
  [0; 0; 0; 0; 0; 0; 0; 0; 0; 0; 0; 0; 0; 0; 0; 0; 0; 0; 0; 0; 0; 0; 0; 0; 0];
  [0; 0; 0; (-1); (-1); 0; 0; 0; 0; 0; 0; 0; 0; 0; 0; 0; 0; 0; 0; 0; 0; 0; 0; 0; (-1)];
  [0; 0; 9; 50; 0; 0; 10; 11; 12; 13; 14; 15; 16; 17; 18; 19; 20; 21; 22; 23; 24; 25; 26; 0; 0];
  [0; 0; 0; (-8); (-8); 0; 0; 0; 0; 0; 0; 0; 0; 0; 0; 0; 0; 0; 0; 0; 0; 0; 0; 0; (-8)];
  [0; 0; 0; (-9); (-9); 0; 0; 0; 0; 0; 0; 0; 0; 0; 0; 0; 0; 0; 0; 0; 0; 0; 0; 0; (-9)];
  [0; 0; 0; 0; 0; 0; 0; 0; 0; 0; 0; 0; 0; 0; 0; 0; 0; 0; 0; 0; 0; 0; 0; 38; 0];
  [0; 0; 0; (-20); (-20); 0; 0; 0; 0; 0; 0; 0; 0; 0; 0; 0; 0; 0; 0; 0; 0; 0; 0; 0; (-20)];
  [0; 0; 0; (-21); (-21); 0; 0; 0; 0; 0; 0; 0; 0; 0; 0; 0; 0; 0; 0; 0; 0; 0; 0; 0; (-21)];
  [0; 0; 0; (-19); (-19); 0; 0; 0; 0; 0; 0; 0; 0; 0; 0; 0; 0; 0; 0; 0; 0; 0; 0; 0; (-19)];
  [0; 0; 0; (-16); (-16); 0; 0; 0; 0; 0; 0; 0; 0; 0; 0; 0; 0; 0; 0; 0; 0; 0; 0; 0; (-16)];
  [0; 0; 0; (-17); (-17); 0; 0; 0; 0; 0; 0; 0; 0; 0; 0; 0; 0; 0; 0; 0; 0; 0; 0; 0; (-17)];
  [0; 0; 0; (-18); (-18); 0; 0; 0; 0; 0; 0; 0; 0; 0; 0; 0; 0; 0; 0; 0; 0; 0; 0; 0; (-18)];
  [0; 0; 0; (-15); (-15); 0; 0; 0; 0; 0; 0; 0; 0; 0; 0; 0; 0; 0; 0; 0; 0; 0; 0; 0; (-15)];
  [0; 0; 0; (-22); (-22); 0; 0; 0; 0; 0; 0; 0; 0; 0; 0; 0; 0; 0; 0; 0; 0; 0; 0; 0; (-22)];
  [0; 0; 0; 0; 0; 0; 0; 0; 0; 0; 0; 0; 0; 0; 0; 0; 0; 0; 0; 0; 0; 0; 0; 27; 0];
  [0; 0; 0; (-14); (-14); 0; 0; 0; 0; 0; 0; 0; 0; 0; 0; 0; 0; 0; 0; 0; 0; 0; 0; 0; (-14)];
  [0; 0; 0; (-11); (-11); 0; 0; 0; 0; 0; 0; 0; 0; 0; 0; 0; 0; 0; 0; 0; 0; 0; 0; 0; (-11)];
  [0; 0; 0; (-12); (-12); 0; 0; 0; 0; 0; 0; 0; 0; 0; 0; 0; 0; 0; 0; 0; 0; 0; 0; 0; (-12)];
  [0; 0; 0; (-13); (-13); 0; 0; 0; 0; 0; 0; 0; 0; 0; 0; 0; 0; 0; 0; 0; 0; 0; 0; 0; (-13)];
  [0; 0; 0; (-10); (-10); 0; 0; 0; 0; 0; 0; 0; 0; 0; 0; 0; 0; 0; 0; 0; 0; 0; 0; 0; (-10)];
  [0; 31; 0; 0; 0; 0; 0; 0; 0; 0; 0; 0; 0; 0; 0; 0; 0; 0; 0; 0; 0; 0; 0; 0; 0];
  [0; 0; 0; 0; (-27); 0; 0; 0; 0; 0; 0; 0; 0; 0; 0; 0; 0; 0; 0; 0; 0; 0; 0; 0; (-27)];
  [0; 0; 0; 0; 35; 0; 0; 0; 0; 0; 0; 0; 0; 0; 0; 0; 0; 0; 0; 0; 0; 0; 0; 0; (-36)];
  [0; 0; 0; 0; 0; 32; 0; 0; 0; 0; 0; 0; 0; 0; 0; 0; 0; 0; 0; 0; 0; 0; 0; 0; 0];
  [0; 0; 0; 0; 0; (-34); 0; 0; 0; 0; 0; 0; 0; 0; 0; 0; 0; 0; 0; 0; 0; 0; 0; 0; 0];
  [0; 0; 9; 0; 0; 0; 10; 11; 12; 13; 14; 15; 16; 17; 18; 19; 20; 21; 22; 23; 24; 25; 26; 0; 0];
  [0; 0; 0; 0; (-29); 0; 0; 0; 0; 0; 0; 0; 0; 0; 0; 0; 0; 0; 0; 0; 0; 0; 0; 0; (-29)];
  [0; 0; 0; 0; 0; 0; 0; 0; 0; 0; 0; 0; 0; 0; 0; 0; 0; 0; 0; 0; 0; 0; 0; 0; 37];
  [0; 31; 0; 0; 0; 0; 0; 0; 0; 0; 0; 0; 0; 0; 0; 0; 0; 0; 0; 0; 0; 0; 0; 0; (-35)];
  [0; 0; 0; 0; (-28); 0; 0; 0; 0; 0; 0; 0; 0; 0; 0; 0; 0; 0; 0; 0; 0; 0; 0; 0; (-28)];
  [0; 0; 0; (-26); (-26); 0; 0; 0; 0; 0; 0; 0; 0; 0; 0; 0; 0; 0; 0; 0; 0; 0; 0; 0; (-26)];
  [0; 31; 0; 0; 0; 0; 0; 0; 0; 0; 0; 0; 0; 0; 0; 0; 0; 0; 0; 0; 0; 0; 0; 0; 0];
  [0; 0; 0; 0; (-31); 0; 0; 0; 0; 0; 0; 0; 0; 0; 0; 0; 0; 0; 0; 0; 0; 0; 0; 0; (-31)];
  [0; 0; 0; 0; 45; 0; 0; 0; 0; 0; 0; 0; 0; 0; 0; 0; 0; 0; 0; 0; 0; 0; 0; 0; (-36)];
  [0; 0; 0; 0; 0; 42; 0; 0; 0; 0; 0; 0; 0; 0; 0; 0; 0; 0; 0; 0; 0; 0; 0; 0; 0];
  [0; 0; 9; 0; 0; 0; 10; 11; 12; 13; 14; 15; 16; 17; 18; 19; 20; 21; 22; 23; 24; 25; 26; 0; 0];
  [0; 0; 0; 0; (-33); 0; 0; 0; 0; 0; 0; 0; 0; 0; 0; 0; 0; 0; 0; 0; 0; 0; 0; 0; (-33)];
  [0; 0; 0; 0; 0; 0; 0; 0; 0; 0; 0; 0; 0; 0; 0; 0; 0; 0; 0; 0; 0; 0; 0; 0; 47];
  [0; 31; 0; 0; 0; 0; 0; 0; 0; 0; 0; 0; 0; 0; 0; 0; 0; 0; 0; 0; 0; 0; 0; 0; (-35)];
  [0; 0; 0; 0; (-32); 0; 0; 0; 0; 0; 0; 0; 0; 0; 0; 0; 0; 0; 0; 0; 0; 0; 0; 0; (-32)];
  [0; 0; 0; (-30); (-30); 0; 0; 0; 0; 0; 0; 0; 0; 0; 0; 0; 0; 0; 0; 0; 0; 0; 0; 0; (-30)];
  [0; 0; 0; (-24); (-24); 0; 0; 0; 0; 0; 0; 0; 0; 0; 0; 0; 0; 0; 0; 0; 0; 0; 0; 0; 0];
  [0; 0; 0; 51; 52; 0; 0; 0; 0; 0; 0; 0; 0; 0; 0; 0; 0; 0; 0; 0; 0; 0; 0; 0; 0];
  [0; 0; 0; (-7); (-7); 0; 0; 0; 0; 0; 0; 0; 0; 0; 0; 0; 0; 0; 0; 0; 0; 0; 0; 0; (-7)];
  [0; 0; 0; (-23); (-23); 0; 0; 0; 0; 0; 0; 0; 0; 0; 0; 0; 0; 0; 0; 0; 0; 0; 0; 0; (-23)];
  [0; 0; 9; 0; 0; 0; 10; 11; 12; 13; 14; 15; 16; 17; 18; 19; 20; 21; 22; 23; 24; 25; 26; 0; 0];
  [0; 0; 0; (-25); (-25); 0; 0; 0; 0; 0; 0; 0; 0; 0; 0; 0; 0; 0; 0; 0; 0; 0; 0; 0; 0]].

Definition type_eof_actions : list Z :=
  [0; (-3); (-6); (-2); (-5); (-4); (-37); (-1); 0; (-8); (-9); 0; (-20); (-21); (-19); (-16); (-17); (-18); (-15);
    (-22); 0; (-14); (-11); (-12); (-13); (-10); 0; 0; 0; 0; 0; 0; 0; 0; 0; 0; (-26); 0; 0; 0; 0; 0; 0; 0; 0; 0;
    (-30); 0; 0; (-7); (-23); 0; 0].

Local Open Scope nat_scope.

Definition type_gotos : list (nat * (list (list nat * nat) * nat)) := [
  (0, ([([28], 33)], 43));
  (1, ([], 1));
  (2, ([([37], 38)], 45));
  (3, ([], 39));
  (4, ([], 2));
  (5, ([([26], 27)], 35));
  (6, ([], 28));
  (7, ([([26; 34], 29)], 40));
  (8, ([], 3));
  (9, ([], 4));
  (10, ([], 5));
  (11, ([([0], 6); ([31], 32); ([41], 42); ([8], 47)], 52));
  (12, ([], 48));
  (13, ([], 7))].

Definition type_tables (g : grammar) : tables :=
  {| action_rows := type_action_rows; eof_actions := type_eof_actions; gotos := type_gotos;
     reductions := map (fun p => (length (snd p), fst p)) g |}.

Definition type_kernel : list (list (nat * nat * N)) := [
  [];
  [(2, 1, 50331672%N)];
  [(5, 1, 50331672%N)];
  [(1, 1, 50331672%N)];
  [(4, 1, 50331672%N)];
  [(3, 1, 50331672%N)];
  [(36, 1, 33554432%N)];
  [(0, 1, 50331672%N)];
  [(6, 1, 50331672%N); (22, 1, 50331672%N)];
  [(7, 1, 50331672%N)];
  [(8, 1, 50331672%N)];
  [(29, 1, 50331672%N)];
  [(19, 1, 50331672%N)];
  [(20, 1, 50331672%N)];
  [(18, 1, 50331672%N)];
  [(15, 1, 50331672%N)];
  [(16, 1, 50331672%N)];
  [(17, 1, 50331672%N)];
  [(14, 1, 50331672%N)];
  [(21, 1, 50331672%N)];
  [(25, 1, 50331672%N)];
  [(13, 1, 50331672%N)];
  [(10, 1, 50331672%N)];
  [(11, 1, 50331672%N)];
  [(12, 1, 50331672%N)];
  [(9, 1, 50331672%N)];
  [(25, 2, 50331672%N)];
  [(26, 1, 16777232%N)];
  [(25, 3, 50331672%N); (27, 1, 16777232%N)];
  [(28, 1, 16777232%N)];
  [(33, 1, 32%N)];
  [(28, 2, 16777232%N)];
  [(28, 3, 16777232%N)];
  [(25, 4, 50331672%N)];
  [(27, 2, 16777232%N); (34, 1, 16777216%N)];
  [(27, 3, 16777232%N)];
  [(25, 5, 50331672%N)];
  [(29, 2, 50331672%N)];
  [(30, 1, 16777232%N)];
  [(29, 3, 50331672%N); (31, 1, 16777232%N)];
  [(32, 1, 16777232%N)];
  [(32, 2, 16777232%N)];
  [(32, 3, 16777232%N)];
  [(29, 4, 50331672%N)];
  [(31, 2, 16777232%N); (34, 1, 16777216%N)];
  [(31, 3, 16777232%N)];
  [(29, 5, 50331672%N)];
  [(23, 1, 24%N)];
  [(22, 2, 50331672%N); (24, 1, 24%N)];
  [(6, 2, 50331672%N)];
  [(22, 3, 50331672%N)];
  [(24, 2, 24%N)];
  [(24, 3, 24%N)]].

Definition type_closure : list (list (nat * N)) := [
  [(14, 33554432%N); (11, 33554432%N); (1, 33554432%N); (4, 33554432%N); (8, 33554432%N); (9, 33554432%N); (10,
    33554432%N); (13, 33554432%N)];
  [];
  [];
  [];
  [];
  [];
  [];
  [];
  [(12, 24%N); (11, 24%N); (1, 24%N); (4, 24%N); (8, 24%N); (9, 24%N); (10, 24%N); (13, 24%N)];
  [];
  [];
  [];
  [];
  [];
  [];
  [];
  [];
  [];
  [];
  [];
  [];
  [];
  [];
  [];
  [];
  [];
  [(6, 16777232%N); (5, 16777232%N); (7, 32%N)];
  [];
  [(0, 16777216%N)];
  [];
  [];
  [(11, 16777232%N); (1, 16777232%N); (4, 16777232%N); (8, 16777232%N); (9, 16777232%N); (10, 16777232%N); (13,
    16777232%N)];
  [];
  [];
  [(5, 16777232%N); (7, 32%N)];
  [];
  [];
  [(3, 16777232%N); (2, 16777232%N); (7, 32%N)];
  [];
  [(0, 16777216%N)];
  [];
  [(11, 16777232%N); (1, 16777232%N); (4, 16777232%N); (8, 16777232%N); (9, 16777232%N); (10, 16777232%N); (13,
    16777232%N)];
  [];
  [];
  [(2, 16777232%N); (7, 32%N)];
  [];
  [];
  [];
  [];
  [];
  [];
  [(11, 24%N); (1, 24%N); (4, 24%N); (8, 24%N); (9, 24%N); (10, 24%N); (13, 24%N)];
  []].

Definition type_cert : cert :=
  {| k_terms := 25; k_top := 14; k_kernel := type_kernel; k_closure := type_closure;
     k_first := [16%N; 65536%N; 2%N; 2%N; 256%N; 2%N; 2%N; 2%N; 8191680%N; 131072%N; 4%N; 8388548%N; 8388548%N; 4%N;
       8388548%N];
     k_null := [true; false; false; false; false; false; false; false; false; false; false; false; false; false;
       false];
     k_weight := [3; 3; 5; 4; 5; 5; 4; 3; 3; 5; 5; 2; 1; 5; 1];
     k_unit := 5 |}.

Definition type_order : list nat :=
  [6; 7; 21; 33; 34; 0; 23; 28; 32; 36; 22; 26; 30; 25; 29].
