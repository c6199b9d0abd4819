(** * Certificate for the tables of the SQL parser

    LR(1) items of each state, computed by a script from the tables and the grammar. Nothing here is trusted: see
    [check_tables]. *)

From Verif Require Import Base LrModel LrSpec LrProofs.
Local Open Scope nat_scope.

Definition sql_kernel : list (list (nat * nat * N)) := [
  [];
  [(169, 1, 9672587727267912291975172%N); (177, 1, 9671406556917033397649412%N); (178, 1,
    9671406556917033397649412%N); (179, 1, 9671406556917033397649412%N); (180, 1, 9671406556917033397649412%N)];
  [(62, 1, 9671406556917033397649408%N); (63, 1, 9671406556917033397649408%N); (84, 1, 9671406556917033397649408%N);
    (86, 1, 9671406556917033397649408%N); (173, 1, 9671406556917033397649408%N); (174, 1,
    9671406556917033397649408%N); (175, 1, 9671406556917033397649408%N); (176, 1, 9671406556917033397649408%N); (213,
    1, 9671406556917033397649408%N); (214, 1, 9671406556917033397649408%N)];
  [(66, 1, 9671406556917033397649408%N); (67, 1, 9671406556917033397649408%N)];
  [(182, 1, 9671406556917033397649408%N); (183, 1, 9671406556917033397649408%N)];
  [(159, 1, 9672587727267912291975172%N); (160, 1, 9672587727267912291975172%N); (161, 1,
    9672587727267912291975172%N); (162, 1, 9672587727267912291975172%N); (163, 1, 9672587727267912291975172%N); (164,
    1, 9672587727267912291975172%N); (165, 1, 9672587727267912291975172%N); (166, 1, 9672587727267912291975172%N)];
  [(215, 1, 9671406556917033397649408%N); (216, 1, 9671406556917033397649408%N)];
  [(167, 1, 9672587727267912291975172%N)];
  [(199, 1, 11824362960044184043520%N)];
  [(169, 2, 9672587727267912291975172%N)];
  [(177, 2, 9671406556917033397649412%N); (179, 2, 9671406556917033397649412%N)];
  [(104, 1, 9671406556917033397649412%N); (105, 1, 9671406556917033397649412%N); (106, 1,
    9671406556917033397649412%N)];
  [(169, 1, 9672587727267912291975172%N); (173, 2, 9671406556917033397649412%N); (174, 2,
    9671406556917033397649412%N); (175, 2, 9671406556917033397649412%N); (176, 2, 9671406556917033397649412%N)];
  [(213, 2, 9671406556917033397649408%N); (214, 2, 9671406556917033397649408%N)];
  [(20, 2, 9671406556917033397649408%N); (21, 2, 9671406556917033397649408%N)];
  [(64, 2, 9671406556917033397649408%N); (65, 2, 9671406556917033397649408%N)];
  [(66, 2, 9671406556917033397649408%N)];
  [(85, 2, 9671406556917033397649408%N); (87, 2, 9671406556917033397649408%N)];
  [(159, 2, 9672587727267912291975172%N); (160, 2, 9672587727267912291975172%N); (161, 2,
    9672587727267912291975172%N); (162, 2, 9672587727267912291975172%N); (163, 2, 9672587727267912291975172%N); (164,
    2, 9672587727267912291975172%N); (165, 2, 9672587727267912291975172%N); (166, 2, 9672587727267912291975172%N)];
  [(207, 1, 9672587727267912291975204%N)];
  [(141, 1, 10484991953649388539854717%N); (142, 1, 10484991953649388539854717%N)];
  [(211, 1, 10484991953649388539854717%N)];
  [(212, 1, 10484991953649388539854717%N)];
  [(22, 1, 10333876197836756965621796%N); (23, 1, 10333876197836756965621796%N); (24, 1,
    10333876197836756965621796%N); (25, 1, 10333876197836756965621796%N)];
  [(115, 1, 10484991953649388539854717%N)];
  [(122, 1, 10333876197836756965621796%N)];
  [(116, 1, 10484991953649388539854717%N)];
  [(117, 1, 10484991953649388539854717%N)];
  [(128, 2, 9671406559168833211334660%N)];
  [(173, 3, 9671406556917033397649412%N); (175, 3, 9671406556917033397649412%N)];
  [(62, 3, 9671406556917033397649408%N); (63, 3, 9671406556917033397649408%N)];
  [(84, 3, 9671406556917033397649408%N); (86, 3, 9671406556917033397649408%N)];
  [(64, 3, 9671406556917033397649408%N); (65, 3, 9671406556917033397649408%N)];
  [(182, 3, 9671406556917033397649408%N)];
  [(85, 3, 9671406556917033397649408%N); (87, 3, 9671406556917033397649408%N)];
  [(148, 1, 9710366659131556648452132%N); (149, 1, 9710366659131556648452132%N); (150, 1,
    9710366659131556648452132%N)];
  [(159, 3, 9672587727267912291975172%N); (160, 3, 9672587727267912291975172%N); (161, 3,
    9672587727267912291975172%N); (162, 3, 9672587727267912291975172%N); (163, 3, 9672587727267912291975172%N); (164,
    3, 9672587727267912291975172%N); (165, 3, 9672587727267912291975172%N); (166, 3, 9672587727267912291975172%N)];
  [(146, 2, 10499214537445406680006527%N); (147, 2, 10499214537445406680006527%N)];
  [(215, 3, 9671406556917033397649408%N); (216, 3, 9671406556917033397649408%N)];
  [(209, 2, 9672587727267912291975204%N)];
  [(32, 2, 11824362960044184043552%N)];
  [(30, 2, 11824362960044184043552%N)];
  [(12, 2, 10484991953649388539854453%N)];
  [(13, 2, 10484991953649388539854453%N)];
  [(14, 2, 10484991953649388539854453%N)];
  [(16, 2, 10333876197836756965621796%N)];
  [(35, 2, 10333876226197559893016101%N)];
  [(36, 2, 10333876226197559893016101%N)];
  [(38, 2, 10333876226197559893016101%N)];
  [(34, 2, 10333876226197559893016101%N)];
  [(37, 2, 10333876226197559893016101%N)];
  [(39, 2, 10333876226197559893016101%N)];
  [(54, 2, 10333876226197559893016101%N)];
  [(46, 2, 10333876226197559893016101%N); (48, 2, 10333876226197559893016101%N); (50, 2,
    10333876226197559893016101%N); (52, 2, 10333876226197559893016101%N)];
  [(42, 2, 10333876226197559893016101%N)];
  [(105, 3, 9671406556917033397649412%N)];
  [(106, 3, 9671406556917033397649412%N)];
  [(119, 2, 10484991953649388539854717%N)];
  [(120, 2, 10484991953649388539854717%N)];
  [(127, 2, 10333876197836756965589028%N)];
  [(173, 1, 4%N); (174, 1, 4%N); (175, 1, 4%N); (176, 1, 4%N)];
  [(22, 2, 10333876197836756965621796%N); (24, 2, 10333876197836756965621796%N)];
  [(23, 2, 10333876197836756965621796%N); (25, 2, 10333876197836756965621796%N); (219, 1, 18889465931491465756672%N)];
  [(217, 1, 18889465931491465756672%N)];
  [(137, 1, 9671406559168833211334692%N); (138, 1, 9671406559168833211334692%N)];
  [(62, 4, 9671406556917033397649408%N); (63, 4, 9671406556917033397649408%N)];
  [(84, 4, 9671406556917033397649408%N); (86, 4, 9671406556917033397649408%N)];
  [(213, 4, 9671406556917033397649408%N); (214, 4, 9671406556917033397649408%N)];
  [(20, 4, 9671406556917033397649408%N); (21, 4, 9671406556917033397649408%N)];
  [(220, 1, 9672587727268462047789060%N)];
  [(85, 4, 9671406556917033397649408%N)];
  [(26, 1, 9463179709812999979008%N)];
  [(149, 2, 9710366659131556648452132%N)];
  [(146, 2, 10465945612981878961848189%N); (147, 2, 10465945612981878961848189%N); (151, 2,
    9710366659131556648452132%N)];
  [(153, 2, 9710366659131556648452132%N)];
  [(163, 4, 9672587727267912291975172%N); (164, 4, 9672587727267912291975172%N); (165, 4,
    9672587727267912291975172%N); (166, 4, 9672587727267912291975172%N)];
  [(159, 4, 9672587727267912291975172%N); (161, 4, 9672587727267912291975172%N)];
  [(76, 1, 9710366659131419209498628%N)];
  [(19, 1, 9709185488779990559359008%N); (215, 4, 9671406556917033397649408%N); (216, 4, 9671406556917033397649408%N)];
  [(75, 2, 9672587727269011803602980%N)];
  [(29, 3, 11824362960044184043552%N)];
  [(46, 3, 10333876226197559893016101%N); (48, 3, 10333876226197559893016101%N); (50, 3,
    10333876226197559893016101%N)];
  [(55, 3, 10333876226197559893016101%N)];
  [(47, 3, 10333876226197559893016101%N); (49, 3, 10333876226197559893016101%N); (51, 3,
    10333876226197559893016101%N); (53, 3, 10333876226197559893016101%N)];
  [(22, 3, 10333876197836756965621796%N); (24, 3, 10333876197836756965621796%N); (219, 1, 18889465931491465756672%N)];
  [(68, 1, 8589934592%N)];
  [(137, 2, 9671406559168833211334692%N)];
  [(131, 1, 9671406559168833748336676%N)];
  [(140, 2, 9671406559168833211334692%N)];
  [(84, 5, 9671406556917033397649408%N)];
  [(19, 1, 9709185488779990559359008%N); (213, 5, 9671406556917033397649408%N); (214, 5, 9671406556917033397649408%N)];
  [(20, 5, 9671406556917033397649408%N)];
  [(163, 5, 9672587727267912291975172%N); (165, 5, 9672587727267912291975172%N)];
  [(202, 1, 9715098398454211275653156%N); (203, 1, 9715098398454211275653156%N)];
  [(196, 1, 9710375887856153554583588%N); (197, 1, 9710366659131419209498660%N)];
  [(204, 1, 9715098398454211275653156%N); (205, 1, 9715098398454211275653156%N); (206, 1,
    9715098398454211275653156%N)];
  [(77, 2, 9672587727267912291975172%N); (78, 2, 9672587727267912291975172%N)];
  [(147, 4, 10499214537445406680006527%N)];
  [(19, 2, 9709185488779990559359008%N)];
  [(83, 2, 2084%N)];
  [(17, 2, 9709185488779990559359008%N)];
  [(54, 4, 10333876226197559893016101%N)];
  [(47, 4, 10333876226197559893016101%N); (49, 4, 10333876226197559893016101%N); (51, 4,
    10333876226197559893016101%N)];
  [(217, 3, 18889465931491465756672%N)];
  [(191, 1, 9715098398454211275653156%N)];
  [(196, 2, 9710375887856153554583588%N)];
  [(92, 1, 604462909807314587353090%N); (93, 1, 604462909807314587353090%N)];
  [(198, 2, 9710366659131419209498660%N)];
  [(196, 1, 9228724734345084932%N); (206, 2, 9715098398454211275653156%N)];
  [(55, 5, 10333876226197559893016101%N)];
  [(196, 3, 9710375887856153554583588%N)];
  [(196, 1, 9710375887856153554583588%N); (198, 3, 9710366659131419209498660%N)];
  [(204, 3, 9715098398454211275653156%N); (205, 3, 9715098398454211275653156%N)];
  [(78, 4, 9672587727267912291975172%N)];
  [(30, 6, 11824362960044184043552%N)];
  [(88, 1, 9710375887856153554583588%N)];
  [(89, 2, 9710375887856153554583588%N)];
  [(184, 1, 9671406556917033397649408%N)];
  [(188, 1, 9671406556917033397649408%N)];
  [(185, 1, 9671406556917033397649408%N)];
  [(187, 1, 9671406556917033397649408%N)];
  [(168, 1, 9672587727267912291975172%N)];
  [(186, 1, 9671406556917033397649408%N)];
  [(223, 1, 9671406556917033397649408%N)];
  [(181, 1, 9671406556917033397649408%N)];
  [(189, 1, 9671406556917033397649408%N)];
  [(20, 1, 9671406556917033397649408%N); (21, 1, 9671406556917033397649408%N)];
  [(64, 1, 9671406556917033397649408%N); (65, 1, 9671406556917033397649408%N)];
  [(85, 1, 9671406556917033397649408%N); (87, 1, 9671406556917033397649408%N)];
  [(178, 2, 9671406556917033397649412%N)];
  [(61, 1, 9463179709812999979008%N)];
  [(60, 1, 9463179709812999979008%N)];
  [(128, 1, 9671406559168833211334660%N)];
  [(58, 1, 9463179709812999979008%N); (59, 1, 9463179709812999979008%N)];
  [(62, 2, 9671406556917033397649408%N); (63, 2, 9671406556917033397649408%N)];
  [(84, 2, 9671406556917033397649408%N); (86, 2, 9671406556917033397649408%N)];
  [(67, 2, 9671406556917033397649408%N); (156, 1, 604462909807314587353088%N)];
  [(81, 1, 10499214537445406680006655%N)];
  [(183, 2, 9671406556917033397649408%N)];
  [(182, 2, 9671406556917033397649408%N)];
  [(170, 1, 9370060590764910689910874%N)];
  [(172, 1, 9370060590764910689910874%N)];
  [(145, 1, 10499214537445406680006527%N); (146, 1, 10499214537445406680006527%N); (147, 1,
    10499214537445406680006527%N)];
  [(215, 2, 9671406556917033397649408%N); (216, 2, 9671406556917033397649408%N)];
  [(208, 1, 9672587727267912291975204%N)];
  [(167, 2, 9672587727267912291975172%N); (209, 1, 9672587727267912291975204%N)];
  [(31, 1, 11824362960044184043552%N)];
  [(32, 1, 11824362960044184043552%N); (199, 2, 11824362960044184043520%N)];
  [(29, 1, 11824362960044184043552%N); (30, 1, 11824362960044184043552%N)];
  [(169, 3, 9672587727267912291975172%N)];
  [(177, 3, 9671406556917033397649412%N)];
  [(12, 1, 10484991953649388539854453%N); (13, 1, 10484991953649388539854453%N); (14, 1,
    10484991953649388539854453%N); (33, 1, 10333876226197559893016101%N)];
  [(16, 1, 10333876197836756965621796%N); (126, 1, 10333876197836756965589028%N)];
  [(57, 1, 10333876197836756965621796%N)];
  [(34, 1, 10333876226197559893016101%N); (35, 1, 10333876226197559893016101%N); (36, 1,
    10333876226197559893016101%N); (37, 1, 10333876226197559893016101%N); (38, 1, 10333876226197559893016101%N); (39,
    1, 10333876226197559893016101%N); (40, 1, 10333876226197559893016101%N); (41, 1, 10333876226197559893016101%N);
    (42, 1, 10333876226197559893016101%N); (43, 1, 10333876226197559893016101%N); (44, 1,
    10333876226197559893016101%N); (45, 1, 10333876226197559893016101%N); (46, 1, 10333876226197559893016101%N); (47,
    1, 10333876226197559893016101%N); (48, 1, 10333876226197559893016101%N); (49, 1, 10333876226197559893016101%N);
    (50, 1, 10333876226197559893016101%N); (51, 1, 10333876226197559893016101%N); (52, 1,
    10333876226197559893016101%N); (53, 1, 10333876226197559893016101%N); (54, 1, 10333876226197559893016101%N); (55,
    1, 10333876226197559893016101%N); (56, 1, 10333876197836756965621796%N)];
  [(121, 1, 10333876197836756965621796%N)];
  [(104, 2, 9671406556917033397649412%N); (105, 2, 9671406556917033397649412%N); (106, 2,
    9671406556917033397649412%N)];
  [(143, 1, 10484991953649388539854717%N)];
  [(11, 1, 10484991953649388539854453%N); (119, 1, 10484991953649388539854717%N); (120, 1,
    10484991953649388539854717%N)];
  [(15, 1, 10333876197836756965621796%N)];
  [(109, 1, 10484991953649388539854717%N)];
  [(71, 1, 10333875909606380813877284%N); (127, 1, 10333876197836756965589028%N)];
  [(210, 1, 10484991953649388539854717%N)];
  [(144, 1, 10484991953649388539854717%N)];
  [(110, 1, 10484991953649388539854717%N)];
  [(118, 1, 10484991953649388539854717%N)];
  [(113, 1, 10484991953649388539854717%N)];
  [(112, 1, 10484991953649388539854717%N)];
  [(114, 1, 10484991953649388539854717%N)];
  [(111, 1, 10484991953649388539854717%N)];
  [(125, 1, 10484991953649388539854717%N)];
  [(123, 1, 10484991953649388539854717%N)];
  [(124, 1, 10484991953649388539854717%N)];
  [(190, 1, 10484991953649388539854717%N)];
  [(59, 2, 9463179709812999979008%N)];
  [(174, 3, 9671406556917033397649412%N)];
  [(213, 3, 9671406556917033397649408%N); (214, 3, 9671406556917033397649408%N)];
  [(20, 3, 9671406556917033397649408%N); (21, 3, 9671406556917033397649408%N)];
  [(156, 2, 604462909807314587353088%N)];
  [(66, 3, 9671406556917033397649408%N)];
  [(145, 1, 10465945612981878961848189%N); (146, 1, 10465945612981878961848189%N); (147, 1,
    10465945612981878961848189%N); (151, 1, 9710366659131556648452132%N)];
  [(152, 1, 9710366659131556648452132%N)];
  [(153, 1, 9710366659131556648452132%N); (155, 1, 9710366659131556648452100%N)];
  [(154, 1, 9710366659131556648452100%N)];
  [(74, 1, 9672587727269011803602980%N)];
  [(75, 1, 36%N); (207, 2, 9672587727267912291975204%N)];
  [(29, 2, 11824362960044184043552%N)];
  [(40, 2, 10333876226197559893016101%N); (41, 2, 10333876226197559893016101%N)];
  [(43, 2, 10333876226197559893016101%N)];
  [(45, 2, 10333876226197559893016101%N); (47, 2, 10333876226197559893016101%N); (49, 2,
    10333876226197559893016101%N); (51, 2, 10333876226197559893016101%N); (53, 2, 10333876226197559893016101%N); (55,
    2, 10333876226197559893016101%N)];
  [(44, 2, 10333876226197559893016101%N)];
  [(75, 1, 36%N); (141, 2, 10484991953649388539854717%N)];
  [(142, 2, 10484991953649388539854717%N)];
  [(211, 2, 10484991953649388539854717%N)];
  [(212, 2, 10484991953649388539854717%N)];
  [(218, 1, 18889465931491465756672%N)];
  [(115, 2, 10484991953649388539854717%N)];
  [(122, 2, 10333876197836756965621796%N)];
  [(116, 2, 10484991953649388539854717%N)];
  [(117, 2, 10484991953649388539854717%N)];
  [(139, 1, 9671406559168833211334692%N)];
  [(128, 3, 9671406559168833211334660%N); (140, 1, 9671406559168833211334692%N)];
  [(173, 4, 9671406556917033397649412%N)];
  [(64, 4, 9671406556917033397649408%N)];
  [(182, 4, 9671406556917033397649408%N)];
  [(87, 4, 9671406556917033397649408%N)];
  [(150, 2, 9710366659131556648452132%N)];
  [(160, 4, 9672587727267912291975172%N)];
  [(77, 1, 9672587727267912291975172%N); (78, 1, 9672587727267912291975172%N)];
  [(146, 3, 10499214537445406680006527%N); (147, 3, 10499214537445406680006527%N)];
  [(18, 1, 9709185488779990559359008%N)];
  [(82, 1, 2084%N)];
  [(17, 1, 9709185488779990559359008%N); (83, 1, 2080%N)];
  [(209, 3, 9672587727267912291975204%N)];
  [(207, 3, 9672587727267912291975204%N)];
  [(32, 3, 11824362960044184043552%N)];
  [(30, 3, 11824362960044184043552%N); (83, 1, 36%N)];
  [(12, 3, 10484991953649388539854453%N); (119, 1, 10484991953649388539854717%N); (120, 1,
    10484991953649388539854717%N)];
  [(13, 3, 10484991953649388539854453%N); (119, 1, 10484991953649388539854717%N); (120, 1,
    10484991953649388539854717%N)];
  [(14, 3, 10484991953649388539854453%N); (119, 1, 10484991953649388539854717%N); (120, 1,
    10484991953649388539854717%N)];
  [(16, 3, 10333876197836756965621796%N)];
  [(12, 1, 10484991953649388539854453%N); (13, 1, 10484991953649388539854453%N); (14, 1,
    10484991953649388539854453%N); (35, 3, 10333876226197559893016101%N)];
  [(12, 1, 10484991953649388539854453%N); (13, 1, 10484991953649388539854453%N); (14, 1,
    10484991953649388539854453%N); (36, 3, 10333876226197559893016101%N)];
  [(12, 1, 10484991953649388539854453%N); (13, 1, 10484991953649388539854453%N); (14, 1,
    10484991953649388539854453%N); (38, 3, 10333876226197559893016101%N)];
  [(12, 1, 10484991953649388539854453%N); (13, 1, 10484991953649388539854453%N); (14, 1,
    10484991953649388539854453%N); (34, 3, 10333876226197559893016101%N)];
  [(12, 1, 10484991953649388539854453%N); (13, 1, 10484991953649388539854453%N); (14, 1,
    10484991953649388539854453%N); (37, 3, 10333876226197559893016101%N)];
  [(12, 1, 10484991953649388539854453%N); (13, 1, 10484991953649388539854453%N); (14, 1,
    10484991953649388539854453%N); (39, 3, 10333876226197559893016101%N)];
  [(12, 1, 151115727451828646871120%N); (13, 1, 151115727451828646871120%N); (14, 1, 151115727451828646871120%N); (54,
    3, 10333876226197559893016101%N)];
  [(52, 3, 10333876226197559893016101%N)];
  [(41, 3, 10333876226197559893016101%N)];
  [(40, 3, 10333876226197559893016101%N)];
  [(12, 1, 10484991953649388539854453%N); (13, 1, 10484991953649388539854453%N); (14, 1,
    10484991953649388539854453%N); (42, 3, 10333876226197559893016101%N)];
  [(45, 3, 10333876226197559893016101%N)];
  [(105, 4, 9671406556917033397649412%N)];
  [(106, 4, 9671406556917033397649412%N)];
  [(119, 3, 10484991953649388539854717%N)];
  [(120, 3, 10484991953649388539854717%N)];
  [(16, 1, 10333876197836756965621796%N); (127, 3, 10333876197836756965589028%N)];
  [(141, 3, 10484991953649388539854717%N)];
  [(142, 3, 10484991953649388539854717%N)];
  [(23, 3, 10333876197836756965621796%N)];
  [(219, 2, 18889465931491465756672%N)];
  [(25, 3, 10333876197836756965621796%N)];
  [(217, 2, 18889465931491465756672%N)];
  [(138, 2, 9671406559168833211334692%N)];
  [(134, 1, 9671406559168833211334692%N)];
  [(136, 1, 9671406559168833211334692%N)];
  [(62, 5, 9671406556917033397649408%N)];
  [(86, 5, 9671406556917033397649408%N)];
  [(21, 5, 9671406556917033397649408%N); (156, 1, 604462909807314587353088%N)];
  [(220, 2, 9672587727268462047789060%N)];
  [(85, 5, 9671406556917033397649408%N)];
  [(26, 2, 9463179709812999979008%N); (83, 1, 36%N)];
  [(149, 3, 9710366659131556648452132%N)];
  [(151, 3, 9710366659131556648452132%N)];
  [(153, 3, 9710366659131556648452132%N)];
  [(164, 5, 9672587727267912291975172%N)];
  [(159, 5, 9672587727267912291975172%N)];
  [(76, 2, 9710366659131419209498628%N); (198, 1, 9710366659131419209498660%N)];
  [(195, 1, 9710375887856153554583588%N)];
  [(215, 5, 9671406556917033397649408%N)];
  [(75, 3, 9672587727269011803602980%N)];
  [(30, 4, 11824362960044184043552%N)];
  [(29, 4, 11824362960044184043552%N)];
  [(48, 4, 10333876226197559893016101%N); (75, 1, 36%N)];
  [(50, 4, 10333876226197559893016101%N)];
  [(46, 4, 10333876226197559893016101%N)];
  [(41, 4, 10333876226197559893016101%N)];
  [(12, 1, 151115727451828646871120%N); (13, 1, 151115727451828646871120%N); (14, 1, 151115727451828646871120%N); (55,
    4, 10333876226197559893016101%N)];
  [(53, 4, 10333876226197559893016101%N)];
  [(22, 4, 10333876197836756965621796%N)];
  [(24, 4, 10333876197836756965621796%N)];
  [(23, 4, 10333876197836756965621796%N)];
  [(68, 2, 8589934592%N)];
  [(137, 3, 9671406559168833211334692%N)];
  [(131, 2, 9671406559168833748336676%N)];
  [(140, 3, 9671406559168833211334692%N)];
  [(84, 6, 9671406556917033397649408%N)];
  [(213, 6, 9671406556917033397649408%N)];
  [(20, 6, 9671406556917033397649408%N)];
  [(26, 3, 9463179709812999979008%N)];
  [(163, 6, 9672587727267912291975172%N)];
  [(192, 1, 9715098398454211275653156%N)];
  [(202, 2, 9715098398454211275653156%N)];
  [(90, 1, 604462909807314587353090%N)];
  [(94, 1, 604462909807314587353090%N)];
  [(99, 1, 281474976710656%N); (100, 1, 281474976710656%N)];
  [(101, 1, 281474976710656%N)];
  [(91, 1, 604462909807314587353090%N)];
  [(95, 1, 281474976710656%N); (96, 1, 281474976710656%N)];
  [(97, 1, 281474976710656%N); (98, 1, 281474976710656%N)];
  [(204, 2, 9715098398454211275653156%N); (205, 2, 9715098398454211275653156%N)];
  [(75, 1, 9672587727269011803602980%N); (77, 3, 9672587727267912291975172%N); (78, 3, 9672587727267912291975172%N)];
  [(147, 5, 10499214537445406680006527%N)];
  [(19, 3, 9709185488779990559359008%N)];
  [(83, 3, 2084%N)];
  [(17, 3, 9709185488779990559359008%N)];
  [(30, 5, 11824362960044184043552%N)];
  [(29, 5, 11824362960044184043552%N)];
  [(12, 1, 10484991953649388539854453%N); (13, 1, 10484991953649388539854453%N); (14, 1,
    10484991953649388539854453%N); (54, 5, 10333876226197559893016101%N)];
  [(48, 5, 10333876226197559893016101%N)];
  [(50, 5, 10333876226197559893016101%N)];
  [(49, 5, 10333876226197559893016101%N); (75, 1, 36%N)];
  [(51, 5, 10333876226197559893016101%N)];
  [(47, 5, 10333876226197559893016101%N)];
  [(22, 5, 10333876197836756965621796%N)];
  [(217, 4, 18889465931491465756672%N)];
  [(191, 2, 9715098398454211275653156%N)];
  [(90, 2, 604462909807314587353090%N)];
  [(94, 2, 604462909807314587353090%N)];
  [(99, 2, 281474976710656%N)];
  [(95, 2, 281474976710656%N)];
  [(92, 2, 604462909807314587353090%N)];
  [(93, 2, 604462909807314587353090%N)];
  [(97, 2, 281474976710656%N)];
  [(206, 3, 9715098398454211275653156%N)];
  [(12, 1, 10484991953649388539854453%N); (13, 1, 10484991953649388539854453%N); (14, 1,
    10484991953649388539854453%N); (55, 6, 10333876226197559893016101%N)];
  [(49, 6, 10333876226197559893016101%N)];
  [(51, 6, 10333876226197559893016101%N)];
  [(196, 4, 9710375887856153554583588%N)];
  [(89, 1, 9710375887856153554583588%N)];
  [(92, 3, 604462909807314587353090%N)];
  [(204, 4, 9715098398454211275653156%N)];
  [(78, 5, 9672587727267912291975172%N)];
  [(30, 7, 11824362960044184043552%N)];
  [(88, 2, 9710375887856153554583588%N)];
  [(30, 8, 11824362960044184043552%N)];
  [(83, 1, 36%N); (89, 3, 9710375887856153554583588%N)];
  [(89, 4, 9710375887856153554583588%N)]].

Definition sql_closure : list (list (nat * N)) := [
  [(79, 9671406556917033397649408%N); (61, 9671406556917033397649408%N); (10, 9671406556917033397649408%N); (20,
    9671406556917033397649408%N); (62, 9671406556917033397649408%N); (19, 9671406556917033397649408%N); (31,
    9671406556917033397649408%N); (60, 9671406556917033397649408%N); (58, 9672587727267912291975168%N); (57,
    9672587727267912291975168%N); (68, 11824362960044184043520%N); (74, 9671406556917033397649408%N)];
  [(18, 9463179709812999979008%N); (36, 9671406556917033397649412%N); (43, 9671406559168833211334660%N)];
  [(58, 9672587727267912291975168%N); (57, 9672587727267912291975168%N)];
  [(29, 9671406556917033397649536%N); (55, 604462909807314587353088%N)];
  [(62, 9671406556917033397649408%N); (19, 9671406556917033397649408%N); (31, 9671406556917033397649408%N); (60,
    9671406556917033397649408%N); (58, 9672587727267912291975168%N); (57, 9672587727267912291975168%N); (68,
    11824362960044184043520%N); (74, 9671406556917033397649408%N)];
  [(59, 9370060590764910689910874%N)];
  [(51, 36893488147419103232%N); (29, 36893488147419103360%N)];
  [(72, 9672587727267912291975204%N); (71, 9672587727267912291975204%N)];
  [(15, 11824362960044184043552%N); (14, 11824362960044184043552%N); (29, 65538%N)];
  [(57, 9672587727267912291975172%N)];
  [(36, 9671406556917033397649412%N)];
  [(23, 9671406628974627435577380%N); (42, 9671406917205003587289124%N); (7, 9671406917205003587321892%N); (40,
    9671406917205003587321892%N); (17, 9671406917205003587321892%N); (11, 9671406917205003587321892%N); (16,
    9671406945565806514716197%N); (6, 9822522673017635161554549%N); (39, 9822522673017635161554813%N); (73,
    9822522673017635161554813%N); (50, 9822522673017635161554813%N); (38, 9822522673017635161554813%N); (41,
    9822522673017635161554813%N); (51, 9822522673017635161554813%N); (29, 9822522673017635161554941%N); (63,
    9822522673017635161554813%N)];
  [(18, 9463179709812999979008%N); (36, 9671406556917033397649412%N); (43, 9671406559168833211334660%N)];
  [(51, 36893488147419103232%N); (29, 36893488147419103360%N)];
  [(63, 65536%N)];
  [(51, 9709185488779990559358976%N); (29, 9709185488779990559359104%N)];
  [(29, 9671406556917033397649408%N)];
  [(51, 9463179709812999979010%N); (29, 9463179709812999979138%N)];
  [(54, 9710366659131556648452100%N); (53, 9710366659131556648452132%N); (52, 9710366659131556648452132%N); (23,
    10314829568938871235870756%N); (29, 10465945612981878961848317%N); (42, 10314829857169247387582500%N); (7,
    10314829857169247387615268%N); (40, 10314829857169247387615268%N); (17, 10314829857169247387615268%N); (11,
    10314829857169247387615268%N); (16, 10314829885530050315009573%N); (6, 10465945612981878961847925%N); (39,
    10465945612981878961848189%N); (73, 10465945612981878961848189%N); (50, 10465945612981878961848189%N); (38,
    10465945612981878961848189%N); (41, 10465945612981878961848189%N); (51, 10465945612981878961848189%N); (63,
    10465945612981878961848189%N)];
  [(25, 36%N); (23, 36%N); (42, 288230376151711780%N); (7, 288230376151744548%N); (40, 288230376151744548%N); (17,
    288230376151744548%N); (11, 288230376151744548%N); (16, 316591179079138853%N); (6, 151116044043007725977205%N);
    (39, 151116044043007725977469%N); (73, 151116044043007725977469%N); (50, 151116044043007725977469%N); (38,
    151116044043007725977469%N); (41, 151116044043007725977469%N); (51, 151116044043007725977469%N); (29,
    151116044043007725977597%N); (63, 151116044043007725977469%N)];
  [(25, 36%N); (23, 36%N); (42, 288230376151711780%N); (7, 288230376151744548%N); (40, 288230376151744548%N); (17,
    288230376151744548%N); (11, 288230376151744548%N); (16, 316591179079138853%N); (6, 151116044043007725977205%N);
    (39, 151116044043007725977469%N); (60, 4%N); (58, 1181170350878894325764%N); (57, 1181170350878894325764%N); (68,
    9463179709812999979008%N); (73, 151116044043007725977469%N); (50, 151116044043007725977469%N); (38,
    151116044043007725977469%N); (41, 151116044043007725977469%N); (51, 151116044043007725977469%N); (29,
    151116044043007725977597%N); (63, 151116044043007725977469%N)];
  [(73, 10484991953649388539854717%N); (50, 10484991953649388539854717%N); (38, 10484991953649388539854717%N); (41,
    10484991953649388539854717%N); (51, 10484991953649388539854717%N); (29, 10484991953649388539854845%N); (63,
    10484991953649388539854717%N)];
  [(73, 10484991953649388539854717%N); (50, 10484991953649388539854717%N); (38, 10484991953649388539854717%N); (41,
    10484991953649388539854717%N); (51, 10484991953649388539854717%N); (29, 10484991953649388539854845%N); (63,
    10484991953649388539854717%N)];
  [(23, 18889465931478580854784%N); (42, 18889754161854732566528%N); (7, 18889754161854732599296%N); (40,
    18889754161854732599296%N); (17, 18889754161854732599296%N); (11, 18889754161854732599296%N); (16,
    18889782522657659993601%N); (6, 170005509974486306831953%N); (39, 170005509974486306832217%N); (73,
    170005509974486306832217%N); (50, 170005509974486306832217%N); (38, 170005509974486306832217%N); (41,
    170005509974486306832217%N); (51, 170005509974486306832217%N); (29, 170005509974486306832345%N); (63,
    170005509974486306832217%N); (76, 18889465931491465756672%N); (75, 18889465931491465756672%N)];
  [(63, 10484991953649388539854717%N)];
  [(17, 10333876197836756965621796%N); (11, 10333876197836756965621796%N); (16, 10333876226197559893016101%N); (6,
    10484991953649388539854453%N); (39, 10484991953649388539854717%N); (73, 10484991953649388539854717%N); (50,
    10484991953649388539854717%N); (38, 10484991953649388539854717%N); (41, 10484991953649388539854717%N); (51,
    10484991953649388539854717%N); (29, 10484991953649388539854845%N); (63, 10484991953649388539854717%N)];
  [(63, 10484991953649388539854717%N)];
  [(63, 10484991953649388539854717%N)];
  [(49, 9671406559168833211334692%N); (48, 9671406559168833211334692%N); (23, 9671406559168833752530980%N); (42,
    9671406847399209904242724%N); (7, 9671406847399209904275492%N); (40, 9671406847399209904275492%N); (17,
    9671406847399209904275492%N); (11, 9671406847399209904275492%N); (16, 9671406875760012831669797%N); (6,
    9822522603211841478508149%N); (39, 9822522603211841478508413%N); (73, 9822522603211841478508413%N); (50,
    9822522603211841478508413%N); (38, 9822522603211841478508413%N); (41, 9822522603211841478508413%N); (51,
    9822522603211841478508413%N); (29, 9822522603211841478508541%N); (63, 9822522603211841478508413%N)];
  [(36, 9671406556917033397649412%N)];
  [(51, 9709185488779990559358976%N); (29, 9709185488779990559359104%N)];
  [(51, 9463179709812999979010%N); (29, 9463179709812999979138%N)];
  [(77, 9671406556917033397649408%N)];
  [(62, 9671406556917033397649408%N); (19, 9671406556917033397649408%N); (31, 9671406556917033397649408%N); (60,
    9671406556917033397649408%N); (58, 9672587727267912291975168%N); (57, 9672587727267912291975168%N); (68,
    11824362960044184043520%N); (74, 9671406556917033397649408%N)];
  [(12, 9463179709812999979008%N); (57, 9671406556917033397649408%N)];
  [(29, 9710366659131556648452132%N)];
  [(26, 9710366659131419209498628%N); (27, 9672587727267912291975172%N); (77, 9672587727268462047789060%N)];
  [(29, 10499214537445406680006655%N)];
  [(9, 9709185488779990559359008%N); (8, 9709185488779990559359008%N); (30, 2080%N); (29, 2080%N)];
  [(71, 9672587727267912291975204%N)];
  [(14, 11824362960044184043552%N); (29, 65538%N)];
  [(30, 36%N); (29, 36%N)];
  [(39, 10484991953649388539854717%N); (73, 10484991953649388539854717%N); (50, 10484991953649388539854717%N); (38,
    10484991953649388539854717%N); (41, 10484991953649388539854717%N); (51, 10484991953649388539854717%N); (29,
    10484991953649388539854845%N); (63, 10484991953649388539854717%N)];
  [(39, 10484991953649388539854717%N); (73, 10484991953649388539854717%N); (50, 10484991953649388539854717%N); (38,
    10484991953649388539854717%N); (41, 10484991953649388539854717%N); (51, 10484991953649388539854717%N); (29,
    10484991953649388539854845%N); (63, 10484991953649388539854717%N)];
  [(39, 10484991953649388539854717%N); (73, 10484991953649388539854717%N); (50, 10484991953649388539854717%N); (38,
    10484991953649388539854717%N); (41, 10484991953649388539854717%N); (51, 10484991953649388539854717%N); (29,
    10484991953649388539854845%N); (63, 10484991953649388539854717%N)];
  [(40, 10333876197836756965621796%N); (17, 10333876197836756965621796%N); (11, 10333876197836756965621796%N); (16,
    10333876226197559893016101%N); (6, 10484991953649388539854453%N); (39, 10484991953649388539854717%N); (73,
    10484991953649388539854717%N); (50, 10484991953649388539854717%N); (38, 10484991953649388539854717%N); (41,
    10484991953649388539854717%N); (51, 10484991953649388539854717%N); (29, 10484991953649388539854845%N); (63,
    10484991953649388539854717%N)];
  [(6, 10484991953649388539854453%N); (39, 10484991953649388539854717%N); (73, 10484991953649388539854717%N); (50,
    10484991953649388539854717%N); (38, 10484991953649388539854717%N); (41, 10484991953649388539854717%N); (51,
    10484991953649388539854717%N); (29, 10484991953649388539854845%N); (63, 10484991953649388539854717%N)];
  [(6, 10484991953649388539854453%N); (39, 10484991953649388539854717%N); (73, 10484991953649388539854717%N); (50,
    10484991953649388539854717%N); (38, 10484991953649388539854717%N); (41, 10484991953649388539854717%N); (51,
    10484991953649388539854717%N); (29, 10484991953649388539854845%N); (63, 10484991953649388539854717%N)];
  [(6, 10484991953649388539854453%N); (39, 10484991953649388539854717%N); (73, 10484991953649388539854717%N); (50,
    10484991953649388539854717%N); (38, 10484991953649388539854717%N); (41, 10484991953649388539854717%N); (51,
    10484991953649388539854717%N); (29, 10484991953649388539854845%N); (63, 10484991953649388539854717%N)];
  [(6, 10484991953649388539854453%N); (39, 10484991953649388539854717%N); (73, 10484991953649388539854717%N); (50,
    10484991953649388539854717%N); (38, 10484991953649388539854717%N); (41, 10484991953649388539854717%N); (51,
    10484991953649388539854717%N); (29, 10484991953649388539854845%N); (63, 10484991953649388539854717%N)];
  [(6, 10484991953649388539854453%N); (39, 10484991953649388539854717%N); (73, 10484991953649388539854717%N); (50,
    10484991953649388539854717%N); (38, 10484991953649388539854717%N); (41, 10484991953649388539854717%N); (51,
    10484991953649388539854717%N); (29, 10484991953649388539854845%N); (63, 10484991953649388539854717%N)];
  [(6, 10484991953649388539854453%N); (39, 10484991953649388539854717%N); (73, 10484991953649388539854717%N); (50,
    10484991953649388539854717%N); (38, 10484991953649388539854717%N); (41, 10484991953649388539854717%N); (51,
    10484991953649388539854717%N); (29, 10484991953649388539854845%N); (63, 10484991953649388539854717%N)];
  [(6, 151115727451828646871120%N); (39, 151115727451828646871384%N); (73, 151115727451828646871384%N); (50,
    151115727451828646871384%N); (38, 151115727451828646871384%N); (41, 151115727451828646871384%N); (51,
    151115727451828646871384%N); (29, 151115727451828646871512%N); (63, 151115727451828646871384%N)];
  [(51, 10333876226197559893016101%N); (29, 10333876226197559893016229%N)];
  [(6, 10484991953649388539854453%N); (39, 10484991953649388539854717%N); (73, 10484991953649388539854717%N); (50,
    10484991953649388539854717%N); (38, 10484991953649388539854717%N); (41, 10484991953649388539854717%N); (51,
    10484991953649388539854717%N); (29, 10484991953649388539854845%N); (63, 10484991953649388539854717%N)];
  [(23, 9671406556917033397649412%N); (42, 9671406845147409549361156%N); (7, 9671406845147409549393924%N); (40,
    9671406845147409549393924%N); (17, 9671406845147409549393924%N); (11, 9671406845147409549393924%N); (16,
    9671406873508212476788229%N); (6, 9822522600960041123626581%N); (39, 9822522600960041123626845%N); (73,
    9822522600960041123626845%N); (50, 9822522600960041123626845%N); (38, 9822522600960041123626845%N); (41,
    9822522600960041123626845%N); (51, 9822522600960041123626845%N); (29, 9822522600960041123626973%N); (63,
    9822522600960041123626845%N)];
  [(23, 9671406556917033397649412%N); (42, 9671406845147409549361156%N); (7, 9671406845147409549393924%N); (40,
    9671406845147409549393924%N); (17, 9671406845147409549393924%N); (11, 9671406845147409549393924%N); (16,
    9671406873508212476788229%N); (6, 9822522600960041123626581%N); (39, 9822522600960041123626845%N); (73,
    9822522600960041123626845%N); (50, 9822522600960041123626845%N); (38, 9822522600960041123626845%N); (41,
    9822522600960041123626845%N); (51, 9822522600960041123626845%N); (29, 9822522600960041123626973%N); (63,
    9822522600960041123626845%N)];
  [(73, 10484991953649388539854717%N); (50, 10484991953649388539854717%N); (38, 10484991953649388539854717%N); (41,
    10484991953649388539854717%N); (51, 10484991953649388539854717%N); (29, 10484991953649388539854845%N); (63,
    10484991953649388539854717%N)];
  [(73, 10484991953649388539854717%N); (50, 10484991953649388539854717%N); (38, 10484991953649388539854717%N); (41,
    10484991953649388539854717%N); (51, 10484991953649388539854717%N); (29, 10484991953649388539854845%N); (63,
    10484991953649388539854717%N)];
  [(7, 10333876197836756965621796%N); (40, 10333876197836756965621796%N); (17, 10333876197836756965621796%N); (11,
    10333876197836756965621796%N); (16, 10333876226197559893016101%N); (6, 10484991953649388539854453%N); (39,
    10484991953649388539854717%N); (73, 10484991953649388539854717%N); (50, 10484991953649388539854717%N); (38,
    10484991953649388539854717%N); (41, 10484991953649388539854717%N); (51, 10484991953649388539854717%N); (29,
    10484991953649388539854845%N); (63, 10484991953649388539854717%N)];
  [(58, 1181170350878894325764%N); (57, 1181170350878894325764%N)];
  [(76, 18889465931491465756672%N); (75, 18889465931491465756672%N)];
  [(21, 8589934592%N); (75, 18889465931491465756672%N)];
  [(23, 147573952589676412928%N); (42, 147862182965828124672%N); (7, 147862182965828157440%N); (40,
    147862182965828157440%N); (17, 147862182965828157440%N); (11, 147862182965828157440%N); (16,
    147890543768755551745%N); (6, 151263617995597402390097%N); (39, 151263617995597402390361%N); (73,
    151263617995597402390361%N); (50, 151263617995597402390361%N); (38, 151263617995597402390361%N); (41,
    151263617995597402390361%N); (51, 151263617995597402390361%N); (29, 151263617995597402390489%N); (63,
    151263617995597402390361%N)];
  [(45, 9671406559168833748336676%N); (47, 9671406559168833211334692%N)];
  [(77, 9671406556917033397649408%N)];
  [(12, 9463179709812999979008%N); (57, 9671406556917033397649408%N)];
  [(9, 9709185488779990559359008%N); (8, 9709185488779990559359008%N); (30, 2080%N); (29, 2080%N)];
  [(29, 9671406556917033397649536%N); (55, 604462909807314587353088%N)];
  [(23, 9672587727268462047789060%N); (42, 9672588015498838199500804%N); (7, 9672588015498838199533572%N); (40,
    9672588015498838199533572%N); (17, 9672588015498838199533572%N); (11, 9672588015498838199533572%N); (16,
    9672588043859641126927877%N); (6, 9823703771311469773766229%N); (39, 9823703771311469773766493%N); (73,
    9823703771311469773766493%N); (50, 9823703771311469773766493%N); (38, 9823703771311469773766493%N); (41,
    9823703771311469773766493%N); (51, 9823703771311469773766493%N); (29, 9823703771311469773766621%N); (63,
    9823703771311469773766493%N)];
  [(57, 9671406556917033397649408%N)];
  [(30, 36%N); (29, 36%N)];
  [(29, 9710366659131556648452132%N)];
  [(29, 10465945612981878961848317%N)];
  [(52, 9710366659131556648452132%N); (23, 10314829568938871235870756%N); (29, 10465945612981878961848317%N); (42,
    10314829857169247387582500%N); (7, 10314829857169247387615268%N); (40, 10314829857169247387615268%N); (17,
    10314829857169247387615268%N); (11, 10314829857169247387615268%N); (16, 10314829885530050315009573%N); (6,
    10465945612981878961847925%N); (39, 10465945612981878961848189%N); (73, 10465945612981878961848189%N); (50,
    10465945612981878961848189%N); (38, 10465945612981878961848189%N); (41, 10465945612981878961848189%N); (51,
    10465945612981878961848189%N); (63, 10465945612981878961848189%N)];
  [(27, 9672587727267912291975172%N); (77, 9672587727268462047789060%N)];
  [(27, 9672587727267912291975172%N)];
  [(67, 9710366659131419209498660%N); (66, 9710375887856153554583588%N); (70, 9710375887856153554583588%N); (51,
    10314838797663468142002212%N); (29, 10314838797663468142002340%N)];
  [(77, 9671406556917033397649408%N)];
  [(23, 9672587727269011803602980%N); (42, 9672588015499387955314724%N); (7, 9672588015499387955347492%N); (40,
    9672588015499387955347492%N); (17, 9672588015499387955347492%N); (11, 9672588015499387955347492%N); (16,
    9672588043860190882741797%N); (6, 9823703771312019529580149%N); (39, 9823703771312019529580413%N); (73,
    9823703771312019529580413%N); (50, 9823703771312019529580413%N); (38, 9823703771312019529580413%N); (41,
    9823703771312019529580413%N); (51, 9823703771312019529580413%N); (29, 9823703771312019529580541%N); (63,
    9823703771312019529580413%N)];
  [(60, 4%N); (58, 1181170350878894325764%N); (57, 1181170350878894325764%N); (68, 9463179709812999979008%N)];
  [(25, 36%N); (23, 36%N); (42, 288230376151711780%N); (7, 288230376151744548%N); (40, 288230376151744548%N); (17,
    288230376151744548%N); (11, 288230376151744548%N); (16, 316591179079138853%N); (6, 151116044043007725977205%N);
    (39, 151116044043007725977469%N); (60, 4%N); (58, 1181170350878894325764%N); (57, 1181170350878894325764%N); (68,
    9463179709812999979008%N); (73, 151116044043007725977469%N); (50, 151116044043007725977469%N); (38,
    151116044043007725977469%N); (41, 151116044043007725977469%N); (51, 151116044043007725977469%N); (29,
    151116044043007725977597%N); (63, 151116044043007725977469%N)];
  [(6, 151115727451828646871120%N); (39, 151115727451828646871384%N); (73, 151115727451828646871384%N); (50,
    151115727451828646871384%N); (38, 151115727451828646871384%N); (41, 151115727451828646871384%N); (51,
    151115727451828646871384%N); (29, 151115727451828646871512%N); (63, 151115727451828646871384%N)];
  [(51, 10333876226197559893016101%N); (29, 10333876226197559893016229%N)];
  [(21, 8589934592%N); (75, 18889465931491465756672%N)];
  [(23, 8589934592%N); (42, 288230384741646336%N); (7, 288230384741679104%N); (40, 288230384741679104%N); (17,
    288230384741679104%N); (11, 288230384741679104%N); (16, 316591187669073409%N); (6, 151116044043016315911761%N);
    (39, 151116044043016315912025%N); (73, 151116044043016315912025%N); (50, 151116044043016315912025%N); (38,
    151116044043016315912025%N); (41, 151116044043016315912025%N); (51, 151116044043016315912025%N); (29,
    151116044043016315912153%N); (63, 151116044043016315912025%N)];
  [(47, 9671406559168833211334692%N)];
  [(29, 9671406559168833748336676%N)];
  [(48, 9671406559168833211334692%N); (23, 9671406559168833752530980%N); (42, 9671406847399209904242724%N); (7,
    9671406847399209904275492%N); (40, 9671406847399209904275492%N); (17, 9671406847399209904275492%N); (11,
    9671406847399209904275492%N); (16, 9671406875760012831669797%N); (6, 9822522603211841478508149%N); (39,
    9822522603211841478508413%N); (73, 9822522603211841478508413%N); (50, 9822522603211841478508413%N); (38,
    9822522603211841478508413%N); (41, 9822522603211841478508413%N); (51, 9822522603211841478508413%N); (29,
    9822522603211841478508541%N); (63, 9822522603211841478508413%N)];
  [(57, 9671406556917033397649408%N)];
  [(77, 9671406556917033397649408%N)];
  [(29, 9671406556917033397649408%N)];
  [(27, 9672587727267912291975172%N)];
  [(64, 9715098398454211275653156%N); (29, 9715098398454211275653156%N)];
  [(33, 604462909807314587353090%N); (34, 281474976710656%N)];
  [(60, 4%N); (58, 1181170350878894325764%N); (57, 1181170350878894325764%N); (66, 9228724734345084932%N); (68,
    9463179709812999979008%N); (70, 9228724734345084932%N); (51, 604472138532048932503556%N); (29,
    604472138532048932503684%N)];
  [(25, 9672587727269011803602980%N); (23, 9672587727269011803602980%N); (42, 9672588015499387955314724%N); (7,
    9672588015499387955347492%N); (40, 9672588015499387955347492%N); (17, 9672588015499387955347492%N); (11,
    9672588015499387955347492%N); (16, 9672588043860190882741797%N); (6, 9823703771312019529580149%N); (39,
    9823703771312019529580413%N); (73, 9823703771312019529580413%N); (50, 9823703771312019529580413%N); (38,
    9823703771312019529580413%N); (41, 9823703771312019529580413%N); (51, 9823703771312019529580413%N); (29,
    9823703771312019529580541%N); (63, 9823703771312019529580413%N)];
  [(29, 10499214537445406680006527%N)];
  [(8, 9709185488779990559359008%N); (30, 2080%N); (29, 2080%N)];
  [(29, 2084%N)];
  [(23, 9709185488779990559359008%N); (42, 9709185777010366711070752%N); (7, 9709185777010366711103520%N); (40,
    9709185777010366711103520%N); (17, 9709185777010366711103520%N); (11, 9709185777010366711103520%N); (16,
    9709185805371169638497825%N); (6, 9860301532822998285336177%N); (39, 9860301532822998285336441%N); (73,
    9860301532822998285336441%N); (50, 9860301532822998285336441%N); (38, 9860301532822998285336441%N); (41,
    9860301532822998285336441%N); (51, 9860301532822998285336441%N); (29, 9860301532822998285336569%N); (63,
    9860301532822998285336441%N)];
  [(6, 10484991953649388539854453%N); (39, 10484991953649388539854717%N); (73, 10484991953649388539854717%N); (50,
    10484991953649388539854717%N); (38, 10484991953649388539854717%N); (41, 10484991953649388539854717%N); (51,
    10484991953649388539854717%N); (29, 10484991953649388539854845%N); (63, 10484991953649388539854717%N)];
  [(25, 36%N); (23, 36%N); (42, 288230376151711780%N); (7, 288230376151744548%N); (40, 288230376151744548%N); (17,
    288230376151744548%N); (11, 288230376151744548%N); (16, 316591179079138853%N); (6, 151116044043007725977205%N);
    (39, 151116044043007725977469%N); (60, 4%N); (58, 1181170350878894325764%N); (57, 1181170350878894325764%N); (68,
    9463179709812999979008%N); (73, 151116044043007725977469%N); (50, 151116044043007725977469%N); (38,
    151116044043007725977469%N); (41, 151116044043007725977469%N); (51, 151116044043007725977469%N); (29,
    151116044043007725977597%N); (63, 151116044043007725977469%N)];
  [(23, 18889465931491465756672%N); (42, 18889754161867617468416%N); (7, 18889754161867617501184%N); (40,
    18889754161867617501184%N); (17, 18889754161867617501184%N); (11, 18889754161867617501184%N); (16,
    18889782522670544895489%N); (6, 170005509974499191733841%N); (39, 170005509974499191734105%N); (73,
    170005509974499191734105%N); (50, 170005509974499191734105%N); (38, 170005509974499191734105%N); (41,
    170005509974499191734105%N); (51, 170005509974499191734105%N); (29, 170005509974499191734233%N); (63,
    170005509974499191734105%N)];
  [(29, 9715098398454211275653156%N)];
  [(70, 4722510598057721069568%N); (51, 609185420405372308488192%N); (29, 609185420405372308488320%N)];
  [(34, 281474976710656%N)];
  [(66, 9710375887856153554583588%N); (70, 9710375887856153554583588%N); (51, 10314838797663468142002212%N); (29,
    10314838797663468142002340%N)];
  [(33, 604462909807314587353090%N); (34, 281474976710656%N)];
  [(6, 10484991953649388539854453%N); (39, 10484991953649388539854717%N); (73, 10484991953649388539854717%N); (50,
    10484991953649388539854717%N); (38, 10484991953649388539854717%N); (41, 10484991953649388539854717%N); (51,
    10484991953649388539854717%N); (29, 10484991953649388539854845%N); (63, 10484991953649388539854717%N)];
  [(32, 9710375887856153554583588%N)];
  [(33, 604462909807314587353090%N); (34, 281474976710656%N)];
  [(64, 9715098398454211275653156%N); (29, 9715098398454211275653156%N)];
  [(23, 9672587727267912291975172%N); (42, 9672588015498288443686916%N); (7, 9672588015498288443719684%N); (40,
    9672588015498288443719684%N); (17, 9672588015498288443719684%N); (11, 9672588015498288443719684%N); (16,
    9672588043859091371113989%N); (6, 9823703771310920017952341%N); (39, 9823703771310920017952605%N); (73,
    9823703771310920017952605%N); (50, 9823703771310920017952605%N); (38, 9823703771310920017952605%N); (41,
    9823703771310920017952605%N); (51, 9823703771310920017952605%N); (29, 9823703771310920017952733%N); (63,
    9823703771310920017952605%N)];
  [(60, 4%N); (58, 1181170350878894325764%N); (57, 1181170350878894325764%N); (68, 9463179709812999979008%N)];
  [(23, 9710375887856153554583588%N); (42, 9710376176086529706295332%N); (7, 9710376176086529706328100%N); (40,
    9710376176086529706328100%N); (17, 9710376176086529706328100%N); (11, 9710376176086529706328100%N); (16,
    9710376204447332633722405%N); (6, 9861491931899161280560757%N); (39, 9861491931899161280561021%N); (73,
    9861491931899161280561021%N); (50, 9861491931899161280561021%N); (38, 9861491931899161280561021%N); (41,
    9861491931899161280561021%N); (51, 9861491931899161280561021%N); (29, 9861491931899161280561149%N); (63,
    9861491931899161280561021%N)];
  [(30, 36%N); (29, 36%N)];
  [];
  [];
  [];
  [];
  [];
  [];
  [];
  [];
  [];
  [];
  [];
  [];
  [];
  [];
  [];
  [];
  [];
  [];
  [];
  [];
  [];
  [];
  [];
  [];
  [];
  [];
  [];
  [];
  [];
  [];
  [];
  [];
  [];
  [];
  [];
  [];
  [];
  [];
  [];
  [];
  [];
  [];
  [];
  [];
  [];
  [];
  [];
  [];
  [];
  [];
  [];
  [];
  [];
  [];
  [];
  [];
  [];
  [];
  [];
  [];
  [];
  [];
  [];
  [];
  [];
  [];
  [];
  [];
  [];
  [];
  [];
  [];
  [];
  [];
  [];
  [];
  [];
  [];
  [];
  [];
  [];
  [];
  [];
  [];
  [];
  [];
  [];
  [];
  [];
  [];
  [];
  [];
  [];
  [];
  [];
  [];
  [];
  [];
  [];
  [];
  [];
  [];
  [];
  [];
  [];
  [];
  [];
  [];
  [];
  [];
  [];
  [];
  [];
  [];
  [];
  [];
  [];
  [];
  [];
  [];
  [];
  [];
  [];
  [];
  [];
  [];
  [];
  [];
  [];
  [];
  [];
  [];
  [];
  [];
  [];
  [];
  [];
  [];
  [];
  [];
  [];
  [];
  [];
  [];
  [];
  [];
  [];
  [];
  [];
  [];
  [];
  [];
  [];
  [];
  [];
  [];
  [];
  [];
  [];
  [];
  [];
  [];
  [];
  [];
  [];
  [];
  [];
  [];
  [];
  [];
  [];
  [];
  [];
  [];
  [];
  [];
  [];
  [];
  [];
  [];
  [];
  [];
  [];
  [];
  [];
  [];
  [];
  [];
  [];
  [];
  [];
  [];
  [];
  [];
  [];
  [];
  [];
  [];
  [];
  [];
  [];
  [];
  [];
  [];
  [];
  [];
  [];
  [];
  [];
  [];
  [];
  []].

Definition sql_first : list N := [
    16384%N; 65536%N; 131072%N; 1152921504606846976%N; 4611686018427387904%N; 4611686018427387904%N;
    9370060581757711433072722%N; 9370060590764910689910866%N; 604462909807314587353088%N;
    604462909807314587353088%N; 262144%N; 2097152%N; 2%N; 2%N; 604462909807314587353088%N;
    604462909807314587353088%N; 9370060581757711433072722%N; 9370060581757711435169874%N; 1180591638326777217024%N;
    75557863725914591854592%N; 1073741824%N; 4294967296%N; 4294967296%N; 9370060590764910689910866%N;
    9370060590764910689910866%N; 9370060590764910689910866%N; 137438953472%N; 549755813888%N; 549755813888%N;
    604462909807314587353088%N; 604462909807314587353088%N; 75557863734710416441344%N; 4722510598057721069568%N;
    9228724734345084928%N; 9223939659732615168%N; 9223939659732615168%N; 2251799813685248%N; 2251799813685248%N;
    8765597671950396845719552%N; 9370060581757711433072722%N; 9370060590764910689910866%N;
    3929008913747544817795072%N; 9370060590764910689910866%N; 576460752303423488%N; 576460752303423488%N; 4194304%N;
    4194304%N; 537001984%N; 9370060590764910689910866%N; 9370060590764910689910866%N; 9370060581757711433072642%N;
    604462909807314587353088%N; 9370060590764910689910866%N; 9370060590764910689910866%N;
    9370060590764910689910874%N; 604462909807314587353088%N; 604462909807314587353088%N; 9463179709812999979008%N;
    9463179709812999979008%N; 2147500032%N; 85021043435727323398144%N; 87382226685993941204992%N;
    87382226685958507462656%N; 4835703278458516698824704%N; 604462909807314587418624%N; 604462909807314587418624%N;
    604462909807314587353090%N; 604462909807314587353090%N; 75557863725914323419136%N; 75557863725914323419136%N;
    604462909807314587353090%N; 2%N; 2%N; 9370060581757711433072722%N; 77919046967349146025984%N;
    18889465931478580854784%N; 18889465931478580854784%N; 37778931862957161709568%N; 37778931862957161709568%N;
    87382226685993941204992%N].

Definition sql_null : list bool := [
    true; true; true; true; false; true; false; false; false; false; false; false; false; true; false; false; false;
    false; false; false; false; false; true; false; true; false; false; false; true; false; false; false; false;
    false; false; true; false; true; false; false; false; false; false; false; true; false; true; true; false;
    false; false; false; false; false; false; false; true; false; false; true; false; false; false; false; false;
    true; false; false; false; true; false; false; false; false; false; false; false; false; true; false].

Definition sql_weight : list nat := [
    14; 14; 14; 14; 16; 16; 9; 5; 16; 15; 16; 16; 16; 15; 16; 15; 8; 7; 14; 16; 16; 16; 15; 3; 2; 2; 16; 16; 15; 14;
    13; 16; 16; 14; 14; 13; 16; 15; 13; 10; 6; 14; 4; 16; 15; 16; 15; 14; 1; 0; 12; 13; 2; 1; 0; 16; 15; 13; 12; 14;
    11; 9; 10; 14; 13; 12; 11; 10; 16; 15; 12; 16; 15; 11; 16; 16; 15; 16; 15; 8].

Definition sql_cert : cert :=
  {| k_terms := 83; k_top := 79; k_kernel := sql_kernel; k_closure := sql_closure; k_first := sql_first; k_null := sql_null;
     k_weight := sql_weight; k_unit := 16 |}.
