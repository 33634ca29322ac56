(** Sums of squares that show the initial covariance to be positive semidefinite:
    weights and vectors.  They are checked, not trusted. *)

From Coq Require Import ZArith List.
Import ListNotations.
Open Scope Z_scope.

(** for 300000 times (A + A') *)
Definition cert_ideal : list (Z * list Z) := [
  (1, [ 9965; 7556; (-843); 12674; 5028; 0; 723; (-692); 60; 0; 0; 0; (-181); (-120); 0]);
  (1, [ 0; 15729; (-148); 415; 14617; 210; 492; 562; (-105); 0; 0; 0; 201; (-18); 0]);
  (1, [ 0; 0; 9174; (-562); 3739; 5203; 499; 403; 4; 0; 0; 0; (-79); (-273); (-65)]);
  (1, [ 0; 0; 0; 10039; 310; (-793); 82; (-441); (-908); 0; 0; 0; 395; 78; (-4)]);
  (1, [ 0; 0; 0; 0; 11692; (-2854); 503; 300; 154; 0; 0; 0; (-5); 288; 21]);
  (1, [ 0; 0; 0; 0; 0; 6466; (-93); (-172); (-43); 0; 0; 0; (-175); 450; (-31)]);
  (1, [ 0; 0; 0; 0; 0; 0; 1192; (-91); 251; 0; 0; 0; 21; (-400); 16]);
  (1, [ 0; 0; 0; 0; 0; 0; 0; 1193; (-782); 0; 0; 0; 454; (-230); 12]);
  (1, [ 0; 0; 0; 0; 0; 0; 0; 0; 1328; 0; 0; 0; 552; (-21); (-2)]);
  (1, [ 0; 0; 0; 0; 0; 0; 0; 0; 0; 0; 0; 0; 2220; 60; (-6)]);
  (1, [ 0; 0; 0; 0; 0; 0; 0; 0; 0; 0; 0; 0; 0; 2259; 0]);
  (1, [ 0; 0; 0; 0; 0; 0; 0; 0; 0; 0; 0; 0; 0; 0; 545]);
  (4460, [ 1; 1; 0; 0; 0; 0; 0; 0; 0; 0; 0; 0; 0; 0; 0]);
  (495, [ 1; 0; 1; 0; 0; 0; 0; 0; 0; 0; 0; 0; 0; 0; 0]);
  (2400, [ 0; (-1); 1; 0; 0; 0; 0; 0; 0; 0; 0; 0; 0; 0; 0]);
  (3590, [ 1; 0; 0; 1; 0; 0; 0; 0; 0; 0; 0; 0; 0; 0; 0]);
  (7721, [ 0; 1; 0; 1; 0; 0; 0; 0; 0; 0; 0; 0; 0; 0; 0]);
  (1390, [ 0; 0; 1; 1; 0; 0; 0; 0; 0; 0; 0; 0; 0; 0; 0]);
  (4020, [ (-1); 0; 0; 0; 1; 0; 0; 0; 0; 0; 0; 0; 0; 0; 0]);
  (2361, [ 0; (-1); 0; 0; 1; 0; 0; 0; 0; 0; 0; 0; 0; 0; 0]);
  (334, [ 0; 0; 1; 0; 1; 0; 0; 0; 0; 0; 0; 0; 0; 0; 0]);
  (1699, [ 0; 0; 0; (-1); 1; 0; 0; 0; 0; 0; 0; 0; 0; 0; 0]);
  (3090, [ 0; (-1); 0; 0; 0; 1; 0; 0; 0; 0; 0; 0; 0; 0; 0]);
  (1242, [ 0; 0; (-1); 0; 0; 1; 0; 0; 0; 0; 0; 0; 0; 0; 0]);
  (2137, [ 0; 0; 0; (-1); 0; 1; 0; 0; 0; 0; 0; 0; 0; 0; 0]);
  (8789, [ 0; 0; 0; 0; (-1); 1; 0; 0; 0; 0; 0; 0; 0; 0; 0]);
  (4695, [ (-1); 0; 0; 0; 0; 0; 1; 0; 0; 0; 0; 0; 0; 0; 0]);
  (1656, [ 0; (-1); 0; 0; 0; 0; 1; 0; 0; 0; 0; 0; 0; 0; 0]);
  (4479, [ 0; 0; 1; 0; 0; 0; 1; 0; 0; 0; 0; 0; 0; 0; 0]);
  (10242, [ 0; 0; 0; (-1); 0; 0; 1; 0; 0; 0; 0; 0; 0; 0; 0]);
  (935, [ 0; 0; 0; 0; 1; 0; 1; 0; 0; 0; 0; 0; 0; 0; 0]);
  (2309, [ 0; 0; 0; 0; 0; 1; 1; 0; 0; 0; 0; 0; 0; 0; 0]);
  (4220, [ (-1); 0; 0; 0; 0; 0; 0; 1; 0; 0; 0; 0; 0; 0; 0]);
  (10946, [ 0; (-1); 0; 0; 0; 0; 0; 1; 0; 0; 0; 0; 0; 0; 0]);
  (2698, [ 0; 0; 1; 0; 0; 0; 0; 1; 0; 0; 0; 0; 0; 0; 0]);
  (9137, [ 0; 0; 0; (-1); 0; 0; 0; 1; 0; 0; 0; 0; 0; 0; 0]);
  (13085, [ 0; 0; 0; 0; (-1); 0; 0; 1; 0; 0; 0; 0; 0; 0; 0]);
  (3810, [ 0; 0; 0; 0; 0; 1; 0; 1; 0; 0; 0; 0; 0; 0; 0]);
  (453, [ 0; 0; 0; 0; 0; 0; 1; 1; 0; 0; 0; 0; 0; 0; 0]);
  (2100, [ 1; 0; 0; 0; 0; 0; 0; 0; 1; 0; 0; 0; 0; 0; 0]);
  (1815, [ 0; (-1); 0; 0; 0; 0; 0; 0; 1; 0; 0; 0; 0; 0; 0]);
  (1656, [ 0; 0; (-1); 0; 0; 0; 0; 0; 1; 0; 0; 0; 0; 0; 0]);
  (795, [ 0; 0; 0; 1; 0; 0; 0; 0; 1; 0; 0; 0; 0; 0; 0]);
  (939, [ 0; 0; 0; 0; (-1); 0; 0; 0; 1; 0; 0; 0; 0; 0; 0]);
  (1252, [ 0; 0; 0; 0; 0; (-1); 0; 0; 1; 0; 0; 0; 0; 0; 0]);
  (87, [ 0; 0; 0; 0; 0; 0; 1; 0; 1; 0; 0; 0; 0; 0; 0]);
  (661, [ 0; 0; 0; 0; 0; 0; 0; 1; 1; 0; 0; 0; 0; 0; 0]);
  (3665, [ 1; 0; 0; 0; 0; 0; 0; 0; 0; 0; 0; 0; 1; 0; 0]);
  (6107, [ 0; 1; 0; 0; 0; 0; 0; 0; 0; 0; 0; 0; 1; 0; 0]);
  (1911, [ 0; 0; 1; 0; 0; 0; 0; 0; 0; 0; 0; 0; 1; 0; 0]);
  (776, [ 0; 0; 0; 1; 0; 0; 0; 0; 0; 0; 0; 0; 1; 0; 0]);
  (3442, [ 0; 0; 0; 0; 1; 0; 0; 0; 0; 0; 0; 0; 1; 0; 0]);
  (658, [ 0; 0; 0; 0; 0; (-1); 0; 0; 0; 0; 0; 0; 1; 0; 0]);
  (210, [ 0; 0; 0; 0; 0; 0; 1; 0; 0; 0; 0; 0; 1; 0; 0]);
  (493, [ 0; 0; 0; 0; 0; 0; 0; (-1); 0; 0; 0; 0; 1; 0; 0]);
  (887, [ 0; 0; 0; 0; 0; 0; 0; 0; 1; 0; 0; 0; 1; 0; 0]);
  (4200, [ (-1); 0; 0; 0; 0; 0; 0; 0; 0; 0; 0; 0; 0; 1; 0]);
  (10158, [ 0; (-1); 0; 0; 0; 0; 0; 0; 0; 0; 0; 0; 0; 1; 0]);
  (678, [ 0; 0; 1; 0; 0; 0; 0; 0; 0; 0; 0; 0; 0; 1; 0]);
  (8118, [ 0; 0; 0; (-1); 0; 0; 0; 0; 0; 0; 0; 0; 0; 1; 0]);
  (4263, [ 0; 0; 0; 0; (-1); 0; 0; 0; 0; 0; 0; 0; 0; 1; 0]);
  (1695, [ 0; 0; 0; 0; 0; (-1); 0; 0; 0; 0; 0; 0; 0; 1; 0]);
  (767, [ 0; 0; 0; 0; 0; 0; (-1); 0; 0; 0; 0; 0; 0; 1; 0]);
  (483, [ 0; 0; 0; 0; 0; 0; 0; 1; 0; 0; 0; 0; 0; 1; 0]);
  (652, [ 0; 0; 0; 0; 0; 0; 0; 0; 1; 0; 0; 0; 0; 1; 0]);
  (923, [ 0; 0; 0; 0; 0; 0; 0; 0; 0; 0; 0; 0; 1; 1; 0]);
  (3690, [ 0; 0; (-1); 0; 0; 0; 0; 0; 0; 0; 0; 0; 0; 0; 1]);
  (3626, [ 0; 0; 0; 1; 0; 0; 0; 0; 0; 0; 0; 0; 0; 0; 1]);
  (1257, [ 0; 0; 0; 0; (-1); 0; 0; 0; 0; 0; 0; 0; 0; 0; 1]);
  (4597, [ 0; 0; 0; 0; 0; (-1); 0; 0; 0; 0; 0; 0; 0; 0; 1]);
  (245, [ 0; 0; 0; 0; 0; 0; 1; 0; 0; 0; 0; 0; 0; 0; 1]);
  (61, [ 0; 0; 0; 0; 0; 0; 0; (-1); 0; 0; 0; 0; 0; 0; 1]);
  (85, [ 0; 0; 0; 0; 0; 0; 0; 0; 1; 0; 0; 0; 0; 0; 1]);
  (235, [ 0; 0; 0; 0; 0; 0; 0; 0; 0; 0; 0; 0; (-1); 0; 1]);
  (53, [ 0; 0; 0; 0; 0; 0; 0; 0; 0; 0; 0; 0; 0; (-1); 1]);
  (267330, [ 1; 0; 0; 0; 0; 0; 0; 0; 0; 0; 0; 0; 0; 0; 0]);
  (254709, [ 0; 1; 0; 0; 0; 0; 0; 0; 0; 0; 0; 0; 0; 0; 0]);
  (284198, [ 0; 0; 1; 0; 0; 0; 0; 0; 0; 0; 0; 0; 0; 0; 0]);
  (250903, [ 0; 0; 0; 1; 0; 0; 0; 0; 0; 0; 0; 0; 0; 0; 0]);
  (242318, [ 0; 0; 0; 0; 1; 0; 0; 0; 0; 0; 0; 0; 0; 0; 0]);
  (271791, [ 0; 0; 0; 0; 0; 1; 0; 0; 0; 0; 0; 0; 0; 0; 0]);
  (270882, [ 0; 0; 0; 0; 0; 0; 1; 0; 0; 0; 0; 0; 0; 0; 0]);
  (251241, [ 0; 0; 0; 0; 0; 0; 0; 1; 0; 0; 0; 0; 0; 0; 0]);
  (286292, [ 0; 0; 0; 0; 0; 0; 0; 0; 1; 0; 0; 0; 0; 0; 0]);
  (274954, [ 0; 0; 0; 0; 0; 0; 0; 0; 0; 0; 0; 0; 1; 0; 0]);
  (267207, [ 0; 0; 0; 0; 0; 0; 0; 0; 0; 0; 0; 0; 0; 1; 0]);
  (283043, [ 0; 0; 0; 0; 0; 0; 0; 0; 0; 0; 0; 0; 0; 0; 1])].

(** for 100000 times the symmetric part (times 8) of the in-place result *)
Definition cert_inplace : list (Z * list Z) := [
  (1, [ 11507; 8665; (-991); 14644; 5640; 0; 834; (-808); 70; 0; 0; 0; (-209); (-139); 0]);
  (1, [ 0; 18191; (-226); 617; 16790; 247; 548; 627; (-121); 0; 0; 0; 231; (-22); 0]);
  (1, [ 0; 0; 10591; (-628); 4597; 6001; 590; 467; 4; 0; 0; 0; (-90); (-316); (-76)]);
  (1, [ 0; 0; 0; 11576; (-230); (-914); 79; (-489); (-1049); 0; 0; 0; 454; 91; (-4)]);
  (1, [ 0; 0; 0; 0; 13591; (-3403); 515; 293; 124; 0; 0; 0; 16; 333; 25]);
  (1, [ 0; 0; 0; 0; 0; 7424; (-142); (-216); (-72); 0; 0; 0; (-195); 527; (-36)]);
  (1, [ 0; 0; 0; 0; 0; 0; 1403; (-62); 367; 0; 0; 0; 21; (-420); 19]);
  (1, [ 0; 0; 0; 0; 0; 0; 0; 1402; (-864); 0; 0; 0; 503; (-297); 14]);
  (1, [ 0; 0; 0; 0; 0; 0; 0; 0; 1544; 0; 0; 0; 603; (-2); (-3)]);
  (1, [ 0; 0; 0; 0; 0; 0; 0; 0; 0; 0; 0; 0; 2577; 63; (-7)]);
  (1, [ 0; 0; 0; 0; 0; 0; 0; 0; 0; 0; 0; 0; 0; 2611; 0]);
  (1, [ 0; 0; 0; 0; 0; 0; 0; 0; 0; 0; 0; 0; 0; 0; 629]);
  (8155, [ (-1); 1; 0; 0; 0; 0; 0; 0; 0; 0; 0; 0; 0; 0; 0]);
  (3437, [ 1; 0; 1; 0; 0; 0; 0; 0; 0; 0; 0; 0; 0; 0; 0]);
  (1819, [ 0; (-1); 1; 0; 0; 0; 0; 0; 0; 0; 0; 0; 0; 0; 0]);
  (8508, [ (-1); 0; 0; 1; 0; 0; 0; 0; 0; 0; 0; 0; 0; 0; 0]);
  (14107, [ 0; (-1); 0; 1; 0; 0; 0; 0; 0; 0; 0; 0; 0; 0; 0]);
  (2794, [ 0; 0; 1; 1; 0; 0; 0; 0; 0; 0; 0; 0; 0; 0; 0]);
  (520, [ 1; 0; 0; 0; 1; 0; 0; 0; 0; 0; 0; 0; 0; 0; 0]);
  (2510, [ 0; 1; 0; 0; 1; 0; 0; 0; 0; 0; 0; 0; 0; 0; 0]);
  (3047, [ 0; 0; (-1); 0; 1; 0; 0; 0; 0; 0; 0; 0; 0; 0; 0]);
  (2194, [ 0; 0; 0; (-1); 1; 0; 0; 0; 0; 0; 0; 0; 0; 0; 0]);
  (6823, [ 0; 1; 0; 0; 0; 1; 0; 0; 0; 0; 0; 0; 0; 0; 0]);
  (769, [ 0; 0; (-1); 0; 0; 1; 0; 0; 0; 0; 0; 0; 0; 0; 0]);
  (3307, [ 0; 0; 0; (-1); 0; 1; 0; 0; 0; 0; 0; 0; 0; 0; 0]);
  (6226, [ 0; 0; 0; 0; 1; 1; 0; 0; 0; 0; 0; 0; 0; 0; 0]);
  (3162, [ 1; 0; 0; 0; 0; 0; 1; 0; 0; 0; 0; 0; 0; 0; 0]);
  (4722, [ 0; 1; 0; 0; 0; 0; 1; 0; 0; 0; 0; 0; 0; 0; 0]);
  (1652, [ 0; 0; 1; 0; 0; 0; 1; 0; 0; 0; 0; 0; 0; 0; 0]);
  (4804, [ 0; 0; 0; 1; 0; 0; 1; 0; 0; 0; 0; 0; 0; 0; 0]);
  (1895, [ 0; 0; 0; 0; 1; 0; 1; 0; 0; 0; 0; 0; 0; 0; 0]);
  (3013, [ 0; 0; 0; 0; 0; 1; 1; 0; 0; 0; 0; 0; 0; 0; 0]);
  (2344, [ (-1); 0; 0; 0; 0; 0; 0; 1; 0; 0; 0; 0; 0; 0; 0]);
  (4437, [ 0; (-1); 0; 0; 0; 0; 0; 1; 0; 0; 0; 0; 0; 0; 0]);
  (5023, [ 0; 0; (-1); 0; 0; 0; 0; 1; 0; 0; 0; 0; 0; 0; 0]);
  (567, [ 0; 0; 0; (-1); 0; 0; 0; 1; 0; 0; 0; 0; 0; 0; 0]);
  (11642, [ 0; 0; 0; 0; (-1); 0; 0; 1; 0; 0; 0; 0; 0; 0; 0]);
  (3619, [ 0; 0; 0; 0; 0; (-1); 0; 1; 0; 0; 0; 0; 0; 0; 0]);
  (1204, [ 0; 0; 0; 0; 0; 0; (-1); 1; 0; 0; 0; 0; 0; 0; 0]);
  (5490, [ (-1); 0; 0; 0; 0; 0; 0; 0; 1; 0; 0; 0; 0; 0; 0]);
  (5439, [ 0; (-1); 0; 0; 0; 0; 0; 0; 1; 0; 0; 0; 0; 0; 0]);
  (340, [ 0; 0; (-1); 0; 0; 0; 0; 0; 1; 0; 0; 0; 0; 0; 0]);
  (4687, [ 0; 0; 0; (-1); 0; 0; 0; 0; 1; 0; 0; 0; 0; 0; 0]);
  (8152, [ 0; 0; 0; 0; (-1); 0; 0; 0; 1; 0; 0; 0; 0; 0; 0]);
  (3597, [ 0; 0; 0; 0; 0; 1; 0; 0; 1; 0; 0; 0; 0; 0; 0]);
  (546, [ 0; 0; 0; 0; 0; 0; (-1); 0; 1; 0; 0; 0; 0; 0; 0]);
  (204, [ 0; 0; 0; 0; 0; 0; 0; (-1); 1; 0; 0; 0; 0; 0; 0]);
  (4963, [ 1; 0; 0; 0; 0; 0; 0; 0; 0; 0; 0; 0; 1; 0; 0]);
  (8864, [ 0; 1; 0; 0; 0; 0; 0; 0; 0; 0; 0; 0; 1; 0; 0]);
  (1723, [ 0; 0; (-1); 0; 0; 0; 0; 0; 0; 0; 0; 0; 1; 0; 0]);
  (6045, [ 0; 0; 0; 1; 0; 0; 0; 0; 0; 0; 0; 0; 1; 0; 0]);
  (964, [ 0; 0; 0; 0; 1; 0; 0; 0; 0; 0; 0; 0; 1; 0; 0]);
  (117, [ 0; 0; 0; 0; 0; 1; 0; 0; 0; 0; 0; 0; 1; 0; 0]);
  (441, [ 0; 0; 0; 0; 0; 0; (-1); 0; 0; 0; 0; 0; 1; 0; 0]);
  (385, [ 0; 0; 0; 0; 0; 0; 0; (-1); 0; 0; 0; 0; 1; 0; 0]);
  (984, [ 0; 0; 0; 0; 0; 0; 0; 0; (-1); 0; 0; 0; 1; 0; 0]);
  (527, [ (-1); 0; 0; 0; 0; 0; 0; 0; 0; 0; 0; 0; 0; 1; 0]);
  (4637, [ 0; 1; 0; 0; 0; 0; 0; 0; 0; 0; 0; 0; 0; 1; 0]);
  (4035, [ 0; 0; 1; 0; 0; 0; 0; 0; 0; 0; 0; 0; 0; 1; 0]);
  (2774, [ 0; 0; 0; (-1); 0; 0; 0; 0; 0; 0; 0; 0; 0; 1; 0]);
  (1119, [ 0; 0; 0; 0; 1; 0; 0; 0; 0; 0; 0; 0; 0; 1; 0]);
  (5675, [ 0; 0; 0; 0; 0; 1; 0; 0; 0; 0; 0; 0; 0; 1; 0]);
  (168, [ 0; 0; 0; 0; 0; 0; (-1); 0; 0; 0; 0; 0; 0; 1; 0]);
  (170, [ 0; 0; 0; 0; 0; 0; 0; 1; 0; 0; 0; 0; 0; 1; 0]);
  (1063, [ 0; 0; 0; 0; 0; 0; 0; 0; 1; 0; 0; 0; 0; 1; 0]);
  (780, [ 0; 0; 0; 0; 0; 0; 0; 0; 0; 0; 0; 0; 1; 1; 0]);
  (4916, [ 0; 0; 1; 0; 0; 0; 0; 0; 0; 0; 0; 0; 0; 0; 1]);
  (1424, [ 0; 0; 0; (-1); 0; 0; 0; 0; 0; 0; 0; 0; 0; 0; 1]);
  (8677, [ 0; 0; 0; 0; 1; 0; 0; 0; 0; 0; 0; 0; 0; 0; 1]);
  (4759, [ 0; 0; 0; 0; 0; 1; 0; 0; 0; 0; 0; 0; 0; 0; 1]);
  (512, [ 0; 0; 0; 0; 0; 0; 1; 0; 0; 0; 0; 0; 0; 0; 1]);
  (15, [ 0; 0; 0; 0; 0; 0; 0; (-1); 0; 0; 0; 0; 0; 0; 1]);
  (171, [ 0; 0; 0; 0; 0; 0; 0; 0; 1; 0; 0; 0; 0; 0; 1]);
  (37, [ 0; 0; 0; 0; 0; 0; 0; 0; 0; 0; 0; 0; (-1); 0; 1]);
  (432, [ 0; 0; 0; 0; 0; 0; 0; 0; 0; 0; 0; 0; 0; (-1); 1]);
  (351845, [ 1; 0; 0; 0; 0; 0; 0; 0; 0; 0; 0; 0; 0; 0; 0]);
  (343781, [ 0; 1; 0; 0; 0; 0; 0; 0; 0; 0; 0; 0; 0; 0; 0]);
  (368007, [ 0; 0; 1; 0; 0; 0; 0; 0; 0; 0; 0; 0; 0; 0; 0]);
  (323204, [ 0; 0; 0; 1; 0; 0; 0; 0; 0; 0; 0; 0; 0; 0; 0]);
  (338764, [ 0; 0; 0; 0; 1; 0; 0; 0; 0; 0; 0; 0; 0; 0; 0]);
  (357504, [ 0; 0; 0; 0; 0; 1; 0; 0; 0; 0; 0; 0; 0; 0; 0]);
  (373882, [ 0; 0; 0; 0; 0; 0; 1; 0; 0; 0; 0; 0; 0; 0; 0]);
  (365234, [ 0; 0; 0; 0; 0; 0; 0; 1; 0; 0; 0; 0; 0; 0; 0]);
  (363688, [ 0; 0; 0; 0; 0; 0; 0; 0; 1; 0; 0; 0; 0; 0; 0]);
  (367170, [ 0; 0; 0; 0; 0; 0; 0; 0; 0; 0; 0; 0; 1; 0; 0]);
  (376157, [ 0; 0; 0; 0; 0; 0; 0; 0; 0; 0; 0; 0; 0; 1; 0]);
  (375088, [ 0; 0; 0; 0; 0; 0; 0; 0; 0; 0; 0; 0; 0; 0; 1])].

Definition n_ideal : Z := 300000.
Definition n_inplace : Z := 100000.
