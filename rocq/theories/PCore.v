(** The numbers of MSF_Core::SetPCore (msf_core/include/msf_core/implementation/msf_core_inl.h
    lines 72-86), row by row, in units of 1e-4.  Definitions only. *)

From Coq Require Import ZArith List.
Import ListNotations.
Open Scope Z_scope.

Definition p_core : list (list Z) := [
  [ 166; 122; (-15); 211; 74; 0; 12; (-12); 1; 0; 0; 0; (-3); (-2); 0];
  [ 129; 508; (-20); 179; 432; 6; 20; 4; (-2); 0; 0; 0; 3; (-2); 0];
  [ (-13); (-9); 142; (-27); 57; 79; 7; 7; 0; 0; 0; 0; (-1); (-4); (-1)];
  [ 210; 162; (-26); 437; 83; (-17); 16; (-21); (-14); 0; 0; 0; 3; (-1); 0];
  [ 93; 461; 36; 153; 650; (-16); 25; 13; 0; 0; 0; 0; 3; 2; 0];
  [ 0; 5; 80; (-19); (-21); 130; 1; 1; 0; 0; 0; 0; (-3); 1; (-1)];
  [ 12; 24; 6; 17; 37; 1; 5; 0; 1; 0; 0; 0; 0; (-1); 0];
  [ (-11); 8; 7; (-23); 19; 1; 0; 5; (-1); 0; 0; 0; 1; (-1); 0];
  [ 1; (-2); 0; (-14); 1; 0; 0; (-1); 6; 0; 0; 0; 0; 0; 0];
  [ 0; 0; 0; 0; 0; 0; 0; 0; 0; 0; 0; 0; 0; 0; 0];
  [ 0; 0; 0; 0; 0; 0; 0; 0; 0; 0; 0; 0; 0; 0; 0];
  [ 0; 0; 0; 0; 0; 0; 0; 0; 0; 0; 0; 0; 0; 0; 0];
  [ (-3); 3; (-1); 3; 3; (-3); 0; 1; 0; 0; 0; 0; 10; 0; 0];
  [ (-2); (-2); (-4); (-1); 3; 1; (-1); 0; 0; 0; 0; 0; 0; 10; 0];
  [ 0; 0; (-1); 0; 0; (-1); 0; 0; 0; 0; 0; 0; 0; 0; 1]].
