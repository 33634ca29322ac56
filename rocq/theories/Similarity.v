(** The average similarity transform between two sets of poses: similaritytransform.h lines
    40-63, 118-157 and similaritytransform.cc.  Definitions only; real arithmetic.

    Eigen's eigenvalue and singular value decompositions are parameters: functions of the
    matrix handed to them.  What they are documented to return is stated with the
    theorems.  Covariances in the poses are ignored by the code. *)

From Coq Require Import Reals.
From mathcomp Require Import all_ssreflect all_algebra.
From Verif Require Import Geom RField Messages Gps.

Set Implicit Arguments.
Unset Strict Implicit.
Unset Printing Implicit Defensive.
Local Open Scope ring_scope.

(** A pair of poses: position and orientation of the first, then of the second. *)
Record pose_pair := PosePair { t1 : v3; q1 : quat; t2 : v3; q2 : quat }.

Definition v3at (x : v3) (i : nat) : R := match i with 0%N => v3x x | 1%N => v3y x | _ => v3z x end.
(** Quaterniond::coeffs(): x y z w *)
Definition coeff_mx (q : quat) : 'cV[R]_4 :=
  \col_i match val i with 0%N => qx q | 1%N => qy q | 2%N => qz q | _ => qw q end.

Definition no_pair : pose_pair := PosePair v3zero qone v3zero qone.

Section Compute.
(** Eigenvectors (columns) of a symmetric matrix; (U, singular values, V). *)
Variable eigenvectors : 'M[R]_4 -> 'M[R]_4.
Variable svd : 'M[R]_4 -> 'M[R]_4 * 'rV[R]_4 * 'M[R]_4.

(** lines 52-59: the sum of the outer products of the relative orientations *)
Definition outer_sum (ms : seq pose_pair) : 'M[R]_4 :=
  \sum_(pp <- ms) coeff_mx (qmul (qinverse (q1 pp)) (q2 pp)) *m (coeff_mx (qmul (qinverse (q1 pp)) (q2 pp)))^T.

(** lines 42-48, 65-67: three rows per pair *)
Definition rows_A (ms : seq pose_pair) : 'M[R]_(size ms * 3, 4) :=
  \matrix_(r, c) let pp := nth no_pair ms (r %/ 3)%N in
    if (c < 3)%N then (if (r %% 3)%N == c then -1 else 0)
    else v3at (qtransform (qinverse (q1 pp)) (t2 pp)) (r %% 3)%N.
Definition rows_b (ms : seq pose_pair) : 'cV[R]_(size ms * 3) :=
  \col_r let pp := nth no_pair ms (r %/ 3)%N in v3at (qtransform (qinverse (q1 pp)) (t1 pp)) (r %% 3)%N.

(** lines 77-79 *)
Definition A_hat (ms : seq pose_pair) : 'M[R]_4 := (rows_A ms)^T *m rows_A ms.
Definition b_hat (ms : seq pose_pair) : 'cV[R]_4 := (rows_A ms)^T *m rows_b ms.

(** lines 83-88 *)
Definition S_hat (eps : R) (s : 'rV[R]_4) : 'M[R]_4 :=
  \matrix_(i, j) if i == j then (if s 0 i < eps then 0 else (s 0 i)^-1) else 0.

Record similarity := Similarity { s_position : v3; s_orientation : quat; s_scale : R; s_cond : option R }.

(** Compute, lines 33-101; [None]: returns false.  A condition number with denominator zero
    (infinite or not a number) is [None]. *)
Definition compute (eps : R) (ms : seq pose_pair) : option similarity :=
  if (size ms < 2)%N then None
  else
    let q_mean := col (inord 3) (eigenvectors (outer_sum ms)) in
    let '(U, s, V) := svd (A_hat ms) in
    let x := V *m S_hat eps s *m U^T *m b_hat ms in
    let cond := if s 0 (inord 3) == 0 then None else Some (s 0 (inord 0) / s 0 (inord 3)) in
    Some (Similarity (V3 (x (inord 0) 0) (x (inord 1) 0) (x (inord 2) 0))
                     (Quat (q_mean (inord 3) 0) (q_mean (inord 0) 0) (q_mean (inord 1) 0) (q_mean (inord 2) 0))
                     (x (inord 3) 0) cond).
End Compute.
