(** The covariance side of the measurement models: CalculateH clears the cross covariances
    of the variables declared fixed before the update is computed.  Definitions only. *)

From Coq Require Import Reals.
From mathcomp Require Import all_ssreflect all_algebra.
From Verif Require Import Geom Sensors Cov RField.

Set Implicit Arguments.
Unset Strict Implicit.
Unset Printing Implicit Defensive.
Local Open Scope ring_scope.

(** A measurement matrix of the model as an [m] by [n] matrix. *)
Definition hmx m n (H : hmat) : 'M[R]_(m, n) := \matrix_(i, j) H i j.

Definition clear_if n (b : bool) (a l : nat) (P : 'M[R]_n) : 'M[R]_n := if b then clear_cross a l P else P.

(** pose_measurement.h lines 213-222 *)
Definition pose_clear n (l : pose_layout) (f : pose_fixed) (P : 'M[R]_n) : 'M[R]_n :=
  clear_if (f_pwv f) (k_pwv l) 3
    (clear_if (f_qwv f) (k_qwv l) 3
      (clear_if (f_qic f) (k_qic l) 3
        (clear_if (f_pic f) (k_pic l) 3
          (clear_if (f_L f) (k_L l) 1 P)))).

(** PoseMeasurement::Apply, lines 281-342: the absolute branch; [res] is the residual. *)
Definition pose_update n (l : pose_layout) (f : pose_fixed) (s : pose_state) (enable : bool) (thr : R)
           (P : 'M[R]_n) (Rm : 'M[R]_7) (res : option 'cV[R]_7) : option (outcome _ n) :=
  abs_update enable thr (pose_clear l f P) (hmx 7 n (pose_H l f s)) Rm res.

(** The relative branch, lines 342-457: CalculateH is called for the old and then for the new
    state. *)
Definition pose_rel_update n (l : pose_layout) (f : pose_fixed) (old new : pose_state)
           (Pold Fa Pnew : 'M[R]_n) (Rm : 'M[R]_7) (res : option 'cV[R]_7) :=
  rel_update (pose_clear l f Pold) Fa (pose_clear l f Pnew)
             (hmx 7 n (pose_H_old l f old)) (hmx 7 n (pose_H l f new)) Rm res.

(** PositionMeasurement, position_measurement.h lines 129-192 *)
Definition position_update n (l : pos_layout) (fx : bool) (s : pos_state) (enable : bool) (thr : R)
           (P : 'M[R]_n) (Rm : 'M[R]_3) (res : option 'cV[R]_3) : option (outcome _ n) :=
  abs_update enable thr (clear_if fx (l_pip l) 3 P) (hmx 3 n (position_H l fx s)) Rm res.

(** AngleMeasurement and DistanceMeasurement, spherical_measurement.h lines 117-121, 252-315
    and 407-411, 468-517: cross covariances are cleared, the matrix is not. *)
Definition angle_update n (l : pos_layout) (fx : bool) (s : pos_state) (enable : bool) (thr : R)
           (P : 'M[R]_n) (Rm : 'M[R]_2) (res : option 'cV[R]_2) : option (outcome _ n) :=
  abs_update enable thr (clear_if fx (l_pip l) 3 P) (hmx 2 n (angle_H l s)) Rm res.
Definition distance_update n (l : pos_layout) (fx : bool) (s : pos_state) (enable : bool) (thr : R)
           (P : 'M[R]_n) (Rm : 'M[R]_1) (res : option 'cV[R]_1) : option (outcome _ n) :=
  abs_update enable thr (clear_if fx (l_pip l) 3 P) (hmx 1 n (distance_H l s)) Rm res.
