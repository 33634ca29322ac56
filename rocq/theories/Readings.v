(** From sensor messages to measurements: MakeFromSensorReadingImpl of the position, pose,
    pressure and spherical measurements and the decision of the handlers to drop a message.
    Definitions only; real arithmetic.

    The covariance array of a message is a function of the index; Eigen fills its matrices
    from it column by column.  Time stamps, delays and the throttling are in Handlers.v and
    Core.v, the distorter is left out. *)

From Coq Require Import Reals ZArith.
From mathcomp Require Import all_ssreflect all_algebra.
From Verif Require Import Geom RField Sensors Filter.

Set Implicit Arguments.
Unset Strict Implicit.
Unset Printing Implicit Defensive.
Local Open Scope ring_scope.

(** Eigen::Matrix<double, n, n>(&covariance[0]) *)
Definition from_array n (a : nat -> R) : 'M[R]_n := \matrix_(i, j) a (i + n * j)%N.

(** A rotation matrix. *)
Definition mx3 (A : m3) : 'M[R]_3 := \matrix_(i, j) m3at A i j.

(** R_ with one variance on the diagonal *)
Definition iso n (s : R) : 'M[R]_n := \matrix_(i, j) if i == j then s * s else 0.

(** ** Position: position_measurement.h lines 43-73 *)

Definition position_noise (fixed_covariance : bool) (n_zp : R) (cov : nat -> R) : 'M[R]_3 :=
  if fixed_covariance then iso 3 n_zp else from_array 3 cov.

(** position_sensorhandler.hpp lines 97-137; [None]: message dropped *)
Definition position_message (fixed_covariance : bool) (n_zp : R) (fixedstates : Z) (g : gate_cfg)
           (z : v3) (cov : nat -> R) : option reading :=
  if ~~ fixed_covariance && (cov 0%N == 0) then None
  else Some (RPosition fixedstates g z (position_noise fixed_covariance n_zp cov)).

(** ** Pose: pose_measurement.h lines 50-112 *)

(** 1e-6, the noise of the artificial yaw measurement *)
Definition yaw_noise : R := Rdiv (IZR 1) (IZR 1000000).

(** lines 82-87: the variances of the settings *)
Definition pose_noise_fixed (n_zp n_zq : R) : 'M[R]_(3 + 3 + 1) :=
  block_mx (block_mx (iso 3 n_zp) 0 0 (iso 3 n_zq)) 0 0 (yaw_noise%:M).
(** lines 88-110: the covariance of the message without the correlations of position and
    attitude, turned by the attitude [q] when the reading is inverted *)
Definition pose_noise_sensor (meas_ws : bool) (q : quat) (cov : nat -> R) : 'M[R]_(3 + 3 + 1) :=
  let raw : 'M[R]_(3 + 3) := from_array 6 cov in
  let B := block_mx (ulsubmx raw) 0 0 (drsubmx raw) in
  let C := mx3 (qrot q) in
  let C_cov := block_mx C 0 0 C in
  block_mx (if meas_ws then B else C_cov^T *m B *m C_cov) 0 0 (yaw_noise%:M).
Definition pose_noise (fixed_covariance meas_ws : bool) (n_zp n_zq : R) (q : quat) (cov : nat -> R) : 'M[R]_7 :=
  if fixed_covariance then pose_noise_fixed n_zp n_zq else pose_noise_sensor meas_ws q cov.

(** pose_sensorhandler.hpp lines 138-302 (without the throttling): [has_cov] tells messages
    with a covariance (PoseWithCovarianceStamped, Odometry) from those without
    (TransformStamped, PoseStamped). *)
Definition pose_message (has_cov fixed_covariance meas_ws : bool) (n_zp n_zq : R) (fixedstates : Z) (g : gate_cfg)
           (p : v3) (q : quat) (cov : nat -> R) : option reading :=
  if ~~ has_cov && ~~ fixed_covariance then None
  else let z := pose_reading fixed_covariance meas_ws p q in
       Some (RPose fixedstates g z.1 z.2 (pose_noise fixed_covariance meas_ws n_zp n_zq q cov)).

(** ** Height: pressure_measurement.h lines 38-53 *)
Definition pressure_message (n_zp : R) (g : gate_cfg) (z : R) : option reading :=
  Some (RPressure g z (iso 1 n_zp)).

(** ** Spherical: spherical_measurement.h lines 44-69 and 336-354, spherical_sensorhandler.hpp
    lines 80-124 and 182-227: both branches set the same noise, but without a fixed
    covariance the message is dropped. *)
Definition angle_message (fixed_covariance : bool) (n_za : R) (fixedstates : Z) (g : gate_cfg)
           (theta phi : R) : option reading :=
  if ~~ fixed_covariance then None else Some (RAngle fixedstates g theta phi (iso 2 n_za)).
Definition distance_message (fixed_covariance : bool) (n_zd : R) (fixedstates : Z) (g : gate_cfg) (z : R) : option reading :=
  if ~~ fixed_covariance then None else Some (RDistance fixedstates g z (iso 1 n_zd)).

(** ** Warnings about the noise, msf_measurement.h lines 139-155 *)
Definition warn_unset n (Rm : 'M[R]_n) : bool :=
  [forall i, forall j, 0 <= Rm i j] && [exists i, exists j, Rm i j == 0] &&
  [forall i, forall j, Rm i j <= 0].
Definition warn_diagonal n (Rm : 'M[R]_n) : bool := [exists i, Rm i i == 0].
