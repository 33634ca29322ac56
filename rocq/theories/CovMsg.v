(** Covariances in messages: msf_state_inl.h lines 338-492 and similaritytransform.h lines
    65-94.  Definitions only; any real field.

    A message array of 36 numbers is a function of the index.  ROS documents it as
    row-major; [Eigen::Map] of a (column-major) 6x6 matrix reads and writes it
    column by column. *)

From mathcomp Require Import all_ssreflect all_algebra.
Import GRing.Theory Num.Theory.

Set Implicit Arguments.
Unset Strict Implicit.
Unset Printing Implicit Defensive.
Local Open Scope ring_scope.

Section CovMsg.
Variable F : realFieldType.

Definition array := nat -> F.

(** Entry (r,c) of the Eigen map is array element r + 6c. *)
Definition cell (r c : nat) : nat := (r + 6 * c)%N.
(** [map.block<3,3>(r0,c0) = B] *)
Definition write_block3 (a : array) (r0 c0 : nat) (B : nat -> nat -> F) : array :=
  fun k => let r := (k %% 6)%N in let c := (k %/ 6)%N in
    if (k < 36)%N && (r0 <= r < r0 + 3)%N && (c0 <= c < c0 + 3)%N
    then B (r - r0)%N (c - c0)%N else a k.
(** [map.block<3,3>(r0,c0)] *)
Definition read_block3 (a : array) (r0 c0 : nat) : nat -> nat -> F :=
  fun i j => a (cell (r0 + i) (c0 + j)).

(** The filter covariance is read by row and column. *)
Definition block3 (P : nat -> nat -> F) (r0 c0 : nat) : nat -> nat -> F :=
  fun i j => P (r0 + i)%N (c0 + j)%N.

(** GetPoseCovariance, lines 338-366; [ip], [iq] are the start indices of position and
    attitude.  The array's old contents are overwritten. *)
Definition pose_covariance (P : nat -> nat -> F) (ip iq : nat) (a : array) : array :=
  let a1 := write_block3 a 0 0 (block3 P ip ip) in
  let a2 := write_block3 a1 3 0 (block3 P iq ip) in
  let a3 := write_block3 a2 0 3 (block3 P ip iq) in
  write_block3 a3 3 3 (block3 P iq iq).

(** GetVelocityAttitudeCovariance, lines 368-393 *)
Definition vel_att (P : nat -> nat -> F) (iv iq : nat) : 'M[F]_(3 + 3) :=
  block_mx (\matrix_(i, j) P (iv + i)%N (iv + j)%N) (\matrix_(i, j) P (iv + i)%N (iq + j)%N)
           (\matrix_(i, j) P (iq + i)%N (iv + j)%N) (\matrix_(i, j) P (iq + i)%N (iq + j)%N).

(** GetTwistCovarianceInImuFrame, lines 395-435: [J] is (R_W_I', Skew(v_I)); only the
    diagonal blocks are written, the others keep their contents (zero in a new
    message). *)
Definition velocity_cov (P : nat -> nat -> F) (iv iq : nat) (RT SV : 'M[F]_3) : 'M[F]_3 :=
  let J := row_mx RT SV in J *m vel_att P iv iq *m J^T.
Definition entry (A : 'M[F]_3) (i j : nat) : F := A (inord i) (inord j).
Definition twist_covariance (P : nat -> nat -> F) (iv iq ibw : nat) (RT SV : 'M[F]_3)
           (noise_gyr : nat -> F) (a : array) : array :=
  let a1 := write_block3 a 0 0 (entry (velocity_cov P iv iq RT SV)) in
  write_block3 a1 3 3 (fun i j => P (ibw + i)%N (ibw + j)%N
                                  + (if i == j then noise_gyr i * noise_gyr i else 0)).

(** GetCoreCovariance, GetAuxCovariance, GetCoreAuxCovariance, lines 437-492: (rows,
    columns, data), row by row. *)
Definition submatrix (P : nat -> nat -> F) (r0 r1 c0 c1 : nat) : nat * nat * seq F :=
  (r1 - r0, c1 - c0, [seq P r c | r <- iota r0 (r1 - r0), c <- iota c0 (c1 - c0)])%N.
Definition core_covariance P n_core := submatrix P 0 n_core 0 n_core.
Definition aux_covariance P n_core n := submatrix P n_core n n_core n.
Definition core_aux_covariance P n_core n := submatrix P 0 n_core n_core n.

(** GeometryMsgsCovBlockToEigen, similaritytransform.h lines 65-70 *)
Definition cov_block_to_eigen (a : array) (start_row start_col : nat) : nat -> nat -> F :=
  read_block3 a start_row start_col.
(** EigenCovBlockToGeometryMsgs, lines 83-94 *)
Definition eigen_to_cov_block (a : array) (B : nat -> nat -> F) (start_row start_col : nat) : array :=
  let a1 := write_block3 a start_row start_col B in
  if start_row != start_col then write_block3 a1 start_col start_row (fun i j => B j i) else a1.
End CovMsg.
