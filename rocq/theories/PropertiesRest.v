(** C21 at rest: with little accelerometer noise, as in the pose sensor's own configuration and the
    defaults of the core, the predicted covariance is no covariance, in a step of 5 ms, without
    rotation, from certainty. *)

From Coq Require Import Reals ZArith Lia Lra List.
From mathcomp Require Import all_ssreflect all_algebra.
From Verif Require Import Outcome Geom StateList StateListProofs Core Propagate NavOps QCore ProcNoise ProcNoiseProofs QdProofs
  Cov CovSpec CovProofs RField Predict PredictProofs PropertiesState PropertiesSensors PropertiesPredict FlightProofs RestProofs
  CoreConfig PropertiesCoreConfig.
Import GRing.Theory Num.Theory.

Set Implicit Arguments.
Unset Strict Implicit.
Unset Printing Implicit Defensive.
Local Open Scope ring_scope.

Definition rest_imu : imu := Imu v3zero weight.

(** The filter at rest, the IMU with its y axis upwards and the accelerometer noise at most eight times
    that of the gyroscope: the variance of a combination of position, velocity and attitude errors is
    negative after one step. *)
Theorem C21_rest_any_refuted : forall nz, n_gyr nz <> R0 ->
  Rle (Rmult (n_acc nz) (n_acc nz)) (Rmult (IZR 64) (Rmult (n_gyr nz) (n_gyr nz))) ->
  Rle (Rmult (n_accbias nz) (n_accbias nz)) (Rmult (n_acc nz) (n_acc nz)) ->
  Rle (Rmult (n_gyrbias nz) (n_gyrbias nz)) (Rmult (n_gyr nz) (n_gyr nz)) ->
  exists (old new old' new' : full 18) q ew ea,
  [/\ step_ok old new, inputs new q ew ea, qnorm2 q = R1 & cov_ok (f_P old)] /\
  ew = V3 R0 R0 R0 /\ ea = V3 R0 (Rdiv (IZR 981) (IZR 100)) R0 /\
  predict_process_covariance std_layout nz (calc_q_aux (position_aux R1)) old new 0 = Ok (old', new', ms5) /\
  exists x : 'cV[R]_18, qf (f_P new') x < 0.
Proof.
move=> nz hg ha hb hc.
have [old' [new' [e hP]]] := @still_predict nz (position_aux R1) upright ms5 rest_imu rest_imu Z0 erefl.
exists (fresh 18 0 (still upright) rest_imu), (fresh 18 ms5 (still upright) rest_imu), old', new', upright,
  (v3sub (iw rest_imu) v3zero), (v3sub (ia rest_imu) v3zero).
have ew : v3sub (iw rest_imu) v3zero = v3zero by rewrite /v3sub /v3zero; cbn [v3x v3y v3z iw rest_imu v3zero]; congr V3; ring.
have ea : v3sub (ia rest_imu) v3zero = weight by rewrite /v3sub /v3zero /weight; cbn [v3x v3y v3z ia rest_imu weight]; congr V3; ring.
split; first split.
- exact: still_step.
- exact: still_inputs.
- by rewrite /qnorm2 /upright; cbn [qw qx qy qz]; lra.
- exact: zero_ok.
split; first by rewrite ew. split; first by rewrite ea. split=> //.
exists (\col_i direction i); apply/RltE; rewrite qfE.
have sp : forall F : 'I_18 -> R, \sum_i F i = \sum_(i < 15) F (@lshift 15 3 i) + \sum_(i < 3) F (@rshift 15 3 i).
  by move=> F; exact: (@big_split_ord _ _ _ 15 3).
have -> : (\sum_i \sum_j (\col_i direction i) i 0 * f_P new' i j * (\col_i direction i) j 0 : R) =
  rsum 15 (fun i => rsum 15 (fun j => Rmult (Rmult (direction i)
    (calc_q_core std_ix (Rdiv (IZR 5) (IZR 1000)) upright v3zero weight nz zzero (Z.of_nat i) (Z.of_nat j))) (direction j))).
  rewrite rsumE sp [X in _ + X]big1 ?addr0; last first.
    by move=> i _; apply: big1 => j _; rewrite !mxE /= mul0r mul0r.
  apply: eq_bigr => i _.
  rewrite rsumE sp [X in _ + X]big1 ?addr0; last by move=> j _; rewrite !mxE /= mulr0.
  apply: eq_bigr => j _.
  have k := hP (@lshift 15 3 i) (@lshift 15 3 j) (ltn_ord i) (ltn_ord j); rewrite step_ms5 ew ea in k.
  rewrite k !mxE.
  by [].
by clear e hP; case: nz hg ha hb hc => na nba nw nbw; cbn [n_acc n_accbias n_gyr n_gyrbias]; exact: rest_form.
Qed.
Print Assumptions C21_rest_any_refuted.

(** So with the noise of the pose sensor's configuration. *)
Theorem C21_rest_refuted : exists (old new old' new' : full 18) q ew ea,
  [/\ step_ok old new, noise_nonneg pose_noise, inputs new q ew ea, qnorm2 q = R1 & cov_ok (f_P old)] /\
  ew = V3 R0 R0 R0 /\ ea = V3 R0 (Rdiv (IZR 981) (IZR 100)) R0 /\
  predict_process_covariance std_layout pose_noise (calc_q_aux (position_aux R1)) old new 0 = Ok (old', new', ms5) /\
  exists x : 'cV[R]_18, qf (f_P new') x < 0.
Proof.
have [||||old [new [old' [new' [q [ew [ea [[h1 h2 h3 h4] h]]]]]]]] := @C21_rest_any_refuted pose_noise;
  try by rewrite /pose_noise; cbn [n_acc n_accbias n_gyr n_gyrbias]; lra.
exists old, new, old', new', q, ew, ea; split=> //; split=> //.
by rewrite /noise_nonneg /pose_noise; cbn [n_acc n_accbias n_gyr n_gyrbias]; repeat split; lra.
Qed.
Print Assumptions C21_rest_refuted.

(** And with the defaults of the core, which the parameter server keeps. *)
Theorem C76_rest_refuted : core_session default_params [::] = default_params /\
  exists (old new old' new' : full 18) q ew ea,
  [/\ step_ok old new, inputs new q ew ea, qnorm2 q = R1 & cov_ok (f_P old)] /\
  ew = V3 R0 R0 R0 /\ ea = V3 R0 (Rdiv (IZR 981) (IZR 100)) R0 /\
  predict_process_covariance std_layout (p_noise default_params) (calc_q_aux (position_aux R1)) old new 0 = Ok (old', new', ms5) /\
  exists x : 'cV[R]_18, qf (f_P new') x < 0.
Proof.
split; first exact: (proj1 C76_default_noise).
by apply: C21_rest_any_refuted; rewrite /default_params; cbn [p_noise n_acc n_accbias n_gyr n_gyrbias]; lra.
Qed.
Print Assumptions C76_rest_refuted.
