(** Angles and directions, for C69. *)

From Coq Require Import Reals Lra Psatz.
From Verif Require Import Geom GeomProofs Sensors SensorsProofs Node Compass.
Local Open Scope R_scope.

Lemma cos_sin_atan_right y x : 0 < x ->
  cos (atan (y / x)) = x / sqrt (x * x + y * y) /\ sin (atan (y / x)) = y / sqrt (x * x + y * y).
Proof.
intros Hx. rewrite cos_atan, sin_atan. unfold Rsqr.
assert (E : sqrt (1 + y / x * (y / x)) = sqrt (x * x + y * y) / x).
{ replace (1 + y / x * (y / x)) with ((x * x + y * y) / (x * x)) by (field; lra).
  rewrite sqrt_div_alt by nra. rewrite sqrt_square by lra. reflexivity. }
rewrite E. assert (0 < sqrt (x * x + y * y)) by (apply sqrt_lt_R0; nra).
split; field; split; lra.
Qed.

Lemma atan2_spec y x : 0 < x * x + y * y ->
  (cos (atan2 y x) = x / sqrt (x * x + y * y) /\ sin (atan2 y x) = y / sqrt (x * x + y * y)) /\
  - PI < atan2 y x <= PI.
Proof.
intros H. pose proof PI_RGT_0 as HP. unfold atan2.
destruct (Rlt_dec 0 x) as [h1|h1].
- split; [exact (cos_sin_atan_right y x h1)|]. pose proof (atan_bound (y / x)) as [b1 b2]. split; lra.
- destruct (Rlt_dec x 0) as [h2|h2].
  + assert (E : y / x = (- y) / (- x)) by (field; lra).
    assert (h3 : 0 < - x) by lra.
    pose proof (cos_sin_atan_right (- y) (- x) h3) as [C S].
    replace (- x * - x + - y * - y) with (x * x + y * y) in C, S by ring.
    assert (0 < sqrt (x * x + y * y)) by (apply sqrt_lt_R0; lra).
    pose proof (atan_bound (y / x)) as B.
    destruct (Rlt_dec y 0) as [h4|h4].
    * assert (0 < atan (y / x)).
      { rewrite <- atan_0. apply atan_increasing. rewrite E. apply Rdiv_lt_0_compat; lra. }
      split; [|split; lra]. replace (atan (y / x) - PI) with (- (PI - atan (y / x))) by ring.
      rewrite cos_neg, sin_neg, Rtrigo_facts.cos_pi_minus, Rtrigo_facts.sin_pi_minus, E, C, S. split; field; lra.
    * assert (atan (y / x) <= 0).
      { rewrite <- atan_0. destruct (Req_dec y 0) as [->|n]; [right; f_equal; field; lra|left].
        apply atan_increasing. rewrite E. rewrite <- Ropp_0. replace (- y / - x) with (- (y / - x)) by (field; lra).
        apply Ropp_lt_contravar. apply Rdiv_lt_0_compat; lra. }
      split; [|split; lra]. rewrite neg_cos, neg_sin, E, C, S. split; field; lra.
  + assert (x = 0) by lra. subst x. replace (0 * 0 + y * y) with (y * y) in * by ring.
    destruct (Rlt_dec 0 y) as [h3|h3].
    * rewrite sqrt_square by lra. rewrite cos_PI2, sin_PI2. split; [split; field; lra|split; lra].
    * destruct (Rlt_dec y 0) as [h4|h4]; [|nra].
      replace (y * y) with ((- y) * (- y)) by ring. rewrite sqrt_square by lra.
      rewrite cos_neg, sin_neg, cos_PI2, sin_PI2. split; [split; field; lra|split; lra].
Qed.

(** Where a yaw points. *)
Lemma yaw_quat_eq d : yaw_quat d = Quat (cos (d / 180 * PI / 2)) 0 0 (sin (d / 180 * PI / 2)).
Proof.
unfold yaw_quat. apply qnormalize_id. unfold qnorm2; cbn [qw qx qy qz].
pose proof (sin2_cos2 (d / 180 * PI / 2)) as H. unfold Rsqr in H. lra.
Qed.
Lemma yaw_points d :
  m3vec (qrot (yaw_quat d)) (V3 1 0 0) = V3 (cos (d / 180 * PI)) (sin (d / 180 * PI)) 0 /\
  m3vec (qrot (yaw_quat d)) (V3 0 0 1) = V3 0 0 1.
Proof.
rewrite yaw_quat_eq. set (h := d / 180 * PI / 2). replace (d / 180 * PI) with (2 * h) by (unfold h; field).
rewrite cos_2a_sin, sin_2a.
unfold m3vec, qrot, v3dot; cbn [qw qx qy qz v3x v3y v3z r1 r2 r3]; split; f_equal; ring.
Qed.

Lemma degrees_back x : degrees x / 180 * PI = x.
Proof. unfold degrees. pose proof PI_RGT_0. field. lra. Qed.

(** The first column of the rotation matrix is the direction of the x axis. *)
Lemma tf_column q : qnorm2 q = 1 -> v3x (m3vec (qrot q) (V3 1 0 0)) = tf_m00 q /\ v3y (m3vec (qrot q) (V3 1 0 0)) = tf_m10 q.
Proof.
intros H. unfold tf_m00, tf_m10. rewrite H. destruct (Rlt_dec 1 tf_eps) as [h|_].
- exfalso. unfold tf_eps in h. lra.
- unfold m3vec, qrot, v3dot; cbn [v3x v3y v3z r1 r2 r3]. split; field.
Qed.
