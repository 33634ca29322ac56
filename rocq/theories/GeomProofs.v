(** Lemmas about quaternions and the state prediction. *)

From Coq Require Import Reals ZArith List Lra Lia Psatz.
From Verif Require Import Outcome Geom StateList Propagate StateListProofs.
Import ListNotations.
Open Scope R_scope.

Ltac prj := cbn [v3x v3y v3z r1 r2 r3 qw qx qy qz e1 e2 e3 e4 w1 w2 w3 w4] in *.

(** Split an equation between records into its components. *)
Ltac comps := repeat match goal with
  | |- M4 _ _ _ _ = M4 _ _ _ _ => f_equal
  | |- V4 _ _ _ _ = V4 _ _ _ _ => f_equal
  | |- M3 _ _ _ = M3 _ _ _ => f_equal
  | |- V3 _ _ _ = V3 _ _ _ => f_equal
  | |- Quat _ _ _ _ = Quat _ _ _ _ => f_equal
  end.

(** ** Quaternion algebra *)

Lemma qnorm2_mul : forall a b, qnorm2 (qmul a b) = qnorm2 a * qnorm2 b.
Proof. intros [aw ax ay az] [bw bx by_ bz]. unfold qnorm2, qmul. prj. ring. Qed.
Lemma qnorm2_nonneg : forall a, 0 <= qnorm2 a.
Proof. intros [aw ax ay az]. unfold qnorm2. prj. nra. Qed.
Lemma qnorm2_scale : forall k a, qnorm2 (qscale k a) = k * k * qnorm2 a.
Proof. intros k [aw ax ay az]. unfold qnorm2, qscale. prj. ring. Qed.
Lemma qnorm2_conj : forall a, qnorm2 (qconj a) = qnorm2 a.
Proof. intros [aw ax ay az]. unfold qnorm2, qconj. prj. ring. Qed.

Lemma qnormalize_unit : forall a, qnorm2 a <> 0 -> qnorm2 (qnormalize a) = 1.
Proof.
  intros a H. unfold qnormalize, qnorm. rewrite qnorm2_scale.
  pose proof (qnorm2_nonneg a) as Hp. pose proof (sqrt_sqrt _ Hp) as Hs.
  assert (sqrt (qnorm2 a) <> 0) by (intros E; rewrite E in Hs; lra).
  rewrite <- Hs at 3. field. assumption.
Qed.

Lemma qnormalize_id : forall a, qnorm2 a = 1 -> qnormalize a = a.
Proof.
  intros a H. unfold qnormalize, qnorm. rewrite H, sqrt_1, Rinv_1.
  destruct a as [w x y z]. cbv [qscale v3x v3y v3z r1 r2 r3 qw qx qy qz e1 e2 e3 e4 w1 w2 w3 w4]. comps; ring.
Qed.

Lemma small_quat_unit : forall t, qnorm2 (small_quat t) = 1.
Proof.
  intros [v3x v3y v3z]. unfold small_quat, v3norm2, v3dot. cbn [Geom.v3x Geom.v3y Geom.v3z].
  set (s := (v3x * v3x + v3y * v3y + v3z * v3z) / 4).
  assert (Hs : 0 <= s) by (unfold s; nra).
  destruct (Rlt_dec s 1) as [Hl|Hl].
  - unfold qnorm2. cbn [qw qx qy qz]. rewrite sqrt_sqrt by lra. unfold s. field.
  - unfold qnorm2. cbn [qw qx qy qz].
    assert (Hq : sqrt (1 + s) * sqrt (1 + s) = 1 + s) by (apply sqrt_sqrt; lra).
    assert (0 < sqrt (1 + s)) by (apply sqrt_lt_R0; lra).
    set (r := sqrt (1 + s)) in *.
    replace (1 / r * (1 / r) + v3x * (1 / r * (1 / 2)) * (v3x * (1 / r * (1 / 2))) +
             v3y * (1 / r * (1 / 2)) * (v3y * (1 / r * (1 / 2))) +
             v3z * (1 / r * (1 / 2)) * (v3z * (1 / r * (1 / 2))))
      with ((1 + s) / (r * r)) by (unfold s; field; lra).
    rewrite Hq. field. lra.
Qed.

(** The correction keeps unit attitude. *)
Lemma correction_unit : forall q t, qnorm2 q = 1 -> qnorm2 (qnormalize (qmul q (small_quat t))) = 1.
Proof. intros q t H. apply qnormalize_unit. rewrite qnorm2_mul, H, small_quat_unit. lra. Qed.

(** ** Structure of the integration matrix *)

(** [a I + Omega(u)] applied to the coefficients of [q] is [q] times [(a, u)]. *)
Definition aI_plus (a : R) (u : v3) : m4 := m4add (m4scale a m4eye) (omega_jpl u).

Lemma omega_is_right_mult : forall u q,
  of_coeffs (m4vec (omega_jpl u) (coeffs q)) = qmul q (qpure u).
Proof.
  intros [x y z] [w a b c]. cbv [of_coeffs  m4vec  omega_jpl  coeffs  qmul  qpure  v4dot v3x v3y v3z r1 r2 r3 qw qx qy qz e1 e2 e3 e4 w1 w2 w3 w4]. comps; ring.
Qed.

Lemma aI_plus_mult : forall a u q,
  of_coeffs (m4vec (aI_plus a u) (coeffs q)) = qmul q (Quat a (v3x u) (v3y u) (v3z u)).
Proof.
  intros k [x y z] [w a b c]. cbv [aI_plus  m4add  m4scale  m4eye  of_coeffs  m4vec  omega_jpl  coeffs  qmul  v4dot  v4add  v4scale v3x v3y v3z r1 r2 r3 qw qx qy qz e1 e2 e3 e4 w1 w2 w3 w4]. comps; ring.
Qed.

Lemma omega_square : forall u, m4mul (omega_jpl u) (omega_jpl u) = m4scale (- v3norm2 u) m4eye.
Proof.
  intros [x y z]. unfold m4mul, omega_jpl, m4scale, m4eye, v4m, m4tr, v4dot, v4scale, v3norm2, v3dot. prj.
  comps; ring.
Qed.

Lemma m4scale_omega : forall k u, m4scale k (omega_jpl u) = omega_jpl (v3scale k u).
Proof.
  intros k [x y z]. cbv [m4scale  omega_jpl  v4scale  v3scale v3x v3y v3z r1 r2 r3 qw qx qy qz e1 e2 e3 e4 w1 w2 w3 w4]. comps; ring.
Qed.

Lemma m4eye_square : forall k, m4mul (m4scale k m4eye) (m4scale k m4eye) = m4scale (k * k) m4eye.
Proof.
  intros k. cbv [m4mul  m4scale  m4eye  v4m  m4tr  v4dot  v4scale v3x v3y v3z r1 r2 r3 qw qx qy qz e1 e2 e3 e4 w1 w2 w3 w4]. comps; ring.
Qed.

(** What the loop computes: powers 1, 2, 4 and 8 over 1, 2, 6 and 24. *)
Definition theta_vec (ew ewold : v3) (dt : R) : v3 := v3scale (1/2 * dt) (mean_rate ew ewold).
Definition me_coef (n2 : R) : R := 1 - n2 / 2 + n2 * n2 / 6 + (n2 * n2) * (n2 * n2) / 24.

Lemma aI_start : forall k u, m4add m4eye (m4scale k (omega_jpl u)) = aI_plus 1 (v3scale k u).
Proof.
  intros k [x y z]. cbv [aI_plus  m4add  m4scale  m4eye  omega_jpl  v4add  v4scale  v3scale v3x v3y v3z r1 r2 r3 qw qx qy qz e1 e2 e3 e4 w1 w2 w3 w4]. comps; ring.
Qed.
Lemma aI_add_eye : forall a u k c, m4add (aI_plus a u) (m4scale k (m4scale c m4eye)) = aI_plus (a + k * c) u.
Proof.
  intros a [x y z] k c. cbv [aI_plus  m4add  m4scale  m4eye  omega_jpl  v4add  v4scale v3x v3y v3z r1 r2 r3 qw qx qy qz e1 e2 e3 e4 w1 w2 w3 w4]. comps; ring.
Qed.
Lemma aI_add_omega : forall a u c, m4add (aI_plus a u) (omega_jpl c) = aI_plus a (v3add u c).
Proof.
  intros a [x y z] [x' y' z']. cbv [aI_plus  m4add  m4scale  m4eye  omega_jpl  v4add  v4scale  v3add v3x v3y v3z r1 r2 r3 qw qx qy qz e1 e2 e3 e4 w1 w2 w3 w4]. comps; ring.
Qed.
Lemma v3scale_1 : forall u, v3scale (/ 1) u = u.
Proof. intros [x y z]. cbv [v3scale v3x v3y v3z r1 r2 r3 qw qx qy qz e1 e2 e3 e4 w1 w2 w3 w4]. comps; field. Qed.
Lemma v3scale_scale : forall a b u, v3scale a (v3scale b u) = v3scale (a * b) u.
Proof. intros a b [x y z]. cbv [v3scale v3x v3y v3z r1 r2 r3 qw qx qy qz e1 e2 e3 e4 w1 w2 w3 w4]. comps; ring. Qed.

Lemma mat_exp_form : forall ew ewold dt,
  mat_exp ew ewold dt = aI_plus (me_coef (v3norm2 (theta_vec ew ewold dt))) (theta_vec ew ewold dt).
Proof.
  intros ew ewold dt. unfold mat_exp. rewrite m4scale_omega. fold (theta_vec ew ewold dt).
  set (u := theta_vec ew ewold dt). cbn [matexp_loop].
  rewrite omega_square, !m4eye_square.
  change (1 * 1)%Z with 1%Z. change (1 * (1 + 1))%Z with 2%Z.
  change (2 * (1 + 1 + 1))%Z with 6%Z. change (6 * (1 + 1 + 1 + 1))%Z with 24%Z.
  rewrite aI_start, v3scale_1, !aI_add_eye. f_equal. unfold me_coef. field.
Qed.

Lemma commutator_form : forall a b,
  m4sub (m4mul (omega_jpl a) (omega_jpl b)) (m4mul (omega_jpl b) (omega_jpl a)) =
  omega_jpl (v3scale 2 (v3cross b a)).
Proof.
  intros [x y z] [x' y' z']. cbv [m4sub  m4mul  omega_jpl  m4add  m4scale  v4m  m4tr  v4dot  v4add  v4scale  v3scale  v3cross v3x v3y v3z r1 r2 r3 qw qx qy qz e1 e2 e3 e4 w1 w2 w3 w4]. comps; ring.
Qed.

Definition comm_vec (ew ewold : v3) (dt : R) : v3 := v3scale (dt * dt / 24) (v3cross ewold ew).

Lemma quat_int_form : forall ew ewold dt,
  quat_int ew ewold dt =
  aI_plus (me_coef (v3norm2 (theta_vec ew ewold dt))) (v3add (theta_vec ew ewold dt) (comm_vec ew ewold dt)).
Proof.
  intros ew ewold dt. unfold quat_int. rewrite mat_exp_form, commutator_form, !m4scale_omega, aI_add_omega.
  f_equal. f_equal. unfold comm_vec. rewrite !v3scale_scale. f_equal. field.
Qed.

Lemma norm2_orth : forall ew ewold dt,
  v3norm2 (v3add (theta_vec ew ewold dt) (comm_vec ew ewold dt)) =
  v3norm2 (theta_vec ew ewold dt) + v3norm2 (comm_vec ew ewold dt).
Proof.
  intros [x y z] [x' y' z'] dt. unfold theta_vec, comm_vec, mean_rate, v3norm2, v3dot, v3add, v3scale, v3cross. prj. field.
Qed.

Lemma v3norm2_nonneg : forall a, 0 <= v3norm2 a.
Proof. intros [x y z]. unfold v3norm2, v3dot. prj. nra. Qed.

(** The unnormalised attitude never vanishes. *)
Lemma me_pos : forall n2 m, 0 <= n2 -> 0 <= m -> 0 < me_coef n2 * me_coef n2 + n2 + m.
Proof.
  intros n2 m Hn Hm. destruct (Req_dec n2 0) as [->|Hne].
  - unfold me_coef. nra.
  - nra.
Qed.

Definition rot_quat (ew ewold : v3) (dt : R) : quat :=
  let u := v3add (theta_vec ew ewold dt) (comm_vec ew ewold dt) in
  Quat (me_coef (v3norm2 (theta_vec ew ewold dt))) (v3x u) (v3y u) (v3z u).

Lemma rot_quat_pos : forall ew ewold dt, 0 < qnorm2 (rot_quat ew ewold dt).
Proof.
  intros ew ewold dt. unfold rot_quat, qnorm2. cbn [qw qx qy qz].
  pose proof (norm2_orth ew ewold dt) as H.
  pose proof (me_pos (v3norm2 (theta_vec ew ewold dt)) (v3norm2 (comm_vec ew ewold dt))
                (v3norm2_nonneg _) (v3norm2_nonneg _)) as Hp.
  set (u := v3add _ _) in *. unfold v3norm2 at 1 in H. unfold v3dot in H. lra.
Qed.

Lemma propagate_q_form : forall ew ewold dt q,
  propagate_q ew ewold dt q = qnormalize (qmul q (rot_quat ew ewold dt)).
Proof. intros. unfold propagate_q. rewrite quat_int_form, aI_plus_mult. reflexivity. Qed.

Lemma propagate_q_unit : forall ew ewold dt q, qnorm2 q <> 0 -> qnorm2 (propagate_q ew ewold dt q) = 1.
Proof.
  intros ew ewold dt q Hq. rewrite propagate_q_form. apply qnormalize_unit. rewrite qnorm2_mul.
  pose proof (rot_quat_pos ew ewold dt). apply Rmult_integral_contrapositive. split; [exact Hq|lra].
Qed.

(** ** Rotation matrices *)

Lemma v3_eq : forall a b, v3x a = v3x b -> v3y a = v3y b -> v3z a = v3z b -> a = b.
Proof. intros [] []; cbn; intros; subst; reflexivity. Qed.

(** [qrot q x] is [q x q*] for unit [q]. *)
Lemma qrot_conj : forall q x, qnorm2 q = 1 ->
  m3vec (qrot q) x = qvec (qmul (qmul q (qpure x)) (qconj q)).
Proof.
  intros [w a b c] [x y z] H. unfold qnorm2 in H. prj.
  unfold m3vec, qrot, qvec, qmul, qpure, qconj, v3dot. prj.
  apply v3_eq; prj.
  - transitivity ((w*w + a*a - b*b - c*c) * x + 2*(a*b - w*c)*y + 2*(a*c + w*b)*z).
    + replace (w * w) with (1 - a * a - b * b - c * c) by lra. ring.
    + ring.
  - transitivity ((w*w - a*a + b*b - c*c) * y + 2*(a*b + w*c)*x + 2*(b*c - w*a)*z).
    + replace (w * w) with (1 - a * a - b * b - c * c) by lra. ring.
    + ring.
  - transitivity ((w*w - a*a - b*b + c*c) * z + 2*(a*c - w*b)*x + 2*(b*c + w*a)*y).
    + replace (w * w) with (1 - a * a - b * b - c * c) by lra. ring.
    + ring.
Qed.

Lemma qrot_orth : forall q, qnorm2 q = 1 -> m3mul (m3tr (qrot q)) (qrot q) = m3eye.
Proof.
  intros [w a b c] H. unfold qnorm2 in H. prj.
  assert (Hw : w * w = 1 - a * a - b * b - c * c) by lra.
  cbv [m3mul  m3tr  qrot  m3eye  v3dot v3x v3y v3z r1 r2 r3 qw qx qy qz e1 e2 e3 e4 w1 w2 w3 w4]. comps;
    match goal with |- ?l = ?r => cut (l - r = 0); [lra|] end; ring_simplify;
    replace (w ^ 2) with (1 - a * a - b * b - c * c) by (simpl; lra); ring.
Qed.

(** ** Constant attitude *)

Lemma no_rotation : forall dt q, qnorm2 q = 1 -> propagate_q v3zero v3zero dt q = q.
Proof.
  intros dt q Hq. rewrite propagate_q_form.
  replace (rot_quat v3zero v3zero dt) with qone.
  - replace (qmul q qone) with q; [apply qnormalize_id, Hq|].
    destruct q as [w x y z]. cbv [qmul  qone v3x v3y v3z r1 r2 r3 qw qx qy qz e1 e2 e3 e4 w1 w2 w3 w4]. comps; ring.
  - cbv [rot_quat  qone  theta_vec  comm_vec  mean_rate  me_coef  v3norm2  v3dot  v3add  v3scale  v3cross  v3zero v3x v3y v3z r1 r2 r3 qw qx qy qz e1 e2 e3 e4 w1 w2 w3 w4]. comps; field.
Qed.

Lemma v3sub_self : forall a, v3sub a a = v3zero.
Proof. intros [x y z]. cbv [v3sub  v3zero v3x v3y v3z r1 r2 r3 qw qx qy qz e1 e2 e3 e4 w1 w2 w3 w4]. comps; ring. Qed.
