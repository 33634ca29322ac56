(** C73: the quaternion matrices, the message conversions and the short time stamps. *)

From Coq Require Import Reals ZArith Lra Lia.
From Verif Require Import Geom EigenUtils.
Local Open Scope R_scope.

(** ** Specification *)
(** The product of quaternions by scalar and vector parts: [(a + u)(b + v) = ab - u.v + av + bu + u x v] *)
Definition product (a b : quat) : quat :=
  let v := v3add (v3add (v3scale (qw a) (qvec b)) (v3scale (qw b) (qvec a))) (v3cross (qvec a) (qvec b)) in
  Quat (qw a * qw b - v3dot (qvec a) (qvec b)) (v3x v) (v3y v) (v3z v).
Definition pure (w : v3) : quat := Quat 0 (v3x w) (v3y w) (v3z w).
Definition conjugate (q : quat) : quat := Quat (qw q) (- qx q) (- qy q) (- qz q).
(** x y z w *)
Definition as_vector (q : quat) : v4 := V4 (qx q) (qy q) (qz q) (qw q).

Lemma V3_eq a b c a' b' c' : a = a' -> b = b' -> c = c' -> V3 a b c = V3 a' b' c'.
Proof. now intros -> -> ->. Qed.
Lemma V4_eq a b c d a' b' c' d' : a = a' -> b = b' -> c = c' -> d = d' -> V4 a b c d = V4 a' b' c' d'.
Proof. now intros -> -> -> ->. Qed.
Ltac expand := unfold product, pure, conjugate, as_vector, xi_q_tr_vec, m43_tr_vec, m43_vec, xi_mat, m43_of, omega_hamilton, omega_jpl,
  m4vec, v4dot, m3add, m3scale, m3eye, skew, v3neg, v3add, v3scale, v3cross, v3dot, v3norm2, qvec, qnorm2;
  cbn [v3x v3y v3z e1 e2 e3 e4 r1 r2 r3 w1 w2 w3 w4 y1 y2 y3 y4 qw qx qy qz].

Lemma xi_normal x y z w : xi_mat (V4 x y z w) =
  M43 (V3 w (- z) y) (V3 z w (- x)) (V3 (- y) x w) (V3 (- x) (- y) (- z)).
Proof.
unfold xi_mat, m43_of, m3add, m3scale, m3eye, skew, v3neg, v3add, v3scale;
  cbn [v3x v3y v3z e1 e2 e3 e4 r1 r2 r3].
f_equal; apply V3_eq; ring.
Qed.
Lemma tr_normal a b c d x y z w : m43_tr_vec (M43 a b c d) (V4 x y z w) =
  V3 (x * v3x a + y * v3x b + z * v3x c + w * v3x d) (x * v3y a + y * v3y b + z * v3y c + w * v3y d)
     (x * v3z a + y * v3z b + z * v3z c + w * v3z d).
Proof.
unfold m43_tr_vec, v3add, v3scale; cbn [v3x v3y v3z e1 e2 e3 e4 y1 y2 y3 y4]; apply V3_eq; ring.
Qed.

Lemma Quat_eq a b c d a' b' c' d' : a = a' -> b = b' -> c = c' -> d = d' -> Quat a b c d = Quat a' b' c' d'.
Proof. now intros -> -> -> ->. Qed.
Lemma product_normal w x y z w' x' y' z' : product (Quat w x y z) (Quat w' x' y' z') =
  Quat (w * w' - x * x' - y * y' - z * z') (w * x' + x * w' + y * z' - z * y')
       (w * y' - x * z' + y * w' + z * x') (w * z' + x * y' - y * x' + z * w').
Proof.
unfold product, qvec, v3add, v3scale, v3cross, v3dot; cbn [v3x v3y v3z qw qx qy qz]; apply Quat_eq; ring.
Qed.

(** The Hamilton matrix is the product with the rates on the left, the JPL matrix with the rates on
    the right. *)
Theorem C73_omega : forall w q,
  m4vec (omega_hamilton w) (as_vector q) = as_vector (product (pure w) q) /\
  m4vec (omega_jpl w) (as_vector q) = as_vector (product q (pure w)).
Proof. intros [a b c] [w x y z]; expand; split; apply V4_eq; ring. Qed.
Print Assumptions C73_omega.

(** [Xi] is the product of the quaternion with a small vector. *)
Theorem C73_xi : forall q t, m43_vec (xi_mat (as_vector q)) t = as_vector (product q (pure t)).
Proof. intros [w x y z] [a b c]; expand; apply V4_eq; ring. Qed.
Print Assumptions C73_xi.

(** It has orthogonal columns as long as the quaternion, all orthogonal to the quaternion. *)
Theorem C73_xi_orthogonal : forall q,
  m43_tr_vec (xi_mat (as_vector q)) (as_vector q) = V3 0 0 0 /\
  forall t, m43_tr_vec (xi_mat (as_vector q)) (m43_vec (xi_mat (as_vector q)) t) = v3scale (qnorm2 q) t.
Proof.
intros [w x y z]; unfold as_vector; cbn [qw qx qy qz]; rewrite xi_normal; split;
  [|intros [a b c]; unfold m43_vec; cbn [y1 y2 y3 y4]]; rewrite tr_normal; unfold v3dot, v3scale, qnorm2;
  cbn [v3x v3y v3z qw qx qy qz]; apply V3_eq; ring.
Qed.
Print Assumptions C73_xi_orthogonal.

(** The error quaternion of the comment: the conjugate times the other; of a unit quaternion with
    itself, the identity. *)
Theorem C73_error : forall q p, xi_q_tr_vec (as_vector q) (as_vector p) = as_vector (product (conjugate q) p) /\
  (qnorm2 q = 1 -> xi_q_tr_vec (as_vector q) (as_vector q) = V4 0 0 0 1).
Proof.
assert (n : forall w x y z w' x' y' z', xi_q_tr_vec (V4 x y z w) (V4 x' y' z' w') =
  V4 (w * x' - x * w' - y * z' + z * y') (w * y' + x * z' - y * w' - z * x') (w * z' - x * y' + y * x' - z * w')
     (x * x' + y * y' + z * z' + w * w')).
{ intros w x y z w' x' y' z'; unfold xi_q_tr_vec; rewrite xi_normal, tr_normal; unfold v4dot.
  cbn [v3x v3y v3z e1 e2 e3 e4]; apply V4_eq; ring. }
intros [w x y z] [w' x' y' z']; unfold as_vector, conjugate, qnorm2; cbn [qw qx qy qz].
rewrite !n, product_normal; cbn [qw qx qy qz].
split; [apply V4_eq; ring|intros h; apply V4_eq; lra].
Qed.
Print Assumptions C73_error.

(** A half turn about x, seen from a quarter turn. *)
Example C73_error_ex : xi_q_tr_vec (as_vector (Quat (3/5) (4/5) 0 0)) (as_vector (Quat 0 1 0 0)) = V4 (3/5) 0 0 (4/5).
Proof.
destruct (C73_error (Quat (3/5) (4/5) 0 0) (Quat 0 1 0 0)) as [-> _]; expand; apply V4_eq; lra.
Qed.
Example C73_omega_ex : m4vec (omega_hamilton (V3 1 2 3)) (V4 4 5 6 7) = V4 4 20 18 (-32) /\
  m4vec (omega_jpl (V3 1 2 3)) (V4 4 5 6 7) = V4 10 8 24 (-32).
Proof. expand; split; apply V4_eq; lra. Qed.

(** The time stamps in the log are the times without the multiples of 10000 seconds. *)
Theorem C73_timehuman : forall t, 0 <= timehuman t < 10000 /\ (exists z, t = timehuman t + 10000 * IZR z) /\
  forall s, 0 <= s < 10000 -> (exists z, t = s + 10000 * IZR z) -> s = timehuman t.
Proof.
intros t; unfold timehuman; destruct (base_Int_part (t / 10000)) as [h1 h2].
assert (b : 0 <= t - IZR (Int_part (t / 10000)) * 10000 < 10000) by lra.
split; [exact b|]; split; [exists (Int_part (t / 10000)); lra|].
intros s hs (z & e).
assert (z = Int_part (t / 10000)) as <-; [|lra].
assert (p : (z < Int_part (t / 10000) + 1)%Z) by (apply lt_IZR; rewrite plus_IZR; lra).
assert (q : (Int_part (t / 10000) < z + 1)%Z) by (apply lt_IZR; rewrite plus_IZR; lra); lia.
Qed.
Print Assumptions C73_timehuman.
Example C73_timehuman_ex : timehuman 1700003456 = 3456.
Proof. symmetry; apply C73_timehuman; [lra|exists 170000%Z; lra]. Qed.

(** Message conversions lose nothing. *)
Theorem C73_messages :
  (forall q, Quat (m_w (quaternion_to_msg q)) (m_x (quaternion_to_msg q)) (m_y (quaternion_to_msg q)) (m_z (quaternion_to_msg q)) = q) /\
  (forall a b c, let f := fun i => match i with 0%nat => a | 1%nat => b | _ => c end in
     pt_x (vector3d_to_point f) = a /\ pt_y (vector3d_to_point f) = b /\ pt_z (vector3d_to_point f) = c).
Proof. split; [intros [w x y z]; reflexivity|]; intros a b c f; repeat split. Qed.
Print Assumptions C73_messages.
