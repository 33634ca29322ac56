(** Lemmas about rotation matrices and their quaternions. *)

From Coq Require Import Reals Lra Lia Nsatz.
From Verif Require Import Geom GeomProofs Gps.
Open Scope R_scope.

(** Rows orthonormal and right-handed. *)
Record rotation (A : m3) : Prop := {
  rot_1 : v3dot (r1 A) (r1 A) = 1; rot_2 : v3dot (r2 A) (r2 A) = 1; rot_3 : v3dot (r3 A) (r3 A) = 1;
  rot_12 : v3dot (r1 A) (r2 A) = 0; rot_13 : v3dot (r1 A) (r3 A) = 0; rot_23 : v3dot (r2 A) (r3 A) = 0;
  rot_h : v3cross (r1 A) (r2 A) = r3 A }.

Lemma v3_eq a b : v3x a = v3x b -> v3y a = v3y b -> v3z a = v3z b -> a = b.
Proof. destruct a, b; cbn; intros; congruence. Qed.

(** The other two cross products. *)
Lemma rot_cross A : rotation A -> v3cross (r2 A) (r3 A) = r1 A /\ v3cross (r3 A) (r1 A) = r2 A.
Proof.
  intros [h1 h2 h3 h12 h13 h23 h]. rewrite <- h. destruct A as [[a b c] [d e f] z].
  cbn [r1 r2 r3] in *. clear h h3 h13 h23.
  cbv [v3dot v3cross v3x v3y v3z] in *. split; f_equal.
  - replace (e * (a * e - b * d) - f * (c * d - a * f))
      with (a * (d*d + e*e + f*f) - d * (a*d + b*e + c*f)) by ring. rewrite h2, h12; ring.
  - replace (f * (b * f - c * e) - d * (a * e - b * d))
      with (b * (d*d + e*e + f*f) - e * (a*d + b*e + c*f)) by ring. rewrite h2, h12; ring.
  - replace (d * (c * d - a * f) - e * (b * f - c * e))
      with (c * (d*d + e*e + f*f) - f * (a*d + b*e + c*f)) by ring. rewrite h2, h12; ring.
  - replace ((c * d - a * f) * c - (a * e - b * d) * b)
      with (d * (a*a + b*b + c*c) - a * (a*d + b*e + c*f)) by ring. rewrite h1, h12; ring.
  - replace ((a * e - b * d) * a - (b * f - c * e) * c)
      with (e * (a*a + b*b + c*c) - b * (a*d + b*e + c*f)) by ring. rewrite h1, h12; ring.
  - replace ((b * f - c * e) * b - (c * d - a * f) * a)
      with (f * (a*a + b*b + c*c) - c * (a*d + b*e + c*f)) by ring. rewrite h1, h12; ring.
Qed.

Lemma half_inv t u : 0 < t -> t * t = u -> 1/2 / t * (1/2 * t) = 1/4 /\ 1/2 / t * (1/2 / t) = 1/4 / u.
Proof. intros ht <-. split; field; lra. Qed.

(** Rows against columns: the columns are orthonormal too. *)
Lemma rot_cols A : rotation A ->
  let a := v3x (r1 A) in let b := v3y (r1 A) in let c := v3z (r1 A) in
  let d := v3x (r2 A) in let e := v3y (r2 A) in let f := v3z (r2 A) in
  let g := v3x (r3 A) in let h := v3y (r3 A) in let i := v3z (r3 A) in
  (a*a + d*d + g*g = 1 /\ b*b + e*e + h*h = 1 /\ c*c + f*f + i*i = 1) /\
  (a*b + d*e + g*h = 0 /\ a*c + d*f + g*i = 0 /\ b*c + e*f + h*i = 0).
Proof.
  intros hr. destruct (rot_cross A hr) as [hc1 hc2]. destruct hr as [h1 h2 h3 h12 h13 h23 hh].
  destruct A as [[a b c] [d e f] [g h i]]. cbn [r1 r2 r3 v3x v3y v3z] in *.
  cbv [v3dot v3cross v3x v3y v3z] in *.
  injection hh as e1 e2 e3. injection hc1 as e4 e5 e6. injection hc2 as e7 e8 e9.
  assert (det : a * (e*i - f*h) + b * (f*g - d*i) + c * (d*h - e*g) = 1)
    by (rewrite e4, e5, e6; exact h1).
  assert (p1 : a * (e*i - f*h) + d * (h*c - i*b) + g * (b*f - c*e) = 1)
    by (rewrite <- det; ring).
  assert (p2 : b * (f*g - d*i) + e * (i*a - g*c) + h * (c*d - a*f) = 1)
    by (rewrite <- det; ring).
  assert (p3 : c * (d*h - e*g) + f * (g*b - h*a) + i * (a*e - b*d) = 1)
    by (rewrite <- det; ring).
  rewrite e4, e7, e1 in p1. rewrite e5, e8, e2 in p2. rewrite e6, e9, e3 in p3.
  repeat split; try assumption.
  - rewrite <- e5, <- e8, <- e2. ring.
  - rewrite <- e6, <- e9, <- e3. ring.
  - rewrite <- e6, <- e9, <- e3. ring.
Qed.

(** The conversion is right: the quaternion is a unit and its rotation matrix is [A]. *)
Lemma quat_of_mat_ok A : rotation A -> qrot (quat_of_mat A) = A /\ qnorm2 (quat_of_mat A) = 1.
Proof.
  intros hr. destruct (rot_cols A hr) as [[k1 [k2 k3]] [k12 [k13 k23]]].
  destruct (rot_cross A hr) as [hc1 hc2]. destruct hr as [h1 h2 h3 h12 h13 h23 hh].
  destruct A as [[a b c] [d e f] [g h i]]. cbn [r1 r2 r3 v3x v3y v3z] in *.
  cbv [v3dot v3cross v3x v3y v3z] in h1, h2, h3, h12, h13, h23, hh, hc1, hc2.
  injection hh as e1 e2 e3. injection hc1 as e4 e5 e6. injection hc2 as e7 e8 e9.
  assert (key : forall W X Y Z,
     4*W*W = 1 + a + e + i -> 4*X*X = 1 + a - e - i -> 4*Y*Y = 1 - a + e - i -> 4*Z*Z = 1 - a - e + i ->
     4*W*X = h - f -> 4*W*Y = c - g -> 4*W*Z = d - b -> 4*X*Y = d + b -> 4*X*Z = c + g -> 4*Y*Z = h + f ->
     qrot (Quat W X Y Z) = M3 (V3 a b c) (V3 d e f) (V3 g h i) /\ qnorm2 (Quat W X Y Z) = 1).
  { intros. split.
    - cbv [qrot qw qx qy qz]. f_equal; f_equal; lra.
    - cbv [qnorm2 qw qx qy qz]. lra. }
  unfold quat_of_mat. cbn [r1 r2 r3 v3x v3y v3z].
  destruct (Rlt_dec 0 (a + e + i)) as [ht|ht].
  - set (u := a + e + i + 1).
    assert (hu : 0 < u) by (unfold u; lra).
    assert (hs : sqrt u * sqrt u = u) by (apply sqrt_sqrt; lra).
    assert (hp : 0 < sqrt u) by (apply sqrt_lt_R0; exact hu).
    destruct (half_inv (sqrt u) u hp hs) as [q1 q2]. set (S := 1/2 / sqrt u) in *. set (T := 1/2 * sqrt u) in *.
    assert (hT : 4 * T * T = u) by (unfold T; lra).
    assert (hS : 4 * (S * S) * u = 1) by (rewrite q2; field; lra).
    assert (scl : forall x y z, x * y = z * u -> 4 * (x * S) * (y * S) = z).
    { intros x y z hx. replace (4 * (x * S) * (y * S)) with (x * y * (4 * (S * S))) by ring.
      rewrite hx. replace (z * u * (4 * (S * S))) with (z * (4 * (S * S) * u)) by ring. rewrite hS; ring. }
    assert (lin : forall x, 4 * T * (x * S) = x).
    { intros x. replace (4 * T * (x * S)) with (4 * x * (S * T)) by ring. rewrite q1. field. }
    apply key; try apply lin; try (apply scl; unfold u; lra). rewrite hT; unfold u; lra.
  - set (u0 := a - e - i + 1). set (u1 := e - i - a + 1). set (u2 := i - a - e + 1).
    assert (fin : forall u, 0 < u -> exists S T, S = 1/2 / sqrt u /\ T = 1/2 * sqrt u /\
       4 * T * T = u /\ (forall x y z, x * y = z * u -> 4 * (x * S) * (y * S) = z) /\
       (forall x, 4 * T * (x * S) = x) /\ (forall x, 4 * (x * S) * T = x)).
    { intros u hu. exists (1/2 / sqrt u), (1/2 * sqrt u).
      assert (hs : sqrt u * sqrt u = u) by (apply sqrt_sqrt; lra).
      assert (hp : 0 < sqrt u) by (apply sqrt_lt_R0; exact hu).
      destruct (half_inv (sqrt u) u hp hs) as [q1 q2]. set (S := 1/2 / sqrt u) in *. set (T := 1/2 * sqrt u) in *.
      assert (hT : 4 * T * T = u) by (unfold T; lra).
      assert (hS : 4 * (S * S) * u = 1) by (rewrite q2; field; lra).
      repeat split; auto.
      - intros x y z hx. replace (4 * (x * S) * (y * S)) with (x * y * (4 * (S * S))) by ring.
        rewrite hx. replace (z * u * (4 * (S * S))) with (z * (4 * (S * S) * u)) by ring. rewrite hS; ring.
      - intros x. replace (4 * T * (x * S)) with (4 * x * (S * T)) by ring. rewrite q1. field.
      - intros x. replace (4 * (x * S) * T) with (4 * x * (S * T)) by ring. rewrite q1. field. }
    destruct (Rlt_dec a e) as [n1|n1].
    + destruct (Rlt_dec e i) as [n2|n2].
      * destruct (fin u2) as (S & T & -> & -> & hT & scl & l1 & l2); [unfold u2; lra|].
        apply key; try apply l1; try apply l2; try (apply scl; unfold u2; lra);
          try (rewrite hT; unfold u2; lra); rewrite ?l1, ?l2; lra.
      * destruct (fin u1) as (S & T & -> & -> & hT & scl & l1 & l2); [unfold u1; lra|].
        apply key; try apply l1; try apply l2; try (apply scl; unfold u1; lra);
          try (rewrite hT; unfold u1; lra); rewrite ?l1, ?l2; lra.
    + destruct (Rlt_dec a i) as [n2|n2].
      * destruct (fin u2) as (S & T & -> & -> & hT & scl & l1 & l2); [unfold u2; lra|].
        apply key; try apply l1; try apply l2; try (apply scl; unfold u2; lra);
          try (rewrite hT; unfold u2; lra); rewrite ?l1, ?l2; lra.
      * destruct (fin u0) as (S & T & -> & -> & hT & scl & l1 & l2); [unfold u0; lra|].
        apply key; try apply l1; try apply l2; try (apply scl; unfold u0; lra);
          try (rewrite hT; unfold u0; lra); rewrite ?l1, ?l2; lra.
Qed.

(** Transforming by a unit quaternion is multiplying by its rotation matrix. *)
Lemma qtransform_rot q v : qnorm2 q = 1 -> qtransform q v = m3vec (qrot q) v.
Proof.
  intros _. destruct q as [w x y z], v as [a b c].
  cbv [qtransform m3vec qrot v3dot v3add v3scale v3cross qvec qw qx qy qz v3x v3y v3z r1 r2 r3].
  f_equal; ring.
Qed.

Lemma sc2 x : sin x * sin x + cos x * cos x = 1.
Proof. assert (h := sin2_cos2 x). unfold Rsqr in h. lra. Qed.

Lemma enu_rotation lat lon : rotation (enu_mat lat lon).
Proof.
  assert (h1 := sc2 (rad lat)). assert (h2 := sc2 (rad lon)).
  unfold enu_mat. revert h1 h2. generalize (sin (rad lat)) (cos (rad lat)) (sin (rad lon)) (cos (rad lon)).
  intros sa ca so co h1 h2.
  constructor; cbv [v3dot v3cross v3x v3y v3z r1 r2 r3].
  - lra.
  - replace (- sa * co * (- sa * co) + - sa * so * (- sa * so) + ca * ca)
      with (sa * sa * (so * so + co * co) + ca * ca) by ring. rewrite h2. lra.
  - replace (ca * co * (ca * co) + ca * so * (ca * so) + sa * sa)
      with (ca * ca * (so * so + co * co) + sa * sa) by ring. rewrite h2. lra.
  - ring.
  - ring.
  - replace (- sa * co * (ca * co) + - sa * so * (ca * so) + ca * sa)
      with (ca * sa * (1 - (so * so + co * co))) by ring. rewrite h2. ring.
  - f_equal; try ring.
    replace (- so * (- sa * so) - co * (- sa * co)) with (sa * (so * so + co * co)) by ring.
    rewrite h2; ring.
Qed.

(** A rotation keeps lengths. *)
Lemma rotation_norm A v : rotation A -> v3norm2 (m3vec A v) = v3norm2 v.
Proof.
  intros hr. destruct (rot_cols A hr) as [[k1 [k2 k3]] [k12 [k13 k23]]].
  destruct A as [[a b c] [d e f] [g h i]], v as [x y z]. cbn [r1 r2 r3 v3x v3y v3z] in *.
  cbv [v3norm2 m3vec v3dot v3x v3y v3z r1 r2 r3].
  transitivity ((a*a + d*d + g*g) * x*x + (b*b + e*e + h*h) * y*y + (c*c + f*f + i*i) * z*z
     + 2 * (a*b + d*e + g*h) * x*y + 2 * (a*c + d*f + g*i) * x*z + 2 * (b*c + e*f + h*i) * y*z); [ring|].
  rewrite k1, k2, k3, k12, k13, k23. ring.
Qed.

(** The rotation matrix of a unit quaternion is a rotation. *)
Lemma qrot_rotation q : qnorm2 q = 1 -> rotation (qrot q).
Proof.
  destruct q as [w x y z]. unfold qnorm2. cbn [qw qx qy qz]. intros h.
  assert (h' : w * w = 1 - x*x - y*y - z*z) by lra.
  constructor; cbv [qrot v3dot v3cross qw qx qy qz v3x v3y v3z r1 r2 r3].
  - transitivity (1 - 4 * (y*y + z*z) * (1 - (w*w + x*x + y*y + z*z))); [ring|rewrite h; ring].
  - transitivity (1 - 4 * (x*x + z*z) * (1 - (w*w + x*x + y*y + z*z))); [ring|rewrite h; ring].
  - transitivity (1 - 4 * (x*x + y*y) * (1 - (w*w + x*x + y*y + z*z))); [ring|rewrite h; ring].
  - transitivity (4 * x * y * (1 - (w*w + x*x + y*y + z*z))); [ring|rewrite h; ring].
  - transitivity (4 * x * z * (1 - (w*w + x*x + y*y + z*z))); [ring|rewrite h; ring].
  - transitivity (4 * y * z * (1 - (w*w + x*x + y*y + z*z))); [ring|rewrite h; ring].
  - f_equal.
    + nsatz.
    + nsatz.
    + nsatz.
Qed.
