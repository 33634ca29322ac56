(** Vectors, 3x3 and 4x4 matrices and quaternions over the reals, as far as the
    filter uses them.  Definitions only; no rounding.

    Products, rotation matrices and normalisation follow the documented
    formulas of Eigen's Matrix and Quaternion classes.  Quaternions are Hamilton
    quaternions (w,x,y,z); [coeffs()] is the vector (x,y,z,w). *)

From Coq Require Import Reals.
Open Scope R_scope.

Record v3 := V3 { v3x : R; v3y : R; v3z : R }.

Definition v3zero := V3 0 0 0.
Definition v3add (a b : v3) := V3 (v3x a + v3x b) (v3y a + v3y b) (v3z a + v3z b).
Definition v3sub (a b : v3) := V3 (v3x a - v3x b) (v3y a - v3y b) (v3z a - v3z b).
Definition v3scale (k : R) (a : v3) := V3 (k * v3x a) (k * v3y a) (k * v3z a).
Definition v3neg (a : v3) := V3 (- v3x a) (- v3y a) (- v3z a).
Definition v3dot (a b : v3) : R := v3x a * v3x b + v3y a * v3y b + v3z a * v3z b.
Definition v3norm2 (a : v3) : R := v3dot a a.
Definition v3norm (a : v3) : R := sqrt (v3norm2 a).
Definition v3cross (a b : v3) :=
  V3 (v3y a * v3z b - v3z a * v3y b)
     (v3z a * v3x b - v3x a * v3z b)
     (v3x a * v3y b - v3y a * v3x b).

(** 3x3 matrices, by rows. *)
Record m3 := M3 { r1 : v3; r2 : v3; r3 : v3 }.

Definition m3tr (A : m3) :=
  M3 (V3 (v3x (r1 A)) (v3x (r2 A)) (v3x (r3 A)))
     (V3 (v3y (r1 A)) (v3y (r2 A)) (v3y (r3 A)))
     (V3 (v3z (r1 A)) (v3z (r2 A)) (v3z (r3 A))).
Definition m3eye := M3 (V3 1 0 0) (V3 0 1 0) (V3 0 0 1).
Definition m3zero := M3 v3zero v3zero v3zero.
Definition m3add (A B : m3) := M3 (v3add (r1 A) (r1 B)) (v3add (r2 A) (r2 B)) (v3add (r3 A) (r3 B)).
Definition m3neg (A : m3) := M3 (v3neg (r1 A)) (v3neg (r2 A)) (v3neg (r3 A)).
Definition m3sub (A B : m3) := m3add A (m3neg B).
Definition m3scale (k : R) (A : m3) := M3 (v3scale k (r1 A)) (v3scale k (r2 A)) (v3scale k (r3 A)).
Definition m3vec (A : m3) (x : v3) := V3 (v3dot (r1 A) x) (v3dot (r2 A) x) (v3dot (r3 A) x).
Definition m3mul (A B : m3) :=
  let Bt := m3tr B in
  M3 (V3 (v3dot (r1 A) (r1 Bt)) (v3dot (r1 A) (r2 Bt)) (v3dot (r1 A) (r3 Bt)))
     (V3 (v3dot (r2 A) (r1 Bt)) (v3dot (r2 A) (r2 Bt)) (v3dot (r2 A) (r3 Bt)))
     (V3 (v3dot (r3 A) (r1 Bt)) (v3dot (r3 A) (r2 Bt)) (v3dot (r3 A) (r3 Bt))).

(** [Skew], eigen_utils.h lines 28-34. *)
Definition skew (a : v3) :=
  M3 (V3 0 (- v3z a) (v3y a)) (V3 (v3z a) 0 (- v3x a)) (V3 (- v3y a) (v3x a) 0).

(** Quaternions. *)
Record quat := Quat { qw : R; qx : R; qy : R; qz : R }.

Definition qone := Quat 1 0 0 0.
Definition qmul (a b : quat) :=
  Quat (qw a * qw b - qx a * qx b - qy a * qy b - qz a * qz b)
       (qw a * qx b + qx a * qw b + qy a * qz b - qz a * qy b)
       (qw a * qy b + qy a * qw b + qz a * qx b - qx a * qz b)
       (qw a * qz b + qz a * qw b + qx a * qy b - qy a * qx b).
Definition qconj (a : quat) := Quat (qw a) (- qx a) (- qy a) (- qz a).
Definition qnorm2 (a : quat) : R := qw a * qw a + qx a * qx a + qy a * qy a + qz a * qz a.
Definition qnorm (a : quat) : R := sqrt (qnorm2 a).
Definition qscale (k : R) (a : quat) := Quat (k * qw a) (k * qx a) (k * qy a) (k * qz a).
(** [normalize()]: division of the coefficients by the norm. *)
Definition qnormalize (a : quat) := qscale (/ qnorm a) a.
(** [inverse()]: conjugate over squared norm. *)
Definition qinv (a : quat) := qscale (/ qnorm2 a) (qconj a).
Definition qvec (a : quat) : v3 := V3 (qx a) (qy a) (qz a).
Definition qpure (a : v3) : quat := Quat 0 (v3x a) (v3y a) (v3z a).

(** [toRotationMatrix()]. *)
Definition qrot (q : quat) : m3 :=
  let tx := 2 * qx q in let ty := 2 * qy q in let tz := 2 * qz q in
  let twx := tx * qw q in let twy := ty * qw q in let twz := tz * qw q in
  let txx := tx * qx q in let txy := ty * qx q in let txz := tz * qx q in
  let tyy := ty * qy q in let tyz := tz * qy q in let tzz := tz * qz q in
  M3 (V3 (1 - (tyy + tzz)) (txy - twz) (txz + twy))
     (V3 (txy + twz) (1 - (txx + tzz)) (tyz - twx))
     (V3 (txz - twy) (tyz + twx) (1 - (txx + tyy))).

(** [QuaternionFromSmallAngle], eigen_utils.h lines 93-111. *)
Definition small_quat (theta : v3) : quat :=
  let q_squared := v3norm2 theta / 4 in
  if Rlt_dec q_squared 1
  then Quat (sqrt (1 - q_squared)) (v3x theta * (1/2)) (v3y theta * (1/2)) (v3z theta * (1/2))
  else let w := 1 / sqrt (1 + q_squared) in
       let f := w * (1/2) in
       Quat w (v3x theta * f) (v3y theta * f) (v3z theta * f).

(** 4-vectors (x,y,z,w) and 4x4 matrices by rows. *)
Record v4 := V4 { e1 : R; e2 : R; e3 : R; e4 : R }.
Record m4 := M4 { w1 : v4; w2 : v4; w3 : v4; w4 : v4 }.

Definition v4add (a b : v4) := V4 (e1 a + e1 b) (e2 a + e2 b) (e3 a + e3 b) (e4 a + e4 b).
Definition v4scale (k : R) (a : v4) := V4 (k * e1 a) (k * e2 a) (k * e3 a) (k * e4 a).
Definition v4dot (a b : v4) := e1 a * e1 b + e2 a * e2 b + e3 a * e3 b + e4 a * e4 b.
Definition m4add (A B : m4) :=
  M4 (v4add (w1 A) (w1 B)) (v4add (w2 A) (w2 B)) (v4add (w3 A) (w3 B)) (v4add (w4 A) (w4 B)).
Definition m4scale (k : R) (A : m4) :=
  M4 (v4scale k (w1 A)) (v4scale k (w2 A)) (v4scale k (w3 A)) (v4scale k (w4 A)).
Definition m4sub (A B : m4) := m4add A (m4scale (-1) B).
Definition m4eye := M4 (V4 1 0 0 0) (V4 0 1 0 0) (V4 0 0 1 0) (V4 0 0 0 1).
Definition m4tr (A : m4) :=
  M4 (V4 (e1 (w1 A)) (e1 (w2 A)) (e1 (w3 A)) (e1 (w4 A)))
     (V4 (e2 (w1 A)) (e2 (w2 A)) (e2 (w3 A)) (e2 (w4 A)))
     (V4 (e3 (w1 A)) (e3 (w2 A)) (e3 (w3 A)) (e3 (w4 A)))
     (V4 (e4 (w1 A)) (e4 (w2 A)) (e4 (w3 A)) (e4 (w4 A))).
Definition m4vec (A : m4) (x : v4) := V4 (v4dot (w1 A) x) (v4dot (w2 A) x) (v4dot (w3 A) x) (v4dot (w4 A) x).
Definition v4m (x : v4) (A : m4) :=
  V4 (v4dot x (w1 (m4tr A))) (v4dot x (w2 (m4tr A))) (v4dot x (w3 (m4tr A))) (v4dot x (w4 (m4tr A))).
Definition m4mul (A B : m4) := M4 (v4m (w1 A) B) (v4m (w2 A) B) (v4m (w3 A) B) (v4m (w4 A) B).

(** [OmegaMatJPL], eigen_utils.h lines 36-52. *)
Definition omega_jpl (a : v3) : m4 :=
  M4 (V4 0 (v3z a) (- v3y a) (v3x a))
     (V4 (- v3z a) 0 (v3x a) (v3y a))
     (V4 (v3y a) (- v3x a) 0 (v3z a))
     (V4 (- v3x a) (- v3y a) (- v3z a) 0).

(** [coeffs()] and back. *)
Definition coeffs (q : quat) : v4 := V4 (qx q) (qy q) (qz q) (qw q).
Definition of_coeffs (x : v4) : quat := Quat (e4 x) (e1 x) (e2 x) (e3 x).
