(** Helpers of msf_core/include/msf_core/eigen_utils.h that Geom.v does not have,
    eigen_conversions.h and msf_core/src/lib/msf_tools.cc.  Definitions only; real arithmetic. *)

From Coq Require Import Reals.
From Verif Require Import Geom.
Local Open Scope R_scope.

(** [OmegaMatHamilton], eigen_utils.h lines 54-69 *)
Definition omega_hamilton (a : v3) : m4 :=
  M4 (V4 0 (- v3z a) (v3y a) (v3x a))
     (V4 (v3z a) 0 (- v3x a) (v3y a))
     (V4 (- v3y a) (v3x a) 0 (v3z a))
     (V4 (- v3x a) (- v3y a) (- v3z a) 0).

(** 4x3 matrices by rows *)
Record m43 := M43 { y1 : v3; y2 : v3; y3 : v3; y4 : v3 }.
Definition m43_of (top : m3) (bottom : v3) : m43 := M43 (r1 top) (r2 top) (r3 top) bottom.
Definition m43_vec (A : m43) (x : v3) : v4 := V4 (v3dot (y1 A) x) (v3dot (y2 A) x) (v3dot (y3 A) x) (v3dot (y4 A) x).
Definition m43_tr_vec (A : m43) (x : v4) : v3 :=
  v3add (v3add (v3scale (e1 x) (y1 A)) (v3scale (e2 x) (y2 A))) (v3add (v3scale (e3 x) (y3 A)) (v3scale (e4 x) (y4 A))).

(** [XiMat], eigen_utils.h lines 71-90: the vector has the order x y z w *)
Definition xi_mat (q : v4) : m43 :=
  m43_of (m3add (m3scale (e4 q) m3eye) (skew (V3 (e1 q) (e2 q) (e3 q)))) (v3neg (V3 (e1 q) (e2 q) (e3 q))).
(** the matrix [Xi q] of the comment there, transposed, times a vector *)
Definition xi_q_tr_vec (q x : v4) : v4 :=
  let t := m43_tr_vec (xi_mat q) x in V4 (v3x t) (v3y t) (v3z t) (v4dot q x).

(** [timehuman], msf_tools.cc lines 19-21 *)
Definition timehuman (val : R) : R := val - IZR (Int_part (val / 10000)) * 10000.

(** geometry_msgs/Quaternion and Point; [QuaternionToMsg], [Vector3dToPoint],
    eigen_conversions.h lines 26-64.  [vec] is read by index. *)
Record quat_msg := QuatMsg { m_x : R; m_y : R; m_z : R; m_w : R }.
Record point_msg := PointMsg { pt_x : R; pt_y : R; pt_z : R }.
Definition quaternion_to_msg (q : quat) : quat_msg := QuatMsg (qx q) (qy q) (qz q) (qw q).
Definition vector3d_to_point (vec : nat -> R) : point_msg := PointMsg (vec 0%nat) (vec 1%nat) (vec 2%nat).
