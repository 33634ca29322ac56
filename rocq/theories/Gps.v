(** GPS conversion: gps_conversion.cc, and its use in the NavSatFix callback of the
    position handler (position_sensorhandler.hpp lines 183-245) and AdjustGPSZReference
    (lines 90-93).  Definitions only; real arithmetic, [sincos] exact. *)

From Coq Require Import Reals List Bool ZArith.
From Verif Require Import Geom.
Import ListNotations.
Open Scope R_scope.

(** Eigen's quaternion from a rotation matrix (quaternionbase_assign_impl<.,3,3>): by the
    trace if that is positive, else by the largest diagonal entry. *)
Definition quat_of_mat (A : m3) : quat :=
  let m00 := v3x (r1 A) in let m01 := v3y (r1 A) in let m02 := v3z (r1 A) in
  let m10 := v3x (r2 A) in let m11 := v3y (r2 A) in let m12 := v3z (r2 A) in
  let m20 := v3x (r3 A) in let m21 := v3y (r3 A) in let m22 := v3z (r3 A) in
  let tr := m00 + m11 + m22 in
  if Rlt_dec 0 tr then
    let t := sqrt (tr + 1) in
    let s := 1/2 / t in
    Quat (1/2 * t) ((m21 - m12) * s) ((m02 - m20) * s) ((m10 - m01) * s)
  else
    let case0 :=
      let t := sqrt (m00 - m11 - m22 + 1) in let s := 1/2 / t in
      Quat ((m21 - m12) * s) (1/2 * t) ((m10 + m01) * s) ((m20 + m02) * s) in
    let case1 :=
      let t := sqrt (m11 - m22 - m00 + 1) in let s := 1/2 / t in
      Quat ((m02 - m20) * s) ((m01 + m10) * s) (1/2 * t) ((m21 + m12) * s) in
    let case2 :=
      let t := sqrt (m22 - m00 - m11 + 1) in let s := 1/2 / t in
      Quat ((m10 - m01) * s) ((m02 + m20) * s) ((m12 + m21) * s) (1/2 * t) in
    if Rlt_dec m00 m11
    then (if Rlt_dec m11 m22 then case2 else case1)
    else (if Rlt_dec m00 m22 then case2 else case0).

(** Eigen's quaternion times vector (_transformVector). *)
Definition qtransform (q : quat) (v : v3) : v3 :=
  let uv := v3scale 2 (v3cross (qvec q) v) in
  v3add (v3add v (v3scale (qw q) uv)) (v3cross (qvec q) uv).

(** Members, gps_conversion.h lines 51-52; constructor, lines 24-29. *)
Record gps := Gps { ref_q : quat; ref_p : v3 }.
Definition gps_new : gps := Gps qone v3zero.

(** DEG2RAD is not defined in the repository (it comes with an external header); taken to
    be pi/180. *)
Definition rad (deg : R) : R := deg * (PI / 180).

Definition wgs_a : R := 6378137.
Definition wgs_e2 : R := 669437999014 / 100000000000000.

(** WGS84ToECEF, lines 58-77. *)
Definition to_ecef (lat lon alt : R) : v3 :=
  let s_lat := sin (rad lat) in let c_lat := cos (rad lat) in
  let s_long := sin (rad lon) in let c_long := cos (rad lon) in
  let N := wgs_a / sqrt (1 - wgs_e2 * s_lat * s_lat) in
  V3 ((N + alt) * c_lat * c_long) ((N + alt) * c_lat * s_long)
     ((N * (1 - wgs_e2) + alt) * s_lat).

(** The matrix of InitReference, lines 36-51. *)
Definition enu_mat (lat lon : R) : m3 :=
  let s_lat := sin (rad lat) in let c_lat := cos (rad lat) in
  let s_long := sin (rad lon) in let c_long := cos (rad lon) in
  M3 (V3 (- s_long) c_long 0)
     (V3 (- s_lat * c_long) (- s_lat * s_long) c_lat)
     (V3 (c_lat * c_long) (c_lat * s_long) s_lat).

(** InitReference, lines 33-56. *)
Definition init_reference (lat lon alt : R) : gps :=
  Gps (quat_of_mat (enu_mat lat lon)) (to_ecef lat lon alt).

(** ECEFToENU, lines 79-86 (the error message is not modelled). *)
Definition to_enu (g : gps) (p : v3) : v3 := qtransform (ref_q g) (v3sub p (ref_p g)).

(** WGS84ToENU, lines 88-93. *)
Definition wgs_to_enu (g : gps) (lat lon alt : R) : v3 := to_enu g (to_ecef lat lon alt).

(** AdjustReference, lines 95-100. *)
Definition adjust_reference (z : R) (g : gps) : gps :=
  Gps (ref_q g) (V3 (v3x (ref_p g)) (v3y (ref_p g)) (v3z (ref_p g) + z)).

(** ** The NavSatFix callback.  [referenceinit] is a function-local static: one flag for
    all handlers of the same type. *)
Record fix_msg := Fix { f_lat : R; f_lon : R; f_alt : R }.
Record world := World { referenceinit : bool; handler_gps : nat -> gps }.
Definition world_new : world := World false (fun _ => gps_new).

Definition set_gps (w : nat -> gps) (h : nat) (g : gps) : nat -> gps :=
  fun k => if Nat.eqb k h then g else w k.

(** lines 193-214: handler [h] gets message [m]; the position handed on. *)
Definition navsat (h : nat) (m : fix_msg) (w : world) : v3 * world :=
  let g := if referenceinit w then handler_gps w h
           else init_reference (f_lat m) (f_lon m) (f_alt m) in
  (wgs_to_enu g (f_lat m) (f_lon m) (f_alt m),
   World true (set_gps (handler_gps w) h g)).

(** AdjustGPSZReference, lines 90-93; [z_p] is the last measured position. *)
Definition adjust_z (z_p : v3) (current_z : R) (g : gps) : gps :=
  adjust_reference (v3z z_p - current_z) g.
