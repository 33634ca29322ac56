(** The measurement models: msf_updates/include/msf_updates/*_sensor_handler/*_measurement.h
    and spherical_position_sensor/spherical_measurement.h, and the Init functions of
    msf_updates/src/*_msf/*_sensormanager.h.  Definitions only.

    Real arithmetic, no rounding.  A measurement matrix is a function of row and column.
    The optional measurement distorter is not modelled. *)

From Coq Require Import Reals ZArith List Bool Arith.
From Verif Require Import Outcome Geom StateList.
Import ListNotations.
Open Scope R_scope.

(** ** Measurement matrices *)

Definition hmat := nat -> nat -> R.
Definition hzero : hmat := fun _ _ => 0.
Definition v3at (a : v3) (i : nat) : R := match i with O => v3x a | S O => v3y a | _ => v3z a end.
Definition m3at (A : m3) (i j : nat) : R :=
  match i with O => v3at (r1 A) j | S O => v3at (r2 A) j | _ => v3at (r3 A) j end.
(** [H.block<nr,nc>(r0,c0) = B] *)
Definition put (r0 c0 nr nc : nat) (B : nat -> nat -> R) (H : hmat) : hmat :=
  fun r c => if ((r0 <=? r) && (r <? r0 + nr) && (c0 <=? c) && (c <? c0 + nc))%nat
             then B (r - r0)%nat (c - c0)%nat else H r c.
Definition put33 (r0 c0 : nat) (A : m3) : hmat -> hmat := put r0 c0 3 3 (m3at A).
Definition put31 (r0 c0 : nat) (a : v3) : hmat -> hmat := put r0 c0 3 1 (fun i _ => v3at a i).
Definition put13 (r0 c0 : nat) (a : v3) : hmat -> hmat := put r0 c0 1 3 (fun _ j => v3at a j).
Definition put11 (r0 c0 : nat) (x : R) : hmat -> hmat := put r0 c0 1 1 (fun _ _ => x).

(** [GetStartIndexInCorrection<StateSequence_T, name>] for the variable at a position. *)
Definition start_of (l : list svar) (k : nat) : res nat :=
  match enum_type l k with Some x => Ok (Z.to_nat (start_index corr_len l x)) | None => UB end.

(** [fixedstates_ & 1 << k] *)
Definition fixed_bit (fixedstates : Z) (k : nat) : bool := Z.testbit fixedstates (Z.of_nat k).

(** ** Position sensor *)

(** What the measurement reads of a state. *)
Record pos_state := PosState { a_p : v3; a_q : quat; a_pip : v3 }.
(** Start indices in the error state. *)
Record pos_layout := PosLayout { l_p : nat; l_q : nat; l_pip : nat }.

(** position_measurement.h lines 101-145; [fix_pip] is the flag of line 129. *)
Definition position_H (l : pos_layout) (fix_pip : bool) (s : pos_state) : hmat :=
  let C_q := qrot (qconj (a_q s)) in
  let sk := skew (a_pip s) in
  put33 0 (l_pip l) (if fix_pip then m3zero else m3tr C_q)
    (put33 0 (l_q l) (m3mul (m3neg (m3tr C_q)) sk)
       (put33 0 (l_p l) m3eye hzero)).

(** lines 164-172 *)
Definition position_residual (z_p : v3) (s : pos_state) : v3 :=
  let C_q := qrot (qconj (a_q s)) in
  v3sub z_p (v3add (a_p s) (m3vec (m3tr C_q) (a_pip s))).

(** ** Pressure sensor *)

(** pressure_measurement.h lines 101-105 *)
Definition pressure_H (i_p i_bp : nat) : hmat :=
  put11 0 i_bp (-1) (put11 0 (i_p + 2) 1 hzero).
(** lines 107-110 *)
Definition pressure_residual (z b_p : R) (p : v3) : R := (z + b_p) - v3z p.

(** ** Pose sensor *)

Record pose_state := PoseState
  { b_p : v3; b_q : quat; b_L : R; b_qwv : quat; b_pwv : v3; b_qic : quat; b_pic : v3 }.
Record pose_layout := PoseLayout
  { k_p : nat; k_q : nat; k_L : nat; k_qwv : nat; k_pwv : nat; k_qic : nat; k_pic : nat }.
Record pose_fixed := PoseFixed
  { f_L : bool; f_pic : bool; f_qic : bool; f_qwv : bool; f_pwv : bool }.

(** pose_measurement.h lines 206-210 *)
Definition pose_flags (fixedstates : Z) (e_L e_pic e_qic e_qwv e_pwv : nat) : pose_fixed :=
  PoseFixed (fixed_bit fixedstates e_L) (fixed_bit fixedstates e_pic) (fixed_bit fixedstates e_qic)
            (fixed_bit fixedstates e_qwv) (fixed_bit fixedstates e_pwv).

(** pose_measurement.h lines 157-275 *)
Definition pose_H (l : pose_layout) (f : pose_fixed) (s : pose_state) : hmat :=
  let C_wv := qrot (b_qwv s) in
  let C_q := qrot (b_q s) in
  let C_ci := qrot (qconj (b_qic s)) in
  let vecold := v3scale (b_L s) (v3add (v3add (v3neg (b_pwv s)) (b_p s)) (m3vec C_q (b_pic s))) in
  let skewold := skew vecold in
  let pci_sk := skew (b_pic s) in
  let H1 := put33 0 (k_p l) (m3scale (b_L s) C_wv) hzero in
  let H2 := put33 0 (k_q l) (m3scale (b_L s) (m3mul (m3mul (m3neg C_wv) C_q) pci_sk)) H1 in
  let H3 := put31 0 (k_L l) (if f_L f then v3zero
              else v3add (m3vec (m3mul C_wv C_q) (b_pic s)) (m3vec C_wv (v3add (v3neg (b_pwv s)) (b_p s)))) H2 in
  let H4 := put33 0 (k_qwv l) (if f_qwv f then m3zero else m3mul (m3neg C_wv) skewold) H3 in
  let H5 := put33 0 (k_pic l) (if f_pic f then m3zero else m3scale (b_L s) (m3mul C_wv C_q)) H4 in
  let H6 := put33 0 (k_pwv l) (if f_pwv f then m3zero else m3neg m3eye) H5 in
  let H7 := put33 3 (k_q l) C_ci H6 in
  let H8 := put33 3 (k_qwv l) (if f_qwv f then m3zero else m3mul C_ci (m3tr C_q)) H7 in
  put33 3 (k_qic l) (if f_qic f then m3zero else m3eye) H8.

(** The predicted pose, as it occurs in the residuals (lines 295-316 and 389-427). *)
Definition pose_position (s : pose_state) : v3 :=
  let C_wv := qrot (qconj (b_qwv s)) in
  let C_q := qrot (qconj (b_q s)) in
  v3scale (b_L s) (m3vec (m3tr C_wv)
    (v3add (v3add (v3neg (b_pwv s)) (b_p s)) (m3vec (m3tr C_q) (b_pic s)))).
Definition pose_attitude (s : pose_state) : quat := qmul (qmul (b_qwv s) (b_q s)) (b_qic s).
(** [q_err.vec() / q_err.w() * 2] *)
Definition small_angle (q : quat) : v3 :=
  V3 (qx q / qw q * 2) (qy q / qw q * 2) (qz q / qw q * 2).
(** lines 317-321, 430-434 *)
Definition yaw_residual (s : pose_state) : R :=
  let q := b_qwv s in
  -2 * (qw q * qz q + qx q * qy q) / (1 - 2 * (qy q * qy q + qz q * qz q)).

(** The residual of an absolute measurement, lines 295-321: rows 0-2, 3-5 and 6. *)
Definition pose_residual (z_p : v3) (z_q : quat) (s : pose_state) : v3 * v3 * R :=
  (v3sub z_p (pose_position s),
   small_angle (qmul (qconj (pose_attitude s)) z_q),
   yaw_residual s).

(** The residual of a relative measurement, lines 389-434. *)
Definition pose_rel_residual (z_p0 : v3) (z_q0 : quat) (old : pose_state)
           (z_p : v3) (z_q : quat) (new : pose_state) : v3 * v3 * R :=
  let diffprobpos := v3sub (pose_position new) (pose_position old) in
  let diffmeaspos := v3sub z_p z_p0 in
  let diffprobatt := qmul (qconj (pose_attitude new)) (pose_attitude old) in
  let diffmeasatt := qmul (qconj z_q) z_q0 in
  (v3sub diffmeaspos diffprobpos,
   small_angle (qmul (qconj diffprobatt) diffmeasatt),
   yaw_residual new).
(** The matrix for the old state of a relative measurement, lines 383-385. *)
Definition pose_H_old (l : pose_layout) (f : pose_fixed) (old : pose_state) : hmat :=
  fun r c => - pose_H l f old r c.

(** ** Spherical position sensor *)

(** spherical_measurement.h, DistanceMeasurement::CalculateH, lines 382-463.  The flag
    for a fixed [p_ip] has no influence on the matrix. *)
Definition distance_H (l : pos_layout) (s : pos_state) : hmat :=
  let C := m3at (qrot (qconj (a_q s))) in
  let p := v3at (a_p s) in
  let pip := v3at (a_pip s) in
  let n := sqrt (p 0%nat * p 0%nat + p 1%nat * p 1%nat + p 2%nat * p 2%nat) in
  let g a b := fun i => C i a * pip b * 2 - C i b * pip a * 2 in
  let dq a b k := (p 0%nat * g a b 0%nat + p 1%nat * g a b 1%nat + p 2%nat * g a b 2%nat) * 1 / n * k in
  let dpip j := (C 0%nat j * p 0%nat + C 1%nat j * p 1%nat + C 2%nat j * p 2%nat) * 1 / n in
  put13 0 (l_pip l) (V3 (dpip 0%nat) (dpip 1%nat) (dpip 2%nat))
    (put13 0 (l_q l) (V3 (dq 1%nat 2%nat (-1 / 2)) (dq 0%nat 2%nat (1 / 2)) (dq 0%nat 1%nat (-1 / 2)))
       (put13 0 (l_p l) (V3 (p 0%nat * 1 / n) (p 1%nat * 1 / n) (p 2%nat * 1 / n)) hzero)).

(** The point the sensor sees, lines 265-270 and 482-487. *)
Definition sensed_point (s : pos_state) : v3 :=
  v3add (a_p s) (m3vec (m3tr (qrot (qconj (a_q s)))) (a_pip s)).
Definition radius (z : v3) : R := sqrt (v3x z * v3x z + v3y z * v3y z + v3z z * v3z z).

(** lines 488-494 *)
Definition distance_residual (z_d : R) (s : pos_state) : R := z_d - radius (sensed_point s).

(** AngleMeasurement::CalculateH, lines 96-246. *)
Definition angle_H (l : pos_layout) (s : pos_state) : hmat :=
  let C := m3at (qrot (qconj (a_q s))) in
  let p := v3at (a_p s) in
  let pip := v3at (a_pip s) in
  let rho2 := p 0%nat * p 0%nat + p 1%nat * p 1%nat in
  let r2 := p 0%nat * p 0%nat + p 1%nat * p 1%nat + p 2%nat * p 2%nat in
  let r3 := Rpower r2 (3 / 2) in
  (* the two ways the generated code writes the same factor *)
  let c1 := 1 / sqrt (1 / r2) * 1 / sqrt rho2 * 1 / r3 in
  let c2 := -1 / sqrt (- (p 2%nat * p 2%nat) / r2 + 1) * 1 / r3 in
  let num a b :=
    C 2%nat a * pip b * (p 0%nat * p 0%nat) - C 2%nat b * pip a * (p 0%nat * p 0%nat)
    + C 2%nat a * pip b * (p 1%nat * p 1%nat) - C 2%nat b * pip a * (p 1%nat * p 1%nat)
    - C 0%nat a * pip b * p 0%nat * p 2%nat + C 0%nat b * pip a * p 0%nat * p 2%nat
    - C 1%nat a * pip b * p 1%nat * p 2%nat + C 1%nat b * pip a * p 1%nat * p 2%nat in
  let phi a b :=
    (p 1%nat * (C 0%nat a * pip b - C 0%nat b * pip a)
     - p 0%nat * (C 1%nat a * pip b - C 1%nat b * pip a)) in
  let dpip j := c2 * (C 2%nat j * (p 0%nat * p 0%nat) + C 2%nat j * (p 1%nat * p 1%nat)
                      - C 0%nat j * p 0%nat * p 2%nat - C 1%nat j * p 1%nat * p 2%nat) in
  let dphi j := - (C 0%nat j * p 1%nat - C 1%nat j * p 0%nat) / rho2 in
  put 0 (l_pip l) 2 3 (fun i j => match i with O => dpip j | _ => dphi j end)
    (put 0 (l_q l) 2 3
       (fun i j => match i, j with
                   | O, O => c1 * num 1%nat 2%nat
                   | O, S O => c2 * num 0%nat 2%nat
                   | O, _ => c1 * num 0%nat 1%nat
                   | _, O => phi 1%nat 2%nat / rho2
                   | _, S O => - phi 0%nat 2%nat / rho2
                   | _, _ => phi 0%nat 1%nat / rho2
                   end)
       (put 0 (l_p l) 2 3
          (fun i j => match i, j with
                      | O, O => (p 0%nat * p 2%nat * 1 / sqrt rho2) / r2
                      | O, S O => (p 1%nat * p 2%nat * 1 / sqrt rho2) / r2
                      | O, _ => - sqrt rho2 / r2
                      | _, O => - p 1%nat / rho2
                      | _, S O => p 0%nat / rho2
                      | _, _ => 0
                      end) hzero)).

(** lines 271-282.  [atan] of a quotient with zero denominator: plus or minus pi/2, or not
    a number for 0/0; a negative zero denominator is not distinguished. *)
Definition atan_div (y x : R) : option R :=
  if Req_EM_T x 0
  then (if Rlt_dec 0 y then Some (PI / 2) else if Rlt_dec y 0 then Some (- PI / 2) else None)
  else Some (atan (y / x)).
Definition theta_of (z : v3) : option R :=
  if Req_EM_T (radius z) 0 then None else Some (acos (v3z z / radius z)).
Definition phi_of (z : v3) : option R :=
  match atan_div (v3y z) (v3x z) with
  | None => None
  | Some phi =>
    let phi1 := if Rlt_dec (v3x z) 0 then if Rlt_dec (v3y z) 0 then phi - PI else phi else phi in
    Some (if Rlt_dec (v3x z) 0 then if Rlt_dec 0 (v3y z) then phi1 + PI else phi1 else phi1)
  end.
(** lines 284-292; [None]: not a number. *)
Definition wrap_residual (r : R) : R :=
  let r1 := if Rlt_dec r (- PI) then r + 2 * PI else r in
  if Rlt_dec PI r1 then r1 - 2 * PI else r1.
Definition angle_residual (z_theta z_phi : R) (s : pos_state) : option R * option R :=
  let z := sensed_point s in
  (match theta_of z with Some t => Some (z_theta - t) | None => None end,
   match phi_of z with Some f => Some (wrap_residual (z_phi - f)) | None => None end).

(** ** Readings *)

(** pose_measurement.h lines 57-64 and 97-104: [meas_ws] is measurement_world_sensor_; the
    inversion is inside the branch for covariances taken from the sensor. *)
Definition pose_reading (fixed_covariance meas_ws : bool) (p : v3) (q : quat) : v3 * quat :=
  if fixed_covariance then (p, q)
  else if meas_ws then (p, q)
  else (m3vec (m3neg (m3tr (qrot q))) p, qconj q).

(** ** Initialisation *)

(** position_sensormanager.h lines 94-153, spherical_sensormanager.h lines 91-155 *)
Definition yaw_quat (yaw_deg : R) : quat :=
  let y := yaw_deg / 180 * PI in qnormalize (Quat (cos (y / 2)) 0 0 (sin (y / 2))).
Definition position_init (yaw_deg : R) (p_vc p_ip : v3) : pos_state :=
  let q := yaw_quat yaw_deg in
  PosState (v3sub p_vc (m3vec (qrot q) p_ip)) q p_ip.
(** spherical_sensormanager.h lines 120-125 *)
Definition spherical_point (d theta phi : R) : v3 :=
  V3 (d * sin theta * cos phi) (d * sin theta * sin phi) (d * cos theta).
Definition spherical_init (yaw_deg d theta phi : R) (p_ip : v3) : pos_state :=
  position_init yaw_deg (spherical_point d theta phi) p_ip.

(** pose_sensormanager.h lines 154-225: [received] is ReceivedFirstMeasurement(); [q_ic0] the
    configured calibration before normalisation; the other variables are zero. *)
Definition pose_init (received : bool) (scale : R) (p_vc : v3) (q_cv : quat) (p_ic : v3) (q_ic0 : quat)
  : pose_state :=
  let q_wv := qone in
  let p_wv := v3zero in
  let q_ic := qnormalize q_ic0 in
  let q0 := if received then qconj (qmul (qmul q_ic (qconj q_cv)) q_wv) else q_wv in
  let q := qnormalize q0 in
  let p := v3sub (v3add p_wv (v3scale (/ scale) (m3vec (qrot (qconj q_wv)) p_vc))) (m3vec (qrot q) p_ic) in
  PoseState p q scale q_wv p_wv q_ic p_ic.

(** pose_pressure_sensormanager.h lines 115-185: the same without p_wv (a state that is not
    set is zero after the reset), plus the pressure bias. *)
Definition pose_pressure_init (received : bool) (scale : R) (p_vc : v3) (q_vc : quat) (p_ic : v3)
           (q_ic0 : quat) (z_pressure : R) : pose_state * R :=
  let q_wv := qone in
  let q_ic := qnormalize q_ic0 in
  let q0 := if received then qconj (qmul (qmul q_ic (qconj q_vc)) q_wv) else q_wv in
  let q := qnormalize q0 in
  let p := v3sub (v3scale (/ scale) (m3vec (qrot (qconj q_wv)) p_vc)) (m3vec (qrot q) p_ic) in
  (PoseState p q scale q_wv v3zero q_ic p_ic, v3z p_vc / scale - z_pressure).

(** position_pose_sensormanager.h lines 124-227 *)
Definition position_pose_init (scale yaw_deg : R) (p_pos p_vc : v3) (q_vc : quat) (p_ic : v3)
           (q_ic0 : quat) (p_ip : v3) : pose_state * pos_state :=
  let q_ic := qnormalize q_ic0 in
  let q := yaw_quat yaw_deg in
  let q_wv := qconj (qmul (qmul q q_ic) (qconj q_vc)) in
  let p_vision := v3sub (v3scale (/ scale) (m3vec (qrot (qconj q_wv)) p_vc)) (m3vec (qrot q) p_ic) in
  let p := v3sub p_pos (m3vec (qrot q) p_ip) in
  let p_wv := v3sub p p_vision in
  (PoseState p q scale q_wv p_wv q_ic p_ic, PosState p q p_ip).
