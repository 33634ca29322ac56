(** The nodes of msf_updates/src: the sensor handlers and the manager in front of the core.
    Messages, settings and service requests come in; calls of the core come out.  Definitions
    only; real arithmetic, no rounding; times in nanoseconds.

    Simplifications:
    - the core never calls back into the handlers, so the front is a machine of its own and a
      node is the front followed by the core;
    - absolute measurements, no distorter (Relative.v, Distort.v have those);
    - a satellite fix comes as its position in the local frame (Gps.v has the conversion);
    - numbers in messages and settings are numbers;
    - the parameters of the process noise and the fixed-bias option stay as they are while the
      node runs;
    - callbacks run one after another (every main.cpp calls [ros::spin], one thread). *)

From Coq Require Import Reals ZArith List.
From mathcomp Require Import all_ssreflect all_algebra.
From Verif Require Import Outcome SortedContainer Core Geom StateList Propagate ProcNoise Cov RField Sensors Filter Readings Handlers Messages.

Set Implicit Arguments.
Unset Strict Implicit.
Unset Printing Implicit Defensive.

(** The five nodes. *)
Inductive kind := NPosition | NSpherical | NPose | NPosePressure | NPositionPose.

Definition dim (k : kind) : nat :=
  match k with NPosition | NSpherical => 18 | NPose => 28 | NPosePressure => 29 | NPositionPose => 31 end%N.
(** Process noise of the core and of the auxiliary variables, fixed-bias option. *)
Record process := Process { r_noise : noise; r_a : R; r_b : R; r_c : R; r_d : R; r_e : R; r_bias : bool }.
Definition config_of (k : kind) (r : process) : config :=
  match k with
  | NPosition | NSpherical => position_filter (r_noise r) (r_a r) (r_bias r)
  | NPose => pose_filter (r_noise r) (r_a r) (r_b r) (r_c r) (r_d r) (r_e r) (r_bias r)
  | NPosePressure => pose_pressure_filter (r_noise r) (r_a r) (r_b r) (r_c r) (r_d r) (r_e r) (r_bias r)
  | NPositionPose => position_pose_filter (r_noise r) (r_a r) (r_b r) (r_c r) (r_d r) (r_e r) (r_bias r)
  end.

(** Parameters read once: pose_sensorhandler.hpp lines 36-50, position_sensorhandler.hpp lines
    34-41, pressure_sensorhandler.hpp lines 33-36, spherical_sensorhandler.hpp lines 32-40 and
    137-145; initial calibration (the [init] parameters in Init of each manager); data
    playback (msf_sensormanagerROS.h). *)
Record settings := Settings
  { k_pose_fixed : bool;    (* pose_use_fixed_covariance *)
    k_world : bool;         (* pose_measurement_world_sensor *)
    k_min_dt : Z;           (* pose_measurement_minimum_dt *)
    k_pos_fixed : bool;     (* position_use_fixed_covariance *)
    k_sph_fixed : bool;     (* use_fixed_covariance *)
    k_gate : gate_cfg;      (* enable_mah_outlier_rejection, mah_threshold *)
    k_p_ic : v3; k_q_ic : quat; k_p_ip : v3;
    k_playback : bool }.

(** What the reconfigure callbacks set ([SetNoises], [SetDelay], [config_]). *)
Record dynamic := Dynamic
  { y_zp : R; y_zq : R; y_pose_delay : Z;
    y_fix_L : bool; y_fix_qwv : bool; y_fix_pwv : bool; y_fix_qic : bool; y_fix_pic : bool;
    y_pos : R; y_pos_delay : Z; y_fix_pip : bool;
    y_press : R;
    y_angle : R; y_angle_delay : Z; y_dist : R; y_dist_delay : Z;
    y_yaw : R }.

(** ** Pose handler, pose_sensorhandler.hpp lines 138-302 *)

Inductive pose_topic := TPoseCov | TOdometry | TTransform | TPose.
Record pose_msg := PoseMsg
  { m_topic : pose_topic; m_seq : Z; m_stamp : Z; m_p : v3; m_q : quat; m_cov : nat -> R }.
(** [lastseq_], [received_first_measurement_], [timestamp_previous_pose_], [z_p_], [z_q_] *)
Record pose_handler := PoseHandler { a_last : Z; a_first : bool; a_prev : Z; a_zp : v3; a_zq : quat }.
Definition pose_handler_new : pose_handler := PoseHandler 0 false 0 v3zero qone.

Definition carries_cov (t : pose_topic) : bool := match t with TPoseCov | TOdometry => true | _ => false end.

(** lines 174-188; the enum positions of the variables as in Filter.v *)
Definition bit (b : bool) (k : Z) : Z := if b then Z.shiftl 1 k else Z0.
Definition pose_fixedstates (y : dynamic) : Z :=
  Z.lor (Z.lor (Z.lor (Z.lor (bit (y_fix_L y) 5) (bit (y_fix_pic y) 9)) (bit (y_fix_qic y) 8)) (bit (y_fix_pwv y) 7))
        (bit (y_fix_qwv y) 6).

(** One message: the handler after it and what is handed to the core, if anything.  Messages
    without covariance leave early unless the covariance is fixed (lines 251-258, 284-291);
    the flag is set before the throttling (lines 141-159). *)
Definition pose_callback (S : settings) (y : dynamic) (h : pose_handler) (m : pose_msg)
  : res (pose_handler * option (Z * reading)) :=
  let* (_, last) := watch_dog (a_last h) (m_seq m) in
  let early := negb (carries_cov (m_topic m)) && negb (k_pose_fixed S) in
  let h1 := PoseHandler last (a_first h || negb early) (a_prev h) (a_zp h) (a_zq h) in
  if early then Ok (h1, None)
  else
    let '(ok, prev) := throttle (k_min_dt S) (a_prev h) (m_stamp m) in
    if negb ok then Ok (h1, None)
    else
      match pose_message (carries_cov (m_topic m)) (k_pose_fixed S) (k_world S) (y_zp y) (y_zq y)
                         (pose_fixedstates y) (k_gate S) (m_p m) (m_q m) (m_cov m) with
      | Some r =>
        let z := pose_reading (k_pose_fixed S) (k_world S) (m_p m) (m_q m) in
        Ok (PoseHandler last true prev z.1 z.2, Some (Z.sub (m_stamp m) (y_pose_delay y), r))
      | None => Ok (h1, None)
      end.

(** A sequence of messages, each with the settings at that moment: the handler afterwards and
    what was handed on for each message. *)
Fixpoint pose_session (S : settings) (h : pose_handler) (l : list (dynamic * pose_msg))
  : res (pose_handler * list (option (Z * reading))) :=
  match l with
  | [::] => Ok (h, [::])
  | (y, m) :: l' =>
    let* (h1, o) := pose_callback S y h m in
    let* (h2, os) := pose_session S h1 l' in
    Ok (h2, o :: os)
  end.

(** ** Position handler, position_sensorhandler.hpp lines 95-230 *)

(** The covariance type of a satellite fix: unknown, approximated, diagonal known, known. *)
Inductive pos_topic := TPoint | TPosTransform | TFix (covariance_type : nat).
Record pos_msg := PosMsg
  { n_topic : pos_topic; n_seq : Z; n_stamp : Z; n_p : v3; n_cov : nat -> R }.
Record pos_handler := PosHandler { b_last : Z; b_first : bool; b_z : v3 }.
Definition pos_handler_new : pos_handler := PosHandler 0 false v3zero.

(** Every fifth transform passes, lines 160-164. *)
Definition skipped (m : pos_msg) : bool :=
  match n_topic m with TPosTransform => negb (Z.eqb (Z.modulo (n_seq m) 5) 0) | _ => false end.
(** The covariance handed on: zeros unless a satellite fix has one, lines 215-227. *)
Definition passed_cov (m : pos_msg) : nat -> R :=
  match n_topic m with TFix 1 | TFix 2 | TFix 3 => n_cov m | _ => fun _ => R0 end.
(** lines 119-123; [pip] is the enum position of p_ip *)
Definition pos_fixedstates (pip : nat) (y : dynamic) : Z := bit (y_fix_pip y) (Z.of_nat pip).

Definition pos_callback (pip : nat) (S : settings) (y : dynamic) (h : pos_handler) (m : pos_msg)
  : res (pos_handler * option (Z * reading)) :=
  let* (_, last) := watch_dog (b_last h) (n_seq m) in
  if skipped m then Ok (PosHandler last (b_first h) (b_z h), None)
  else
    match position_message (k_pos_fixed S) (y_pos y) (pos_fixedstates pip y) (k_gate S) (n_p m) (passed_cov m) with
    | Some r => Ok (PosHandler last true (n_p m), Some (Z.sub (n_stamp m) (y_pos_delay y), r))
    | None => Ok (PosHandler last true (b_z h), None)
    end.

Fixpoint pos_session (pip : nat) (S : settings) (h : pos_handler) (l : list (dynamic * pos_msg))
  : res (pos_handler * list (option (Z * reading))) :=
  match l with
  | [::] => Ok (h, [::])
  | (y, m) :: l' =>
    let* (h1, o) := pos_callback pip S y h m in
    let* (h2, os) := pos_session pip S h1 l' in
    Ok (h2, o :: os)
  end.

(** ** Pressure handler, pressure_sensorhandler.hpp lines 57-90: [z_p_] is not set by the
    constructor ([None]).  The averaged height is not used by any manager. *)
Record press_msg := PressMsg { q_seq : Z; q_stamp : Z; q_z : R }.
Record press_handler := PressHandler { p_last : Z; p_first : bool; p_z : option R }.
Definition press_handler_new : press_handler := PressHandler 0 false None.
Definition press_callback (S : settings) (y : dynamic) (h : press_handler) (m : press_msg)
  : res (press_handler * option (Z * reading)) :=
  let* (_, last) := watch_dog (p_last h) (q_seq m) in
  if negb (Z.eqb (Z.modulo (q_seq m) 10) 0) then Ok (PressHandler last true (p_z h), None)
  else
    match pressure_message (y_press y) (k_gate S) (q_z m) with
    | Some r => Ok (PressHandler last true (Some (q_z m)), Some (q_stamp m, r))
    | None => Ok (PressHandler last true (p_z h), None)
    end.

(** ** Spherical handlers, spherical_sensorhandler.hpp lines 80-124 and 182-227 *)
Record angle_msg := AngleMsg { g_seq : Z; g_stamp : Z; g_theta : R; g_phi : R }.
Record angle_handler := AngleHandler { g_last : Z; g_first : bool; g_z : R * R }.
Definition angle_handler_new : angle_handler := AngleHandler 0 false (R0, R0).
Definition angle_callback (pip : nat) (S : settings) (y : dynamic) (h : angle_handler) (m : angle_msg)
  : res (angle_handler * option (Z * reading)) :=
  let* (_, last) := watch_dog (g_last h) (g_seq m) in
  match angle_message (k_sph_fixed S) (y_angle y) (pos_fixedstates pip y) (k_gate S) (g_theta m) (g_phi m) with
  | Some r => Ok (AngleHandler last true (g_theta m, g_phi m), Some (Z.sub (g_stamp m) (y_angle_delay y), r))
  | None => Ok (AngleHandler last true (g_z h), None)
  end.
Record dist_msg := DistMsg { d_seq : Z; d_stamp : Z; d_z : R }.
Record dist_handler := DistHandler { e_last : Z; e_first : bool; e_z : R }.
Definition dist_handler_new : dist_handler := DistHandler 0 false R0.
Definition dist_callback (pip : nat) (S : settings) (y : dynamic) (h : dist_handler) (m : dist_msg)
  : res (dist_handler * option (Z * reading)) :=
  let* (_, last) := watch_dog (e_last h) (d_seq m) in
  match distance_message (k_sph_fixed S) (y_dist y) (pos_fixedstates pip y) (k_gate S) (d_z m) with
  | Some r => Ok (DistHandler last true (d_z m), Some (Z.sub (d_stamp m) (y_dist_delay y), r))
  | None => Ok (DistHandler last true (e_z h), None)
  end.

(** ** Initialisation *)

(** SetStateInitValue, msf_measurement.h lines 204-208 *)
Fixpoint set_init (s : state) (k : nat) (x : value) : state :=
  match s, k with
  | [::], _ => [::]
  | i :: s', O => Inst (itype i) x (iQ i) true :: s'
  | i :: s', S k' => i :: set_init s' k' x
  end.
(** The state the core starts with: a reset state (msf_core_inl.h lines 562-566) that takes the
    variables set in the init measurement (msf_measurement_inl.h lines 205-209). *)
Definition initial_state (l : list svar) (vals : list (nat * value)) : res state :=
  apply_init (List.fold_left (fun s x => set_init s x.1 x.2) vals (blank l)) (List.map reset_one (blank l)).

(** SetPCore, msf_core_inl.h lines 58-90; the init measurement carries a zero matrix, so this
    one stays (msf_measurement_inl.h lines 211-218). *)
Definition initial_cov (k : kind) : 'M[R]_(dim k) :=
  match k return 'M[R]_(dim k) with
  | NPosition => set_p_core (@symm_inplace _ 15) 3
  | NSpherical => set_p_core (@symm_inplace _ 15) 3
  | NPose => set_p_core (@symm_inplace _ 15) 13
  | NPosePressure => set_p_core (@symm_inplace _ 15) 14
  | NPositionPose => set_p_core (@symm_inplace _ 15) 16
  end.

Record handlers := Handlers
  { h_pose : pose_handler; h_pos : pos_handler; h_press : press_handler; h_angle : angle_handler; h_dist : dist_handler }.
Definition handlers_new : handlers :=
  Handlers pose_handler_new pos_handler_new press_handler_new angle_handler_new dist_handler_new.

Definition gravity : v3 := V3 R0 R0 (Rdiv (IZR 981) (IZR 100)).
Definition zero_q (q : quat) : bool := ~~ nonzero (qnorm2 q).

(** The values the managers set, by variable, and the initial attitude (pose_sensormanager.h
    lines 154-235, pose_pressure_sensormanager.h lines 115-195, position_pose_sensormanager.h
    lines 124-236, position_sensormanager.h lines 88-162, spherical_sensormanager.h lines
    91-155).  Reading a pressure that was never set is undefined; [Ok None] where a number is
    divided by zero.  The two managers without a scale ignore it. *)
Definition init_values (k : kind) (S : settings) (y : dynamic) (h : handlers) (scale : R)
  : res (option (list (nat * value) * quat)) :=
  let core p q := [:: (0%N, vvec p); (1%N, vvec v3zero); (2%N, VQuat q); (3%N, vvec v3zero); (4%N, vvec v3zero)] in
  let zp := a_zp (h_pose h) in
  let zq := a_zq (h_pose h) in
  let received := a_first (h_pose h) in
  match k with
  | NPosition =>
    let s := position_init (y_yaw y) (b_z (h_pos h)) (k_p_ip S) in
    Ok (Some (core (a_p s) (a_q s) ++ [:: (5%N, vvec (a_pip s))], a_q s))
  | NSpherical =>
    let s := spherical_init (y_yaw y) (e_z (h_dist h)) (g_z (h_angle h)).1 (g_z (h_angle h)).2 (k_p_ip S) in
    Ok (Some (core (a_p s) (a_q s) ++ [:: (5%N, vvec (a_pip s))], a_q s))
  | NPose =>
    if ~~ nonzero scale || zero_q (k_q_ic S) || (received && zero_q zq) then Ok None
    else
      let s := pose_init received scale zp zq (k_p_ic S) (k_q_ic S) in
      Ok (Some (core (b_p s) (b_q s) ++
                [:: (5%N, VVec [:: b_L s]); (6%N, VQuat (b_qwv s)); (7%N, vvec (b_pwv s));
                    (8%N, VQuat (b_qic s)); (9%N, vvec (b_pic s))], b_q s))
  | NPosePressure =>
    match p_z (h_press h) with
    | None => UB
    | Some zpress =>
      if ~~ nonzero scale || zero_q (k_q_ic S) || (received && zero_q zq) then Ok None
      else
        let '(s, bp) := pose_pressure_init received scale zp zq (k_p_ic S) (k_q_ic S) zpress in
        Ok (Some (core (b_p s) (b_q s) ++
                  [:: (5%N, VVec [:: b_L s]); (6%N, VQuat (b_qwv s)); (8%N, VQuat (b_qic s)); (9%N, vvec (b_pic s));
                      (10%N, VVec [:: bp])], b_q s))
    end
  | NPositionPose =>
    if ~~ nonzero scale || zero_q (k_q_ic S) then Ok None
    else
      let '(s, t) := position_pose_init scale (y_yaw y) (b_z (h_pos h)) zp zq (k_p_ic S) (k_q_ic S) (k_p_ip S) in
      Ok (Some (core (b_p s) (b_q s) ++
                [:: (5%N, VVec [:: b_L s]); (6%N, VQuat (b_qwv s)); (7%N, vvec (b_pwv s));
                    (8%N, VQuat (b_qic s)); (9%N, vvec (b_pic s)); (10%N, vvec (a_pip t))], b_q s))
  end.

(** Init of the manager: the call of Init of the core, at the time [now]. *)
Definition manager_init (k : kind) (r : process) (S : settings) (y : dynamic) (h : handlers) (now : Z) (scale : R)
  : res (call (filter (dim k) (config_of k r))) :=
  let F := filter (dim k) (config_of k r) in
  let* o := init_values k S y h scale in
  match o with
  | Some (vals, q) =>
    let* s := initial_state (c_vars (config_of k r)) vals in
    Ok (CInit now (@mkst F (m3vec (qrot (qinverse q)) gravity) v3zero (FState s) (PMat (initial_cov k))))
  | None => Ok (CInit now (@mkst F v3zero v3zero FNan (PMat (initial_cov k))))
  end.

(** ** The front *)

(** [i_seq] is the static variable of IMUCallback, msf_IMUHandler_ROS.h line 110. *)
Record front := Front { f_dyn : dynamic; f_h : handlers; i_seq : Z }.
(** As constructed (noise 1e-6, no delays).  The reconfigure server calls Config as soon as it
    is given the callback, so the first input of a node is [IConfig]; until then the other
    settings are not read. *)
Definition dynamic_new : dynamic :=
  let e := Rdiv (IZR 1) (IZR 1000000) in
  Dynamic e e 0 false false false false false e 0 false e e 0 e 0 R0.
Definition front_new : front := Front dynamic_new handlers_new (-1).

Inductive input :=
| IImu (seq : Z) (a g : v3) (t : Z)
| IExt (msg : ext_ekf) (a g : v3) (t : Z)
| IPose (m : pose_msg)
| IPosition (m : pos_msg)
| IPressure (m : press_msg)
| IAngle (m : angle_msg)
| IDistance (m : dist_msg)
| IConfig (y : dynamic) (init height : option (Z * R))   (* reconfigure: new settings, requests to initialise *)
| IScale (now : Z) (scale : R)                           (* service initialize_msf_scale *)
| IHeight (now : Z) (height : R).                        (* service initialize_msf_height *)

Section Front.
Variables (k : kind) (r : process) (S : settings).
Let F := filter (dim k) (config_of k r).
Let pip := c_pip (config_of k r).

Definition has_pose : bool := match k with NPose | NPosePressure | NPositionPose => true | _ => false end.
Definition has_pos : bool := match k with NPosition | NPositionPose => true | _ => false end.
Definition has_press : bool := match k with NPosePressure => true | _ => false end.
Definition has_sph : bool := match k with NSpherical => true | _ => false end.

Definition handed (o : option (Z * reading)) : list (call F) :=
  match o with Some (t, m) => [:: @CMeas F t m] | None => [::] end.

(** p.norm() == 0 *)
Definition no_position (h : handlers) : bool := ~~ nonzero (v3norm2 (a_zp (h_pose h))).

(** Config: pose_sensormanager.h lines 94-117, position_pose_sensormanager.h lines 93-122,
    position_sensormanager.h lines 79-88, spherical_sensormanager.h lines 77-89: settings
    first, then the requests.  pose_pressure_sensormanager.h lines 87-113: requests first, and
    a refused height request leaves the noise settings as they were; there is no delay.  Only
    the three managers with a pose sensor have a scale and a height request; the others
    initialise with scale 1. *)
Definition keep_noise (y y' : dynamic) : dynamic :=
  Dynamic (y_zp y) (y_zq y) (y_pose_delay y)
          (y_fix_L y') (y_fix_qwv y') (y_fix_pwv y') (y_fix_qic y') (y_fix_pic y')
          (y_pos y') (y_pos_delay y') (y_fix_pip y') (y_press y)
          (y_angle y') (y_angle_delay y') (y_dist y') (y_dist_delay y') (y_yaw y').
Definition no_delay (y : dynamic) : dynamic :=
  match k with
  | NPosePressure =>
    Dynamic (y_zp y) (y_zq y) 0 (y_fix_L y) (y_fix_qwv y) (y_fix_pwv y) (y_fix_qic y) (y_fix_pic y)
            (y_pos y) (y_pos_delay y) (y_fix_pip y) (y_press y)
            (y_angle y) (y_angle_delay y) (y_dist y) (y_dist_delay y) (y_yaw y)
  | _ => y
  end.
Definition on_config (f : front) (y0 : dynamic) (init height : option (Z * R)) : res (front * list (call F)) :=
  let y := no_delay y0 in
  let h := f_h f in
  let* c1 := match init with
             | Some (now, scale) => let* c := manager_init k r S y h now scale in Ok [:: c]
             | None => Ok [::]
             end in
  match height with
  | Some (now, z) =>
    if negb has_pose then Ok (Front y h (i_seq f), c1)
    else if no_position h then
      Ok (Front (match k with NPosePressure => keep_noise (f_dyn f) y | _ => y end) h (i_seq f), c1)
    else
      let* c2 := if nonzero z then manager_init k r S y h now (Rdiv (v3z (a_zp (h_pose h))) z)
                 else Ok (CInit now (@mkst F v3zero v3zero FNan (PMat (initial_cov k)))) in
      Ok (Front y h (i_seq f), c1 ++ [:: c2])
  | None => Ok (Front y h (i_seq f), c1)
  end.

(** InitScale, InitHeight, pose_sensormanager.h lines 119-152; MIN_INITIALIZATION_HEIGHT is
    0.01 (line 89). *)
Definition min_height : R := Rdiv (IZR 1) (IZR 100).
Definition on_height (f : front) (now : Z) (z : R) : res (list (call F)) :=
  if no_position (f_h f) then Ok [::]
  else if Rlt_dec min_height (Rabs z) then
    let* c := manager_init k r S (f_dyn f) (f_h f) now (Rdiv (v3z (a_zp (h_pose (f_h f)))) z) in Ok [:: c]
  else Ok [::].

(** IMUCallback, msf_IMUHandler_ROS.h lines 109-128: the sequence number is only looked at. *)
Definition imu_watch (last seq : Z) : res Z := let* _ := inc last in Ok (to_int seq).

(** A node is only subscribed to the topics of its own sensors. *)
Definition front_step (f : front) (i : input) : res (front * list (call F)) :=
  let y := f_dyn f in
  let h := f_h f in
  let set h' := Front y h' (i_seq f) in
  match i with
  | IImu seq a g t => let* last := imu_watch (i_seq f) seq in Ok (Front y h last, [:: @CImu F a g t])
  | IExt msg a g t =>
    let* (x, already) := state_callback (k_playback S) true msg in
    Ok (f, [:: @CExt F a g x already t])
  | IPose m =>
    if negb has_pose then Ok (f, [::])
    else let* (p, o) := pose_callback S y (h_pose h) m in
         Ok (set (Handlers p (h_pos h) (h_press h) (h_angle h) (h_dist h)), handed o)
  | IPosition m =>
    if negb has_pos then Ok (f, [::])
    else let* (p, o) := pos_callback pip S y (h_pos h) m in
         Ok (set (Handlers (h_pose h) p (h_press h) (h_angle h) (h_dist h)), handed o)
  | IPressure m =>
    if negb has_press then Ok (f, [::])
    else let* (p, o) := press_callback S y (h_press h) m in
         Ok (set (Handlers (h_pose h) (h_pos h) p (h_angle h) (h_dist h)), handed o)
  | IAngle m =>
    if negb has_sph then Ok (f, [::])
    else let* (p, o) := angle_callback pip S y (h_angle h) m in
         Ok (set (Handlers (h_pose h) (h_pos h) (h_press h) p (h_dist h)), handed o)
  | IDistance m =>
    if negb has_sph then Ok (f, [::])
    else let* (p, o) := dist_callback pip S y (h_dist h) m in
         Ok (set (Handlers (h_pose h) (h_pos h) (h_press h) (h_angle h) p), handed o)
  | IConfig y' init height => on_config f y' init height
  | IScale now scale =>
    match k with
    | NPose => let* c := manager_init k r S y h now scale in Ok (f, [:: c])
    | _ => Ok (f, [::])
    end
  | IHeight now z =>
    match k with
    | NPose => let* cs := on_height f now z in Ok (f, cs)
    | _ => Ok (f, [::])
    end
  end.

(** The whole node: every input is handled to the end before the next one. *)
Fixpoint node_run (d : nat -> dec_begin) (f : front) (c : core F) (l : list input)
  : res (front * core F * list (event F)) :=
  match l with
  | [::] => Ok (f, c, [::])
  | i :: l' =>
    let* (f', cs) := front_step f i in
    let* (c', ev) := run F d c cs in
    let* (f'', c'', ev') := node_run d f' c' l' in
    Ok (f'', c'', ev ++ ev')
  end.
End Front.
