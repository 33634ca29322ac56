(** Dynamic reconfiguration: the server in front of the managers' Config.  Definitions only.

    The server is [dynamic_reconfigure::Server] (not in the repository) with a class generated
    from msf_updates/cfg/*.cfg; what the generator makes of them is in
    msf_distort/cfg/cpp/msf_distort/MSF_DistortConfig.h: [clamp] lines 103-110, [calcLevel] lines
    112-116, [fromMessage] lines 128-131 (parameters that are not in a message stay as they
    are).  The server keeps the parameters as the callback leaves them.

    Simplifications:
    - the parameters of all five nodes in one record; a node looks at its own;
    - delays are whole nanoseconds;
    - parameters are numbers (not-a-number passes the clamping);
    - the parameters that are never read (press_reset) and those of the process noise, which
      Node.v takes as constant, are left out. *)

From Coq Require Import Reals ZArith List.
From mathcomp Require Import all_ssreflect all_algebra.
From Verif Require Import Outcome SortedContainer Core Geom StateList Propagate ProcNoise Cov RField Sensors Filter Readings Handlers Messages Node.

Set Implicit Arguments.
Unset Strict Implicit.
Unset Printing Implicit Defensive.

(** [q_dyn]: noises, delays, flags and yaw; pose_initial_scale, core_height, core_init_filter,
    core_set_height. *)
Record params := Params { q_dyn : dynamic; q_scale : R; q_height : R; q_init : bool; q_set : bool }.

Definition clamp (lo hi x : R) : R :=
  let x1 := if Rlt_dec hi x then hi else x in
  if Rlt_dec x1 lo then lo else x1.
Definition clampZ (lo hi x : Z) : Z :=
  let x1 := if Z.ltb hi x then hi else x in
  if Z.ltb x1 lo then lo else x1.

(** The ranges: SinglePoseSensor.cfg lines 37-56, PosePressureSensor.cfg lines 39-63,
    PositionPoseSensor.cfg lines 38-64, SinglePositionSensor.cfg lines 35-41,
    SphericalPositionSensor.cfg lines 36-44 *)
Definition clamp_noise : R -> R := clamp R0 (IZR 10).
Definition clamp_delay : Z -> Z := clampZ (-2000000000) 2000000000.
Definition clamp_yaw : R -> R := clamp (IZR (-180)) (IZR 180).
Definition clamp_scale : R -> R := clamp (Rdiv (IZR 1) (IZR 1000)) (IZR 30).
Definition clamp_height : R -> R := clamp (Rdiv (IZR 1) (IZR 10)) (IZR 20).

Definition clamp_dynamic (y : dynamic) : dynamic :=
  Dynamic (clamp_noise (y_zp y)) (clamp_noise (y_zq y)) (clamp_delay (y_pose_delay y))
          (y_fix_L y) (y_fix_qwv y) (y_fix_pwv y) (y_fix_qic y) (y_fix_pic y)
          (clamp_noise (y_pos y)) (clamp_delay (y_pos_delay y)) (y_fix_pip y)
          (clamp_noise (y_press y))
          (clamp_noise (y_angle y)) (clamp_delay (y_angle_delay y)) (clamp_noise (y_dist y)) (clamp_delay (y_dist_delay y))
          (clamp_yaw (y_yaw y)).
Definition clamp_params (q : params) : params :=
  Params (clamp_dynamic (q_dyn q)) (clamp_scale (q_scale q)) (clamp_height (q_height q)) (q_init q) (q_set q).

(** A request: what it makes of the settings, and the other parameters if it has them; the
    times at which the two initialisations would happen. *)
Record request := Request
  { n_dyn : dynamic -> dynamic; n_scale : option R; n_height : option R; n_init : option bool; n_set : option bool;
    n_now : Z; n_now' : Z }.
Definition merge (q : params) (n : request) : params :=
  Params (n_dyn n (q_dyn q)) (odflt (q_scale q) (n_scale n)) (odflt (q_height q) (n_height n))
         (odflt (q_init q) (n_init n)) (odflt (q_set q) (n_set n)).

Section Server.
Variables (k : kind) (r : process) (S : settings).
Let F := filter (dim k) (config_of k r).

(** The callback: [all] at the first call, when every bit of the level is set.  Only the
    managers with a pose sensor have core_set_height and a scale.  A request to initialise is
    reset when it is done; one refused for lack of a measurement is not
    (pose_sensormanager.h lines 99-117, pose_pressure_sensormanager.h lines 90-107,
    position_pose_sensormanager.h lines 102-121, position_sensormanager.h lines 87-91,
    spherical_sensormanager.h lines 84-88). *)
Definition call_back (all : bool) (old new : params) (now now' : Z) (f : front)
  : res (params * front * list (call F)) :=
  let init := (all || (q_init old != q_init new)) && q_init new in
  let set := has_pose k && (all || (q_set old != q_set new)) && q_set new in
  let* (f', cs) := front_step k r S f
    (IConfig (q_dyn new) (if init then Some (now, if has_pose k then q_scale new else R1) else None)
             (if set then Some (now', q_height new) else None)) in
  Ok (Params (q_dyn new) (q_scale new) (q_height new) (if init then false else q_init new)
             (if set && ~~ no_position (f_h f) then false else q_set new),
      f', cs).

(** The node starts: parameters from the parameter server. *)
Definition server_start (q : params) (now now' : Z) : res (params * front * list (call F)) :=
  call_back true (clamp_params q) (clamp_params q) now now' front_new.

(** A node with its server *)
Inductive message := Req (n : request) | Msg (i : input).

Definition serve (q : params) (f : front) (m : message) : res (params * front * list (call F)) :=
  match m with
  | Req n => call_back false q (clamp_params (merge q n)) (n_now n) (n_now' n) f
  | Msg i => let* (f', cs) := front_step k r S f i in Ok (q, f', cs)
  end.

(** Everything up to now: the state of server and front, and the calls of the core that each
    message led to *)
Fixpoint session (q : params) (f : front) (l : list message) : res (params * front * list (list (call F))) :=
  match l with
  | [::] => Ok (q, f, [::])
  | m :: l' =>
    let* (q', f', cs) := serve q f m in
    let* (q'', f'', css) := session q' f' l' in
    Ok (q'', f'', cs :: css)
  end.
Definition life (q : params) (now now' : Z) (l : list message) : res (params * front * list (list (call F))) :=
  let* (q1, f1, cs) := server_start q now now' in
  let* (q2, f2, css) := session q1 f1 l in
  Ok (q2, f2, cs :: css).
End Server.
