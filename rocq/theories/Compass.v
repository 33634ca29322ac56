(** The script that sets the initial yaw from a compass, msf_updates/src/position_msf/
    init_yaw_from_compass.py.  Definitions only; real arithmetic.

    The library functions it calls are not in the repository and follow their documentation:
    tf.transformations.euler_from_quaternion (the default axes "sxyz"), math.degrees,
    math.atan2 (signed zeros are left out).  The callbacks run in threads of their own, but each
    only assigns a number; an exception in a callback is logged and ends that callback only. *)

From Coq Require Import Reals ZArith List.
From Verif Require Import Geom Node Reconfigure.
Import ListNotations.

Set Implicit Arguments.
Unset Strict Implicit.
Unset Printing Implicit Defensive.
Local Open Scope R_scope.

(** ** Angles *)

Definition atan2 (y x : R) : R :=
  if Rlt_dec 0 x then atan (y / x)
  else if Rlt_dec x 0 then (if Rlt_dec y 0 then atan (y / x) - PI else atan (y / x) + PI)
  else if Rlt_dec 0 y then PI / 2
  else if Rlt_dec y 0 then - (PI / 2)
  else 0.

(** _EPS of tf.transformations, four times the epsilon of numpy *)
Definition tf_eps : R := 4 / 4503599627370496.

(** quaternion_matrix: the first column of the rotation matrix; a quaternion close to zero gives
    the identity *)
Definition tf_m00 (q : quat) : R :=
  if Rlt_dec (qnorm2 q) tf_eps then 1 else 1 - 2 * (qy q * qy q + qz q * qz q) / qnorm2 q.
Definition tf_m10 (q : quat) : R :=
  if Rlt_dec (qnorm2 q) tf_eps then 0 else 2 * (qx q * qy q + qz q * qw q) / qnorm2 q.

(** euler_from_matrix, third angle *)
Definition tf_yaw (q : quat) : R :=
  if Rlt_dec tf_eps (sqrt (tf_m00 q * tf_m00 q + tf_m10 q * tf_m10 q)) then atan2 (tf_m10 q) (tf_m00 q) else 0.

Definition degrees (x : R) : R := x * 180 / PI.

(** ** The script *)

(** Messages on its four topics *)
Inductive compass_msg :=
| OnImu (orientation : quat)
| OnQuaternion (orientation : quat)
| OnDegrees (angles : v3)
| OnRadians (angle : R).

(** The callbacks, lines 30-56: the heading, if there is one ([is_init_heading]).
    callback_orientation_quaternion gives the message itself to a function that takes a list
    (line 48, see the remark in line 46), which raises an exception before the assignment. *)
Definition heard (h : option R) (m : compass_msg) : option R :=
  match m with
  | OnImu q => Some (degrees (tf_yaw q))
  | OnQuaternion _ => h
  | OnDegrees v => Some (v3z v)
  | OnRadians x => Some (degrees x)
  end.

(** position_yaw_init *)
Definition set_yaw (x : R) (y : dynamic) : dynamic :=
  Dynamic (y_zp y) (y_zq y) (y_pose_delay y) (y_fix_L y) (y_fix_qwv y) (y_fix_pwv y) (y_fix_qic y) (y_fix_pic y)
          (y_pos y) (y_pos_delay y) (y_fix_pip y) (y_press y)
          (y_angle y) (y_angle_delay y) (y_dist y) (y_dist_delay y) x.

(** One turn of the main loops, lines 71-78: without a heading it waits. *)
Definition tick (h : option R) (now now' : Z) : list message :=
  match h with
  | None => []
  | Some x => [Req (Request (set_yaw x) None None None None now now')]
  end.

(** The script beside a node: what the node and its server get, and the heading at the end. *)
Inductive event := Heard (m : compass_msg) | Tick (now now' : Z) | Other (m : message).
Fixpoint drive (h : option R) (l : list event) : list message * option R :=
  match l with
  | [] => ([], h)
  | Heard m :: l' => drive (heard h m) l'
  | Tick now now' :: l' => let '(ms, h') := drive h l' in (tick h now now' ++ ms, h')
  | Other m :: l' => let '(ms, h') := drive h l' in (m :: ms, h')
  end.
