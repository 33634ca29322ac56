(** Time stamps as doubles.  The rest of the model counts nanoseconds; the code converts the
    stamp of every message to a double number of seconds:
    msf_core/include/msf_core/msf_IMUHandler_ROS.h lines 106 and 127,
    pose_sensorhandler.hpp lines 148 and 198, position_sensorhandler.hpp line 129,
    spherical_sensorhandler.hpp lines 123 and 225, pressure_sensorhandler.hpp line 77,
    and back for publishing: msf_sensormanagerROS.h lines 190-245 and 336.
    The conversions themselves are those of ros::Time (package rostime, not in the
    repository).  Definitions only.

    Doubles are the binary64 format of Flocq without overflow, rounding to nearest even. *)

From Coq Require Import Reals ZArith.
From Flocq Require Import Core.
Local Open Scope R_scope.

Definition binary64 : Z -> Z := FLT_exp (-1074) 53.
Definition rnd (x : R) : R := round radix2 binary64 ZnearestE x.
Definition double (x : R) : Prop := generic_format radix2 binary64 x.

(** [ros::Time::toSec]: [(double)sec + 1e-9 * (double)nsec]; [sec] and [nsec] are 32-bit and
    exact as doubles *)
Definition nano : R := rnd (1 / 1000000000).
Definition to_sec (sec nsec : Z) : R := rnd (IZR sec + rnd (nano * IZR nsec)).

(** [ros::Time::fromSec]: [sec = floor(t)], [nsec = round((t - sec) * 1e9)] (halves away from
    zero), and the carry.  Result in nanoseconds. *)
Definition from_sec (t : R) : Z :=
  let sec := Zfloor t in
  let nsec := ZnearestA (rnd (rnd (t - IZR sec) * 1000000000)) in
  (sec * 1000000000 + nsec)%Z.

(** [msg->header.stamp.toSec() - delay_] *)
Definition measured_at (sec nsec : Z) (delay : R) : R := rnd (to_sec sec nsec - delay).

(** The time between two states, msf_core_inl.h ([state->time - previous->time]) *)
Definition elapsed (t1 t0 : R) : R := rnd (t1 - t0).

(** Throttling of poses, pose_sensorhandler.hpp lines 148-159: dropped iff
    [time_now - timestamp_previous_pose_ <= pose_measurement_minimum_dt_ - epsilon]. *)
Definition dropped (now previous minimum_dt : R) : Prop :=
  rnd (now - previous) <= rnd (minimum_dt - rnd (1 / 1000)).
