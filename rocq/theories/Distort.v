(** Artificial distortion of pose readings: msf_updates/src/msf_distort/PoseDistorter.cc,
    msf_updates/include/msf_updates/PoseDistorter.h and its use in
    msf_updates/include/msf_updates/pose_sensor_handler/pose_measurement.h lines 66-73.
    Definitions only; real arithmetic.

    The numbers drawn from the normal distributions are inputs. *)

From Coq Require Import Reals List.
From Verif Require Import Handlers Geom.
Import ListNotations.
Local Open Scope R_scope.

(** PoseDistorter.h lines 33-35; PoseDistorter.cc lines 30-32 *)
Record distorter := Distorter { posdrift : v3; attdrift : quat; scaledrift : R }.
Definition distorter_new : distorter := Distorter v3zero qone 1.

(** What one call draws, PoseDistorter.cc lines 51, 53, 75. *)
Record draws := Draws { d_pos : v3; d_scale : R; d_att : v3 }.

(** Distort(pos, dt), lines 48-70 *)
Definition distort_pos (d : distorter) (w : draws) (dt : R) (pos : v3) : distorter * v3 :=
  let deltapos := V3 (v3x (d_pos w) * dt) (v3y (d_pos w) * dt) (v3z (d_pos w) * dt) in
  let deltascale := d_scale w * dt in
  let d' := Distorter (v3add (posdrift d) deltapos) (attdrift d) (scaledrift d + deltascale) in
  (d', v3scale (scaledrift d') (v3add pos (posdrift d'))).

(** Distort(att, dt), lines 72-88 *)
Definition distort_att (d : distorter) (w : draws) (dt : R) (att : quat) : distorter * quat :=
  let rpydist := V3 (v3x (d_att w) * dt) (v3y (d_att w) * dt) (v3z (d_att w) * dt) in
  let deltaquat := qnormalize (small_quat rpydist) in
  let d' := Distorter (posdrift d) (qmul (attdrift d) deltaquat) (scaledrift d) in
  (d', qmul att (attdrift d')).

(** Distort(pos, att, dt), lines 90-94 *)
Definition distort (d : distorter) (w : draws) (dt : R) (pos : v3) (att : quat) : distorter * v3 * quat :=
  let '(d1, pos') := distort_pos d w dt pos in
  let '(d2, att') := distort_att d1 w dt att in
  (d2, pos', att').

(** A pose message: its sensor, its time, the numbers that would be drawn for it, and the
    pose. *)
Record message := Message { sensor : nat; at_time : R; drawn : draws; m_pos : v3; m_att : quat }.

(** All pose sensors of a process: the variable [tlast] is a static local of
    [MakeFromSensorReadingImpl] (line 67), so there is one of it; the distorters belong to
    the sensors. *)
Record readers := Readers { tlast : R; distorters : list (option distorter) }.

(** Lines 58-73: the pose that goes into the filter.  A sensor without distorter reads the
    pose as it is. *)
Definition read_pose (s : readers) (m : message) : readers * (v3 * quat) :=
  match nth_error (distorters s) (sensor m) with
  | Some (Some d) =>
    if Req_EM_T (tlast s) 0
    then (Readers (at_time m) (distorters s), (m_pos m, m_att m))
    else
      let '(d', p, q) := distort d (drawn m) (at_time m - tlast s) (m_pos m) (m_att m) in
      (Readers (at_time m) (upd (distorters s) (sensor m) (Some d')), (p, q))
  | _ => (s, (m_pos m, m_att m))
  end.

Fixpoint read_poses (s : readers) (ms : list message) : readers * list (v3 * quat) :=
  match ms with
  | [] => (s, [])
  | m :: r => let '(s1, o) := read_pose s m in
              let '(s2, os) := read_poses s1 r in (s2, o :: os)
  end.

(** Line 67; every sensor made with a distorter *)
Definition readers_new (n : nat) : readers := Readers 0 (repeat (Some distorter_new) n).
