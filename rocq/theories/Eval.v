(** The evaluation tool: msf_eval/src/msf_eval.cpp lines 61-356.  Definitions only; real
    arithmetic, time stamps in nanoseconds ([ros::Time] counts them exactly).

    Simplifications:
    - the recording is the list of its ground truth messages and the list of its estimates, in
      the order of the views;
    - durations are compared as numbers of nanoseconds (the code converts the difference to a
      double first);
    - [sm::kinematics::Transformation] (not in the repository) is a unit quaternion and a
      translation with the usual product and inverse.  The code negates the vector part of the
      quaternions because that library turns the other way round; here they are Hamilton
      quaternions throughout;
    - the calibration T_BaBg (lines 78-85) is a parameter;
    - [dalpha] (lines 296-304) is computed and not used;
    - what is written to the file is a list of rows; the positions of the first run, which go
      into two more tables (lines 313-317, 351-352), are left out. *)

From Coq Require Import Reals ZArith List Bool.
From Verif Require Import Geom.
Import ListNotations.
Open Scope Z_scope.

Record tf := Tf { tq : quat; tt : v3 }.
Definition tmul (a b : tf) : tf := Tf (qmul (tq a) (tq b)) (v3add (m3vec (qrot (tq a)) (tt b)) (tt a)).
Definition tinv (a : tf) : tf := Tf (qconj (tq a)) (v3neg (m3vec (qrot (qconj (tq a))) (tt a))).

(** TransformStamped and PoseWithCovarianceStamped messages *)
Record truth := Truth { g_stamp : Z; g_pose : tf }.
Record estimate := Estimate { e_stamp : Z; e_pose : tf; e_cov : nat -> R }.

(** lines 87-91 *)
Definition clock_offset : Z := 3900000.
Definition sync_threshold : Z := 5000000.
Definition row_spacing : Z := 49000000.
Definition start_time_offset : Z := 10000000000.
Definition time_step : Z := 10000000000.

(** lines 180, 224: [trafo->header.stamp + dt] *)
Definition g_time (g : truth) : Z := g_stamp g + clock_offset.

(** lines 174-206: the first ground truth after the first estimate; [None] if there is none *)
Fixpoint align (t0 : Z) (gs : list truth) : option (list truth) :=
  match gs with
  | [] => None
  | g :: r => if t0 >=? g_time g then align t0 r else Some gs
  end.

(** lines 233-245: the estimates from the first one on that is not older than [t] *)
Fixpoint seek (t : Z) (es : list estimate) : list estimate :=
  match es with
  | [] => []
  | e :: r => if t >? e_stamp e then seek t r else es
  end.

Record row := Row
  { w_time : Z; w_dist : R; w_trans : R; w_rot : R; w_grav : R; w_var : list R }.

(** Variables of one run, lines 208-217 *)
Record run_state := RunState { ctr : nat; ds : R; last_time : Z; T_WaWg : tf; T_WgBg_last : tf }.
Definition run_state_new : run_state :=
  RunState 0 0%R 0 (Tf qone v3zero) (Tf qone v3zero).

Definition e_z : v3 := V3 0 0 1.

Section Eval.
Variable T_BaBg : tf.

(** lines 272-276 *)
Definition gt_pose (world g : tf) : tf := tmul (tmul world g) (tinv T_BaBg).
Definition dT (world e g : tf) : quat := qnormalize (tq (tmul e (tinv (gt_pose world g)))).

(** lines 305-308, 320-321 *)
Definition trans_error (world e g : tf) : R := v3norm (v3sub (tt e) (tt (gt_pose world g))).
Definition rot_error (world e g : tf) : R := (2 * acos (Rmin 1 (Rabs (qw (dT world e g)))))%R.
Definition grav_error (world e g : tf) : R := acos (Rmin 1 (v3dot e_z (m3vec (qrot (dT world e g)) e_z))).
(** lines 322-323: diagonal of the 6x6 matrix *)
Definition variances (c : nat -> R) : list R := [c 0; c 7; c 14; c 21; c 28; c 35]%nat.

(** One comparison, lines 250-332: the state after it, and the row if one is written.  [trafo]
    is never null, so line 279 always takes the first branch. *)
Definition compare (start : Z) (s : run_state) (g : truth) (e : estimate) : run_state * option row :=
  let world := match ctr s with
               | O => tmul (tmul (e_pose e) T_BaBg) (tinv (g_pose g))
               | _ => T_WaWg s
               end in
  let prev := match ctr s with O => g_pose g | _ => T_WgBg_last s end in
  let d := (ds s + v3norm (v3sub (tt (g_pose g)) (tt prev)))%R in
  let write := (Z.abs (g_time g - e_stamp e) <? sync_threshold) && (e_stamp e - last_time s >? row_spacing) in
  (RunState (S (ctr s)) d (if write then e_stamp e else last_time s) world (g_pose g),
   if write then
     Some (Row (g_time g - start) d (trans_error world (e_pose e) (g_pose g)) (rot_error world (e_pose e) (g_pose g))
               (grav_error world (e_pose e) (g_pose g)) (variances (e_cov e)))
   else None).

(** The loop, lines 219-333 *)
Fixpoint loop (start off : Z) (s : run_state) (gs : list truth) (es : list estimate) : run_state * list row :=
  match gs with
  | [] => (s, [])
  | g :: gs' =>
    match seek (g_time g) es with
    | [] => (s, [])
    | e :: es' =>
      if g_time g - start >=? off then
        let '(s1, o) := compare start s g e in
        let '(s2, rows) := loop start off s1 gs' (e :: es') in
        (s2, match o with Some r => r :: rows | None => rows end)
      else loop start off s gs' (e :: es')
    end
  end.

(** All runs, lines 165-345, the first with offset [off]: [None] if there are more than [fuel]
    of them.  Every run aligns anew, with the same result. *)
Fixpoint runs (fuel : nat) (single : bool) (off : Z) (gs : list truth) (es : list estimate)
  : option (list row) :=
  match fuel, gs with
  | S fuel', g0 :: _ =>
    let '(s, rows) := loop (g_time g0) off run_state_new gs es in
    if (ctr s =? 0)%nat || single then Some rows
    else match runs fuel' single (off + time_step) gs es with
         | Some more => Some (rows ++ more)
         | None => None
         end
  | _, _ => None
  end.

(** main: exit code and rows *)
Definition eval_main (fuel : nat) (single : bool) (gs : list truth) (es : list estimate) : option (Z * list row) :=
  match es, gs with
  | [], _ | _, [] => Some (-1, [])
  | e0 :: _, _ =>
    match align (e_stamp e0) gs with
    | None => Some (0, [])        (* return false *)
    | Some gs' => match runs fuel single start_time_offset gs' es with
                  | Some rows => Some (0, rows)
                  | None => None
                  end
    end
  end.
End Eval.
