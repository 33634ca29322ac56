(** The random walk that distorts a sensor, from its messages alone. *)

From Coq Require Import Reals List.
From Verif Require Import Geom Distort.
Import ListNotations.
Local Open Scope R_scope.

(** Sum of rate times elapsed time, from time [t] on. *)
Fixpoint walked (rate : draws -> R) (t : R) (ms : list message) : R :=
  match ms with
  | [] => 0
  | m :: r => rate (drawn m) * (at_time m - t) + walked rate (at_time m) r
  end.
Definition walked3 (t : R) (ms : list message) : v3 :=
  V3 (walked (fun w => v3x (d_pos w)) t ms) (walked (fun w => v3y (d_pos w)) t ms)
     (walked (fun w => v3z (d_pos w)) t ms).
(** Product of the small rotations. *)
Fixpoint turned (t : R) (ms : list message) (q : quat) : quat :=
  match ms with
  | [] => q
  | m :: r => turned (at_time m) r (qmul q (small_quat (v3scale (at_time m - t) (d_att (drawn m)))))
  end.

Definition quiet (w : draws) : Prop := d_pos w = v3zero /\ d_scale w = 0 /\ d_att w = v3zero.

(** The same for sensor [i] among the messages of several sensors: its own rates, times the
    time since the last message of any of them. *)
Fixpoint walked_of (i : nat) (rate : draws -> R) (t : R) (ms : list message) : R :=
  match ms with
  | [] => 0
  | m :: r => (if Nat.eqb (sensor m) i then rate (drawn m) * (at_time m - t) else 0) + walked_of i rate (at_time m) r
  end.
Definition walked3_of (i : nat) (t : R) (ms : list message) : v3 :=
  V3 (walked_of i (fun w => v3x (d_pos w)) t ms) (walked_of i (fun w => v3y (d_pos w)) t ms)
     (walked_of i (fun w => v3z (d_pos w)) t ms).
Fixpoint turned_of (i : nat) (t : R) (ms : list message) (q : quat) : quat :=
  match ms with
  | [] => q
  | m :: r => turned_of i (at_time m) r
      (if Nat.eqb (sensor m) i then qmul q (small_quat (v3scale (at_time m - t) (d_att (drawn m)))) else q)
  end.
