(** The core machine with the real navigation states in it: [Val] carries
    position, velocity, attitude and biases (plus arbitrary further variables).
    Definitions only.

    Prediction is [propagate_nav]; a measurement supplies an arbitrary correction
    of the error state, applied as CorrectState does (msf_tmp.h lines 913-958);
    everything else is arbitrary. *)

From Coq Require Import Reals ZArith.
From Verif Require Import Core Geom Propagate.
Open Scope R_scope.

(** Segments of a correction vector for the core variables. *)
Record dnav := Dnav { dp : v3; dv : v3; dq : v3; dbw : v3; dba : v3 }.

Definition correct_nav (d : dnav) (x : nav) : nav :=
  Nav (v3add (np x) (dp d)) (v3add (nv x) (dv d))
      (qnormalize (qmul (nq x) (small_quat (dq d))))
      (v3add (nbw x) (dbw d)) (v3add (nba x) (dba d)).

Definition seconds (t : Z) : R := IZR t / 1000000000.

(** msf_core_inl.h lines 146 and 247. *)
Definition spike (a : v3) : bool := if Rlt_dec 50 (v3norm a) then true else false.
(** msf_core_inl.h lines 787-794. *)
Definition lerp (a b : v3) (dt dp : Z) : v3 :=
  v3add a (v3scale (IZR dp / IZR dt) (v3sub b a)).

Section NavOps.
  Variables (X C M G : Type).
  Variable zero : C.
  Variable predict : Z -> v3 -> v3 -> nav * X -> C -> C.
  Variables (num nump : nav * X -> bool).
  (** What a measurement does: [None] - correction not reached (the covariance may
      still change); [Some] - correction of core and of further variables. *)
  Variable update : M -> G -> nav * X -> C -> option (dnav * (X -> X)) * C * G.
  Variable reset : G.

  (** lines 270-277: external p, v, q; everything else from the previous state *)
  Definition ext_nav (e : v3 * v3 * quat) (s : nav * X) : nav * X :=
    let '(p, v, q) := e in let '(x, a) := s in (Nav p v q (nbw x) (nba x), a).

  Definition nav_ops : ops := {|
    Val := nav * X; Cov := C; Acc := v3; Gyr := v3; Meas := M; Glob := G;
    Ext := v3 * v3 * quat;
    cov_zero := zero; acc_zero := v3zero; acc_spike := spike;
    lerp_acc := lerp; lerp_gyr := lerp;
    propagate := fun dt a g s a' g' =>
      (propagate_nav (seconds dt) (fst s) (Imu g a) (Imu g' a'), snd s);
    predict_cov := predict;
    ext_val := ext_nav;
    numeric := num; numeric_p := nump;
    apply_meas := fun m g s P =>
      match update m g s P with
      | (None, P', g') => (false, s, P', g')
      | (Some (d, f), P', g') => (true, (correct_nav d (fst s), f (snd s)), P', g')
      end;
    glob_reset := reset
  |}.
End NavOps.
