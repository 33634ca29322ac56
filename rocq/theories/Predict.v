(** MSF_Core::PredictProcessCovariance, msf_core_inl.h lines 443-543, on whole states.
    Definitions only.

    [full n]: a state object with time stamp, variables, readings and its three matrices
    (msf_state.h).  Times are nanoseconds, as in the core model; [seconds] converts. *)

From Coq Require Import Reals ZArith.
From mathcomp Require Import all_ssreflect all_algebra.
From Verif Require Import Outcome Geom StateList Propagate NavOps ProcNoise Cov RField.

Set Implicit Arguments.
Unset Strict Implicit.
Unset Printing Implicit Defensive.

Definition mx n (M : zmat) : 'M[R]_n := \matrix_(i, j) M (Z.of_nat i) (Z.of_nat j).

Record full n := Full
  { f_time : Z; f_vars : state; f_imu : imu; f_P : 'M[R]_n; f_Fd : zmat; f_Qd : zmat }.

(** Constructor of the state: msf_state_inl.h lines 20-67 (P and Qd zero, Fd identity). *)
Definition fresh n (t : Z) (s : state) (u : imu) : full n := Full t s u 0%R zeye zzero.

(** Result: both states and time_P_propagated [tP].  [aux] is CalculateQAuxiliaryStates. *)
Definition predict_process_covariance n (L : layout) (nz : noise) (aux : R -> state -> state)
           (old new : full n) (tP : Z) : res (full n * full n * Z) :=
  if Z.leb (Z.sub (f_time new) (f_time old)) 0 then Ok (old, new, tP) else
  let dt := seconds (Z.sub (f_time new) (f_time old)) in
  bind (get_v3 (f_vars new) (ibw L)) (fun bw =>
  bind (get_v3 (f_vars new) (iba L)) (fun ba =>
  bind (get_quat (f_vars new) (iq L)) (fun q =>
  bind (core_ix_of (types (f_vars new)) L) (fun ix =>
    let ew := v3sub (iw (f_imu new)) bw in
    let ea := v3sub (ia (f_imu new)) ba in
    let Fd := calc_fd ix dt q ew ea (f_Fd old) in
    let Qc := calc_q_core ix dt q ew ea nz (f_Qd old) in
    let vars := aux dt (f_vars new) in
    bind (copy_q (types vars) Qc vars) (fun Qd =>
      let P := propagate_cov (mx n Fd) (mx n Qd) (f_P old) in
      Ok (Full (f_time old) (f_vars old) (f_imu old) (f_P old) Fd Qd,
          Full (f_time new) vars (f_imu new) P (f_Fd new) (f_Qd new),
          f_time new)))))).
