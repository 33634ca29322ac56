(** The whole filter: the core machine (Core.v) with the real state variables, the state and
    covariance prediction, the measurement models, the correction, the sanity check and the
    failure detector in it.  Definitions only; real arithmetic, no rounding.

    Simplifications:
    - a value, covariance or detector memory that contains a not-a-number or an infinity is
      one value [FNan], [PNan], [GNan], and stays one: nothing is said about which of its
      entries are numbers.  (In the code an externally propagated p, v, q after that gives a
      state with some numbers in it.)  The detector does not fire on such a memory;
    - an innovation covariance without inverse gives not-a-number everywhere;
    - the transition matrix and the process noise start from the identity and from zero at
      every step (what earlier steps leave behind is written again: C47);
    - the noise blocks CalculateQAuxiliaryStates stores in the new state are used in the step
      that computes them and not kept (they are computed anew at every step);
    - absolute measurements only. *)

From Coq Require Import Reals ZArith List.
From mathcomp Require Import all_ssreflect all_algebra.
From Verif Require Import Outcome Core Geom StateList Propagate NavOps ProcNoise Cov RField Predict Sensors SensorsCov Fuzzy.

Set Implicit Arguments.
Unset Strict Implicit.
Unset Printing Implicit Defensive.

(** What one of the filters of msf_updates/src consists of. *)
Record config := Config
  { c_vars : list svar;          (* the state variables, in the order of the enum *)
    c_noise : noise;             (* GetParamNoise... *)
    c_aux : list (nat * R);      (* CalculateQAuxiliaryStates *)
    c_fixed_bias : bool;         (* GetParamFixedBias *)
    c_scale : option nat;        (* variable L tested by SanityCheckCorrection, if any *)
    c_watch : option nat;        (* IndexOfBestNonTemporalDriftingState, if any *)
    c_pip : nat;                 (* position of p_ip in the list, if there is one *)
    c_bp : nat                   (* position of b_p in the list, if there is one *)
  }.

(** State variables, covariance and detector memory of a running filter. *)
Inductive fval := FState (s : state) | FNan | FUB.
Inductive fcov n := PMat (P : 'M[R]_n) | PNan | PUB.
Arguments PNan {n}.
Arguments PUB {n}.
Inductive fmem := GMem (f : fuzzy) | GNan.

(** The enum positions of p, v, q, b_w, b_a: the same in all filters. *)
Definition core_layout : layout := Layout 0 1 2 3 4.

(** A freshly constructed state (msf_state_inl.h lines 20-67): every variable reset. *)
Definition blank (l : list svar) : state :=
  List.map (fun x => reset_one (Inst x (VVec [::]) (fun _ _ => R0) false)) l.

Definition of_res (r : res state) : fval := if r is Ok s then FState s else FUB.

(** PropagateState on a fresh state, msf_core_inl.h lines 156-181 *)
Definition f_propagate (cfg : config) (dt : Z) (a g : v3) (v : fval) (a' g' : v3) : fval :=
  match v with
  | FState s => of_res (propagate_state core_layout (seconds dt) s (blank (c_vars cfg)) (Imu g a) (Imu g' a'))
  | _ => v
  end.

(** lines 268-277: p, v, q as delivered, the other variables of the last state *)
Definition f_ext (cfg : config) (x : v3 * v3 * quat) (v : fval) : fval :=
  match v with
  | FState s =>
    let '(p, w, q) := x in
    let cur := set_val (set_val (set_val (blank (c_vars cfg)) 0 (vvec p)) 1 (vvec w)) 2 (VQuat q) in
    of_res (for_each (copy_nonprop s) cur)
  | _ => v
  end.

(** PredictProcessCovariance, lines 443-543 *)
Definition f_predict n (cfg : config) (dt : Z) (a g : v3) (v : fval) (P : fcov n) : fcov n :=
  match v, P with
  | FState s, PMat P =>
    let old := Full 0 s (Imu g a) P zeye zzero in
    let new := fresh n dt s (Imu g a) in
    if predict_process_covariance core_layout (c_noise cfg) (calc_q_aux (c_aux cfg)) old new 0
       is Ok (_, new', _) then PMat (f_P new') else PUB
  | FUB, _ | _, PUB => PUB
  | _, _ => PNan
  end.

(** ** Measurements *)

(** The mahalanobis switch and threshold of a measurement (msf_measurement.h) *)
Record gate_cfg := Gate { g_on : bool; g_thr : R }.

(** A measurement as the handlers hand it to the core: fixedstates_, gate, reading, noise. *)
Inductive reading :=
| RPosition (fixedstates : Z) (g : gate_cfg) (z : v3) (Rm : 'M[R]_3)
| RPose (fixedstates : Z) (g : gate_cfg) (z_p : v3) (z_q : quat) (Rm : 'M[R]_7)
| RPressure (g : gate_cfg) (z : R) (Rm : 'M[R]_1)
| RDistance (fixedstates : Z) (g : gate_cfg) (z : R) (Rm : 'M[R]_1)
| RAngle (fixedstates : Z) (g : gate_cfg) (z_theta z_phi : R) (Rm : 'M[R]_2).

Definition get_real (s : state) (k : nat) : res R :=
  match nth_error s k with
  | Some i => match ival i with VVec [:: x] => Ok x | _ => UB end
  | None => UB
  end.

(** What the measurement models read of a state, and where. *)
Definition pos_state_at (s : state) (k : nat) : res pos_state :=
  bind (get_v3 s 0) (fun p => bind (get_quat s 2) (fun q => bind (get_v3 s k) (fun pip =>
  Ok (PosState p q pip)))).
Definition pos_layout_at (l : list svar) (k : nat) : res pos_layout :=
  bind (start_of l 0) (fun p => bind (start_of l 2) (fun q => bind (start_of l k) (fun pip =>
  Ok (PosLayout p q pip)))).
(** The pose variables L, q_wv, p_wv, q_ic, p_ic have the enum positions 5 to 9 in the three
    filters that have them. *)
Definition pose_state_at (s : state) : res pose_state :=
  bind (get_v3 s 0) (fun p => bind (get_quat s 2) (fun q => bind (get_real s 5) (fun L =>
  bind (get_quat s 6) (fun qwv => bind (get_v3 s 7) (fun pwv => bind (get_quat s 8) (fun qic =>
  bind (get_v3 s 9) (fun pic => Ok (PoseState p q L qwv pwv qic pic)))))))).
Definition pose_layout_at (l : list svar) : res pose_layout :=
  bind (start_of l 0) (fun p => bind (start_of l 2) (fun q => bind (start_of l 5) (fun L =>
  bind (start_of l 6) (fun qwv => bind (start_of l 7) (fun pwv => bind (start_of l 8) (fun qic =>
  bind (start_of l 9) (fun pic => Ok (PoseLayout p q L qwv pwv qic pic)))))))).

(** Residuals as columns; a zero denominator gives a not-a-number or an infinity. *)
Definition col3 (a : v3) : 'cV[R]_3 := (\col_i v3at a i)%R.
Definition col1 (x : R) : 'cV[R]_1 := (\col_i x)%R.
Definition col7 (r : v3 * v3 * R) : 'cV[R]_7 :=
  (\col_i if (i < 3)%N then v3at r.1.1 i else if (i < 6)%N then v3at r.1.2 (i - 3) else r.2)%R.
Definition nonzero (x : R) : bool := if Req_EM_T x (IZR 0) then false else true.
Definition pose_residual_col (z_p : v3) (z_q : quat) (s : pose_state) : option 'cV[R]_7 :=
  let q := b_qwv s in
  if nonzero (qw (qmul (qconj (pose_attitude s)) z_q)) &&
     nonzero (Rminus (IZR 1) (Rmult (IZR 2) (Rplus (Rmult (qy q) (qy q)) (Rmult (qz q) (qz q)))))
  then Some (col7 (pose_residual z_p z_q s)) else None.
Definition angle_residual_col (z_theta z_phi : R) (s : pos_state) : option 'cV[R]_2 :=
  match angle_residual z_theta z_phi s with
  | (Some a, Some b) => Some (\col_i if i == ord0 then a else b)%R
  | _ => None
  end.
(** The denominators of the spherical measurement matrices. *)
Definition dist_ok (s : pos_state) : bool := nonzero (v3norm2 (a_p s)).
Definition angle_ok (s : pos_state) : bool :=
  nonzero (Rplus (Rmult (v3x (a_p s)) (v3x (a_p s))) (Rmult (v3y (a_p s)) (v3y (a_p s)))).

(** Apply up to the call of ApplyCorrection: the covariance after CalculateH has cleared cross
    covariances, and what CalculateAndApplyCorrection does with it ([None]: not a number). *)
Definition measure n (cfg : config) (m : reading) (s : state) (P : 'M[R]_n)
  : res ('M[R]_n * option (outcome _ n)) :=
  match m with
  | RPosition fs g z Rm =>
    bind (pos_layout_at (types s) (c_pip cfg)) (fun l => bind (pos_state_at s (c_pip cfg)) (fun ps =>
    let fx := fixed_bit fs (c_pip cfg) in
    Ok (clear_if fx (l_pip l) 3 P,
        position_update l fx ps (g_on g) (g_thr g) P Rm (Some (col3 (position_residual z ps))))))
  | RPose fs g z_p z_q Rm =>
    bind (pose_layout_at (types s)) (fun l => bind (pose_state_at s) (fun ps =>
    let f := pose_flags fs 5 9 8 6 7 in
    Ok (pose_clear l f P, pose_update l f ps (g_on g) (g_thr g) P Rm (pose_residual_col z_p z_q ps))))
  | RPressure g z Rm =>
    bind (start_of (types s) 0) (fun ip => bind (start_of (types s) (c_bp cfg)) (fun ib =>
    bind (get_v3 s 0) (fun p => bind (get_real s (c_bp cfg)) (fun b =>
    Ok (P, abs_update (g_on g) (g_thr g) P (hmx 1 n (pressure_H ip ib)) Rm (Some (col1 (pressure_residual z b p))))))))
  | RDistance fs g z Rm =>
    bind (pos_layout_at (types s) (c_pip cfg)) (fun l => bind (pos_state_at s (c_pip cfg)) (fun ps =>
    let fx := fixed_bit fs (c_pip cfg) in
    Ok (clear_if fx (l_pip l) 3 P,
        if dist_ok ps then distance_update l fx ps (g_on g) (g_thr g) P Rm (Some (col1 (distance_residual z ps)))
        else None)))
  | RAngle fs g z_theta z_phi Rm =>
    bind (pos_layout_at (types s) (c_pip cfg)) (fun l => bind (pos_state_at s (c_pip cfg)) (fun ps =>
    let fx := fixed_bit fs (c_pip cfg) in
    Ok (clear_if fx (l_pip l) 3 P,
        if angle_ok ps then angle_update l fx ps (g_on g) (g_thr g) P Rm (angle_residual_col z_theta z_phi ps)
        else None)))
  end.

(** SanityCheckCorrection, pose_sensormanager.h lines 287-303, pose_pressure_sensormanager.h
    lines 245-261, position_pose_sensormanager.h lines 288-304; the position and spherical
    managers test nothing. *)
Definition sanity (cfg : config) (s : state) : state :=
  match c_scale cfg with
  | None => s
  | Some k =>
    match nth_error s k with
    | Some i => match ival i with
                | VVec [:: L] => match Rlt_dec L (IZR 0) with left _ => set_val s k (VVec [:: Rdiv (IZR 1) (IZR 10)]) | right _ => s end
                | _ => s
                end
    | None => s
    end
  end.

(** The correction vector as a list. *)
Definition corr_vec n (c : 'cV[R]_n) : list R := [seq c i ord0 | i <- enum 'I_n].

(** ApplyCorrection, msf_core_inl.h lines 845-912 (default threshold 0.1, msf_core.h line
    214).  Without a non-drifting quaternion there is no detector
    (msf_checkFuzzyTracking.h lines 124-134). *)
Definition f_correct n (cfg : config) (g : fmem) (c : option 'cV[R]_n) (s : state) : fval * fmem :=
  match c with
  | None => (FNan, if c_watch cfg is Some _ then GNan else g)
  | Some c =>
    match c_watch cfg, g with
    | Some k, GMem f =>
      match apply_correction_full k id (fun s1 _ _ => sanity cfg s1) (c_fixed_bias cfg) 3 4 f (corr_vec c)
              (Rdiv (IZR 1) (IZR 10)) s with
      | Ok (_, f', s') => (FState s', GMem f')
      | _ => (FUB, g)
      end
    | _, _ =>
      (of_res (bind (apply_correction (c_fixed_bias cfg) 3 4 (corr_vec c) s) (fun s1 => Ok (sanity cfg s1))), g)
    end
  end.

(** Apply of a measurement on a state. *)
Definition f_apply n (cfg : config) (m : reading) (g : fmem) (v : fval) (P : fcov n)
  : bool * fval * fcov n * fmem :=
  match v, P with
  | FState s, PMat P =>
    match measure cfg m s P with
    | Ok (P0, Some Rejected) => (false, FState s, PMat P0, g)
    | Ok (P0, Some (Applied c P1)) => let '(v', g') := f_correct cfg g c s in (true, v', PMat P1, g')
    | Ok (_, None) => (true, FNan, PNan, if c_watch cfg is Some _ then GNan else g)
    | _ => (true, FUB, PUB, g)
    end
  | FUB, _ | _, PUB => (true, FUB, PUB, g)
  | _, _ => (true, FNan, PNan, if c_watch cfg is Some _ then GNan else g)
  end.

Definition is_number (v : fval) : bool := if v is FState _ then true else false.

Definition filter n (cfg : config) : ops := {|
  Val := fval; Cov := fcov n; Acc := v3; Gyr := v3; Meas := reading; Glob := fmem;
  Ext := v3 * v3 * quat;
  cov_zero := PMat 0%R; acc_zero := v3zero; acc_spike := spike;
  lerp_acc := lerp; lerp_gyr := lerp;
  propagate := f_propagate cfg;
  predict_cov := @f_predict n cfg;
  ext_val := f_ext cfg;
  numeric := is_number; numeric_p := is_number;
  apply_meas := @f_apply n cfg;
  glob_reset := GMem fuzzy_new
|}.

(** ** The five filters (state lists: the msf_statedef.hpp of each filter) *)

Definition core_vars : list svar :=
  [:: Svar (KVec 3) 0 CoreProp 0; Svar (KVec 3) 1 CoreProp 0; Svar KQuat 2 CoreProp 0;
      Svar (KVec 3) 3 CoreNoProp 0; Svar (KVec 3) 4 CoreNoProp 0].
Definition pose_vars : list svar :=
  core_vars ++ [:: Svar (KVec 1) 5 Aux 0; Svar KQuat 6 AuxNonDrift 0; Svar (KVec 3) 7 Aux 0;
                   Svar KQuat 8 Aux 0; Svar (KVec 3) 9 Aux 0].

(** position_msf and spherical_msf *)
Definition position_filter (nz : noise) (n_pip : R) (fixed_bias : bool) : config :=
  Config (core_vars ++ [:: Svar (KVec 3) 5 Aux 0]) nz (position_aux n_pip) fixed_bias None None 5 0.
(** pose_msf *)
Definition pose_filter (nz : noise) (n_L n_qwv n_pwv n_qic n_pic : R) (fixed_bias : bool) : config :=
  Config pose_vars nz (pose_aux n_L n_qwv n_pwv n_qic n_pic) fixed_bias (Some 5%N) (Some 6%N) 0 0.
(** pose_pressure_msf *)
Definition pose_pressure_filter (nz : noise) (n_L n_qwv n_qic n_pic n_bp : R) (fixed_bias : bool) : config :=
  Config (pose_vars ++ [:: Svar (KVec 1) 10 Aux 0]) nz (pose_pressure_aux n_L n_qwv n_qic n_pic n_bp)
         fixed_bias (Some 5%N) (Some 6%N) 0 10.
(** position_pose_msf *)
Definition position_pose_filter (nz : noise) (n_L n_qwv n_pwv n_qic n_pic : R) (fixed_bias : bool) : config :=
  Config (pose_vars ++ [:: Svar (KVec 3) 10 Aux 0]) nz (pose_aux n_L n_qwv n_pwv n_qic n_pic)
         fixed_bias (Some 5%N) (Some 6%N) 10 0.
