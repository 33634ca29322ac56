(** C76: the parameters of the core that a session of reconfigurations leaves, and predictions while
    they change. *)

From Coq Require Import Reals ZArith Lia Lra List.
From mathcomp Require Import all_ssreflect all_algebra.
From Verif Require Import Outcome Geom StateList Core Propagate ProcNoise Cov CovSpec CovProofs RField Predict Reconfigure CoreConfig
  PropertiesState PropertiesPredict PropertiesFlight PropertiesReconfigure QdProofs PredictProofs.
Import ListNotations.

Set Implicit Arguments.
Unset Strict Implicit.
Unset Printing Implicit Defensive.
Local Open Scope R_scope.

(** ** Specification *)
Definition within (lo hi x : R) : Prop := lo <= x <= hi.
(** the value in the range that is nearest to [x] *)
Definition nearest (lo hi x y : R) : Prop := within lo hi y /\ forall z, within lo hi z -> Rabs (x - y) <= Rabs (x - z).
Definition in_range (p : core_params) : Prop :=
  within (1 / 10000) (1 / 2) (n_acc (p_noise p)) /\ within (1 / 100000000) (1 / 10) (n_accbias (p_noise p)) /\
  within (1 / 10000) (1 / 2) (n_gyr (p_noise p)) /\ within (1 / 10000000) (1 / 10) (n_gyrbias (p_noise p)).
(** the value asked for last in a list of requests *)
Fixpoint asked {A} (f : core_request -> option A) (x : A) (l : list core_request) : A :=
  match l with
  | [] => x
  | a :: l' => asked f (match f a with Some y => y | None => x end) l'
  end.

Lemma clamp_nearest lo hi x : lo <= hi -> nearest lo hi x (clamp lo hi x).
Proof.
by move=> h; have [h1 h2 h3] := C68_clamp x h; split=> // z [h4 h5]; exact: h3.
Qed.
Lemma nearest_unique lo hi x y z : nearest lo hi x y -> nearest lo hi x z -> y = z.
Proof.
rewrite /nearest /within => -[h1 h2] [h3 h4].
have := h2 _ h3; have := h4 _ h1.
have h5 := h2 ((y + z) / 2) ltac:(lra).
move: h5; rewrite /Rabs; do 3 case: Rcase_abs => ?; lra.
Qed.
Lemma nearest_within lo hi x : within lo hi x -> nearest lo hi x x.
Proof. by move=> h; split=> // z _; rewrite Rminus_diag_eq // Rabs_R0; exact: Rabs_pos. Qed.
Lemma clamp_within lo hi x : within lo hi x -> clamp lo hi x = x.
Proof.
move=> h; apply: (@nearest_unique lo hi x); last exact: nearest_within.
by apply: clamp_nearest; case: h; lra.
Qed.

Lemma clamp_core_range p : in_range (clamp_core p).
Proof.
rewrite /in_range /clamp_core; cbn [p_noise n_acc n_accbias n_gyr n_gyrbias].
rewrite /clamp_acc /clamp_accbias /clamp_gyr /clamp_gyrbias.
have e : 5 / 10 = 1 / 2 by lra.
by rewrite e; split; [|split; [|split]]; apply clamp_nearest; lra.
Qed.

(** Whatever is on the parameter server and whatever is asked for, the parameters are in their
    ranges; no noise is zero. *)
Theorem C76_ranges : forall p l, in_range (core_session p l) /\
  let nz := p_noise (core_session p l) in 0 < n_acc nz /\ 0 < n_accbias nz /\ 0 < n_gyr nz /\ 0 < n_gyrbias nz.
Proof.
move=> p l; have h : in_range (core_session p l).
  rewrite /core_session; have h0 := clamp_core_range p; rewrite -/(core_start p) in h0.
  elim: l (core_start p) h0 => [//|a l IH] q h0; exact: IH (clamp_core_range _).
split=> //; case: h => -[? ?] [[? ?] [[? ?] [? ?]]]; move=> nz; rewrite /nz; repeat split; lra.
Qed.
Print Assumptions C76_ranges.

(** A request changes the parameters it has, to the nearest value of the range, and no others. *)
Theorem C76_request : forall p a, in_range p ->
  p_fixed_bias (core_serve p a) = match a_fixed_bias a with Some b => b | None => p_fixed_bias p end /\
  match a_acc a with Some x => nearest (1 / 10000) (1 / 2) x (n_acc (p_noise (core_serve p a)))
    | None => n_acc (p_noise (core_serve p a)) = n_acc (p_noise p) end /\
  match a_accbias a with Some x => nearest (1 / 100000000) (1 / 10) x (n_accbias (p_noise (core_serve p a)))
    | None => n_accbias (p_noise (core_serve p a)) = n_accbias (p_noise p) end /\
  match a_gyr a with Some x => nearest (1 / 10000) (1 / 2) x (n_gyr (p_noise (core_serve p a)))
    | None => n_gyr (p_noise (core_serve p a)) = n_gyr (p_noise p) end /\
  match a_gyrbias a with Some x => nearest (1 / 10000000) (1 / 10) x (n_gyrbias (p_noise (core_serve p a)))
    | None => n_gyrbias (p_noise (core_serve p a)) = n_gyrbias (p_noise p) end.
Proof.
move=> p a [h1 [h2 [h3 h4]]].
rewrite /core_serve /clamp_core /merge_core /default /clamp_acc /clamp_accbias /clamp_gyr /clamp_gyrbias;
  cbn [p_noise n_acc n_accbias n_gyr n_gyrbias p_fixed_bias].
have e : 5 / 10 = 1 / 2 by lra.
rewrite e; split=> //; split; [|split; [|split]]; (destruct a as [a0 a1 a2 a3 a4]; cbn [a_acc a_accbias a_gyr a_gyrbias]).
- by case: a1 => [x|]; [apply: clamp_nearest; lra|exact: clamp_within].
- by case: a2 => [x|]; [apply: clamp_nearest; lra|exact: clamp_within].
- by case: a3 => [x|]; [apply: clamp_nearest; lra|exact: clamp_within].
- by case: a4 => [x|]; [apply: clamp_nearest; lra|exact: clamp_within].
Qed.
Print Assumptions C76_request.

(** After a session each parameter is the nearest to what was asked for last. *)
Theorem C76_session : forall p l,
  p_fixed_bias (core_session p l) = asked a_fixed_bias (p_fixed_bias p) l /\
  nearest (1 / 10000) (1 / 2) (asked a_acc (n_acc (p_noise p)) l) (n_acc (p_noise (core_session p l))) /\
  nearest (1 / 100000000) (1 / 10) (asked a_accbias (n_accbias (p_noise p)) l) (n_accbias (p_noise (core_session p l))) /\
  nearest (1 / 10000) (1 / 2) (asked a_gyr (n_gyr (p_noise p)) l) (n_gyr (p_noise (core_session p l))) /\
  nearest (1 / 10000000) (1 / 10) (asked a_gyrbias (n_gyrbias (p_noise p)) l) (n_gyrbias (p_noise (core_session p l))).
Proof.
move=> p l; rewrite /core_session.
have e : 5 / 10 = 1 / 2 by lra.
have : p_fixed_bias (core_start p) = p_fixed_bias p /\
  nearest (1 / 10000) (1 / 2) (n_acc (p_noise p)) (n_acc (p_noise (core_start p))) /\
  nearest (1 / 100000000) (1 / 10) (n_accbias (p_noise p)) (n_accbias (p_noise (core_start p))) /\
  nearest (1 / 10000) (1 / 2) (n_gyr (p_noise p)) (n_gyr (p_noise (core_start p))) /\
  nearest (1 / 10000000) (1 / 10) (n_gyrbias (p_noise p)) (n_gyrbias (p_noise (core_start p))).
  rewrite /core_start /clamp_core /clamp_acc /clamp_accbias /clamp_gyr /clamp_gyrbias;
    cbn [p_noise n_acc n_accbias n_gyr n_gyrbias p_fixed_bias]; rewrite e.
  by split=> //; split; [|split; [|split]]; apply: clamp_nearest; lra.
have hr := clamp_core_range p; rewrite -/(core_start p) in hr.
move: (core_start p) hr (p_fixed_bias p) (n_acc (p_noise p)) (n_accbias (p_noise p)) (n_gyr (p_noise p)) (n_gyrbias (p_noise p)).
elim: l => [//|a l IH] q hq b x1 x2 x3 x4 [h0 [h1 [h2 [h3 h4]]]].
have [g0 [g1 [g2 [g3 g4]]]] := C76_request a hq.
cbn [fold_left asked]; apply: IH; first exact: clamp_core_range.
split; first by rewrite g0 h0.
split; first by move: g1; case: (a_acc a) => [x|->].
split; first by move: g2; case: (a_accbias a) => [x|->].
split; first by move: g3; case: (a_gyr a) => [x|->].
by move: g4; case: (a_gyrbias a) => [x|->].
Qed.
Print Assumptions C76_session.

(** With every setting the bias noises over a step of up to a millisecond are no larger than the noises
    themselves (two of the conditions of ordinary flight in PropertiesFlight). *)
Theorem C76_bias_noise : forall p l dt, 0 <= dt <= 1 / 1000 ->
  let nz := p_noise (core_session p l) in
  n_accbias nz * n_accbias nz * (dt * dt) <= n_acc nz * n_acc nz /\
  n_gyrbias nz * n_gyrbias nz * (dt * dt) <= n_gyr nz * n_gyr nz.
Proof.
move=> p l dt [h0 h1] nz; have [[[a1 a2] [[b1 b2] [[c1 c2] [d1 d2]]]] _] := C76_ranges p l; rewrite -/nz in a1 a2 b1 b2 c1 c2 d1 d2.
have k : forall x y, 0 <= x -> x <= 1 / 10 -> 1 / 10000 <= y -> x * x * (dt * dt) <= y * y.
  move=> x y x0 x1 y1.
  have -> : x * x * (dt * dt) = (x * dt) * (x * dt) by ring.
  have g0 : 0 <= x * dt by apply: Rmult_le_pos.
  have g1 : x * dt <= 1 / 10 * (1 / 1000) by apply: Rmult_le_compat.
  by apply: Rmult_le_compat => //; lra.
by split; apply: k => //; lra.
Qed.
Print Assumptions C76_bias_noise.
(** Not so for a step of ten milliseconds. *)
Theorem C76_bias_noise_refuted : exists p l, let nz := p_noise (core_session p l) in
  n_acc nz * n_acc nz < n_accbias nz * n_accbias nz * (1 / 100 * (1 / 100)).
Proof.
exists default_params, [CoreRequest None (Some 0) (Some 1) None None].
have [_ [h1 [h2 _]]] := C76_session default_params [CoreRequest None (Some 0) (Some 1) None None].
cbn [asked a_acc a_accbias] in h1, h2.
have e1 : nearest (1 / 10000) (1 / 2) 0 (1 / 10000).
  by split; [rewrite /within; lra|move=> z [? ?]; rewrite !Rabs_left1; lra].
have e2 : nearest (1 / 100000000) (1 / 10) 1 (1 / 10).
  by split; [rewrite /within; lra|move=> z [? ?]; rewrite !Rabs_right; lra].
by cbv zeta; rewrite (nearest_unique h1 e1) (nearest_unique h2 e2); lra.
Qed.
Print Assumptions C76_bias_noise_refuted.

(** The defaults of the .cfg file are in the ranges but no noise for ordinary flight: already at rest the
    gyroscope noise is too large against that of the accelerometer. *)
Theorem C76_default_noise : core_session default_params [] = default_params /\
  forall dt ew ea, ordinary (p_noise default_params) dt ew ea -> v3norm2 ea <= 5 / 4.
Proof.
split.
  rewrite /core_session /core_start /clamp_core /default_params /clamp_acc /clamp_accbias /clamp_gyr /clamp_gyrbias;
    cbn [fold_left p_noise p_fixed_bias n_acc n_accbias n_gyr n_gyrbias].
  by rewrite !clamp_within // /within; lra.
move=> dt ew ea [_ _ h _ _]; move: h; rewrite /default_params /v3norm2 /v3dot; cbn [p_noise n_acc n_gyr].
set s := Rplus _ _; lra.
Qed.
Print Assumptions C76_default_noise.

(** Parameters changed in flight: if every step is an ordinary one for the parameters then in force, no
    variance becomes negative. *)
Inductive reconfigured_flight n an : core_params -> full n -> full n -> Prop :=
| rf_end p f : reconfigured_flight an p f f
| rf_request p a f last : reconfigured_flight an (core_serve p a) f last -> reconfigured_flight an p f last
| rf_step p old new q ew ea tP old' new' tP' last :
    step_ok old new -> inputs new q ew ea -> qnorm2 q = R1 -> ordinary (p_noise p) (step_dt old new) ew ea ->
    predict_process_covariance std_layout (p_noise p) (calc_q_aux an) old new tP = Ok (old', new', tP') ->
    reconfigured_flight an p new' last -> reconfigured_flight an p old last.
Theorem C76_flight : forall n an p (old last : full n), reconfigured_flight an p old last -> psd (f_P old) ->
  psd (f_P last) /\ forall i, 0 <= f_P last i i.
Proof.
move=> n an p old last h hP.
have h1 : psd (f_P last); last by split=> // i; apply/RleE; exact: psd_diag.
elim: h hP => {p old last} [//|p a f last _ IH|p old new q ew ea tP old' new' tP' last hs hi hq ho e _ IH hP]; first exact: IH.
apply: IH; have [o [w [e' k]]] := C21_flight_partial an tP hs hi hq ho hP.
by move: e; rewrite e' => -[_ <- _].
Qed.
Print Assumptions C76_flight.

(** The defaults, then a request for fixed biases, no bias noise (as msf_updates/pose_sensor_fix.yaml
    lines 40-41 would) and a very noisy gyroscope. *)
Example C76_session_ex :
  core_session default_params [CoreRequest (Some true) None (Some 0) None (Some 0); CoreRequest None None None (Some 1) None] =
  CoreParams true (Noise (2 / 1000) (1 / 100000000) (1 / 2) (1 / 10000000)).
Proof.
have [h0 [h1 [h2 [h3 h4]]]] := C76_session default_params
  [CoreRequest (Some true) None (Some 0) None (Some 0); CoreRequest None None None (Some 1) None].
cbn [asked a_fixed_bias a_acc a_accbias a_gyr a_gyrbias default_params p_noise n_acc] in h0, h1, h2, h3, h4.
have e1 : nearest (1 / 10000) (1 / 2) (2 / 1000) (2 / 1000) by apply: nearest_within; rewrite /within; lra.
have e2 : nearest (1 / 100000000) (1 / 10) 0 (1 / 100000000).
  by split; [rewrite /within; lra|move=> z [? ?]; rewrite !Rabs_left1; lra].
have e3 : nearest (1 / 10000) (1 / 2) 1 (1 / 2).
  by split; [rewrite /within; lra|move=> z [? ?]; rewrite !Rabs_right; lra].
have e4 : nearest (1 / 10000000) (1 / 10) 0 (1 / 10000000).
  by split; [rewrite /within; lra|move=> z [? ?]; rewrite !Rabs_left1; lra].
case: (core_session _ _) h0 h1 h2 h3 h4 => b [x1 x2 x3 x4]; cbn [p_fixed_bias p_noise n_acc n_accbias n_gyr n_gyrbias].
move=> -> h1 h2 h3 h4.
by rewrite (nearest_unique h1 e1) (nearest_unique h2 e2) (nearest_unique h3 e3) (nearest_unique h4 e4).
Qed.

(** Without requests it is the flight of PropertiesFlight. *)
Lemma flight_reconfigured n an p (old last : full n) steps : flight (p_noise p) an old steps last -> reconfigured_flight an p old last.
Proof.
elim=> [f|old0 new q ew ea tP old' new' tP' rest last0 hs hi hq ho e _ IH]; first exact: rf_end.
exact: (rf_step hs hi hq ho e IH).
Qed.

(** The filter starts with the defaults, is given the noise of the position sensor's configuration and
    then hovers for 5 ms. *)
Example C76_flight_ex : exists last,
  reconfigured_flight (position_aux R1) default_params (fresh 18 0 (still qone) hover_imu) last /\
  psd (f_P last) /\ ~ sym (f_P last).
Proof.
have [old' [new' [_ [hf [hp hs]]]]] := C21_flight_ex.
have es : core_serve default_params (CoreRequest None (Some (83 / 1000)) (Some (83 / 10000)) (Some (13 / 10000)) (Some (13 / 100000)))
  = CoreParams false usual_noise.
  rewrite /core_serve /clamp_core /merge_core /default /clamp_acc /clamp_accbias /clamp_gyr /clamp_gyrbias;
    cbn [p_noise p_fixed_bias n_acc n_accbias n_gyr n_gyrbias a_fixed_bias a_acc a_accbias a_gyr a_gyrbias default_params].
  by rewrite !clamp_within; rewrite /within; try lra.
exists new'; split; last by [].
apply: (rf_request (a := CoreRequest None (Some (83 / 1000)) (Some (83 / 10000)) (Some (13 / 10000)) (Some (13 / 100000)))).
rewrite es; exact: (@flight_reconfigured 18 _ (CoreParams false usual_noise) _ _ _ hf).
Qed.
