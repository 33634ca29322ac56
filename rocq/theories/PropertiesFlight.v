(** C21 in ordinary flight: with all noise sources at work the predicted covariance is not
    symmetric, but its quadratic form stays nonnegative, so no variance becomes negative. *)

From Coq Require Import Reals ZArith Lia Lra List.
From mathcomp Require Import all_ssreflect all_algebra.
From Verif Require Import Outcome Geom StateList StateListProofs Core Propagate NavOps QCore ProcNoise ProcNoiseProofs QdProofs
  Cov CovSpec CovProofs RField Predict PredictProofs PropertiesState PropertiesSensors PropertiesPredict FlightNoise FlightProofs.
Import GRing.Theory Num.Theory.

Set Implicit Arguments.
Unset Strict Implicit.
Unset Printing Implicit Defensive.
Local Open Scope ring_scope.

(** Ordinary flight: steps of up to 50 ms; about each axis a rotation of up to a twentieth of a
    radian over the step; gyroscope noise times specific force small against the accelerometer
    noise; bias noises over the step no larger than the noises themselves. *)
Record ordinary (nz : noise) (dt : R) (ew ea : v3) : Prop := Ordinary {
  o_step : Rlt R0 dt /\ Rle dt (Rdiv R1 (IZR 20));
  o_turn : Rle (Rabs (Rmult (v3x ew) dt)) (Rdiv R1 (IZR 20)) /\ Rle (Rabs (Rmult (v3y ew) dt)) (Rdiv R1 (IZR 20)) /\
           Rle (Rabs (Rmult (v3z ew) dt)) (Rdiv R1 (IZR 20));
  o_force : Rle (Rmult (IZR 20) (Rmult (Rmult (n_gyr nz) (n_gyr nz))
             (Rplus (Rplus (Rmult (v3x ea) (v3x ea)) (Rmult (v3y ea) (v3y ea))) (Rmult (v3z ea) (v3z ea)))))
           (Rmult (n_acc nz) (n_acc nz));
  o_accbias : Rle (Rmult (Rmult (n_accbias nz) (n_accbias nz)) (Rmult dt dt)) (Rmult (n_acc nz) (n_acc nz));
  o_gyrbias : Rle (Rmult (Rmult (n_gyrbias nz) (n_gyrbias nz)) (Rmult dt dt)) (Rmult (n_gyr nz) (n_gyr nz)) }.

Lemma flight_psd dt q ew ea nz : qnorm2 q = R1 -> ordinary nz dt ew ea -> psd (mx 15 (calc_q_core std_ix dt q ew ea nz zzero)).
Proof.
move=> hq [[h1 h2] [h3 [h4 h5]] h6 h7 h8] x; apply/RleE; rewrite qf_mx.
by apply: flight_core.
Qed.

Lemma qd_psd n (M : zmat) : (15 <= n)%coq_nat -> psd (mx 15 M) ->
  (forall r c, Z.le 15 r \/ Z.le 15 c -> r <> c -> M r c = R0) ->
  (forall r, Z.le 15 r -> Rle R0 (M r r)) -> psd (mx n M).
Proof.
move=> /leP hn hc h0 h1; rewrite -(subnKC hn) (@mx_block 15).
  move=> x; rewrite qf_block; apply: addr_ge0 => //.
  have [_ p] : cov_ok (mx (n - 15) (fun r c => M (Z.add r (Z.of_nat 15)) (Z.add c (Z.of_nat 15)))); last exact: p.
  apply: diag_ok.
  - move=> i j ne; apply: h0; first by left; lia.
    move=> e; case/negP: ne; apply/eqP/val_inj => /=; lia.
  - by move=> i; apply/RleE; apply: h1; lia.
by move=> i j hi hj; split; apply: h0; lia.
Qed.

(** One step.  (Missing against [C21_full]: symmetry of the result, and flight outside the
    stated bounds; both are refuted in PropertiesPredict.) *)
Theorem C21_flight_partial : forall n nz an (old new : full n) tP q ew ea,
  step_ok old new -> inputs new q ew ea -> qnorm2 q = R1 -> ordinary nz (step_dt old new) ew ea -> psd (f_P old) ->
  exists old' new', predict_process_covariance std_layout nz (calc_q_aux an) old new tP = Ok (old', new', f_time new) /\
    psd (f_P new').
Proof.
move=> n nz an old new tP q ew ea [hv ha hc ht] hin hq ho hP.
have [q1 [w1 [a1 [Qd [old' [new' [[hin1 e eP _ _] [h1 h2 h3 _]]]]]]]] := predict_step nz an tP hv ha hc ht.
have [? [? ?]] := inputs_det hin1 hin; subst q1 w1 a1.
exists old', new'; split=> //; rewrite eP; apply: psdD; first exact: psd_congr.
apply: qd_psd => //; first exact: (n15 hv).
rewrite (@mx_ext 15 Qd (calc_q_core std_ix (step_dt old new) q ew ea nz zzero)); first exact: flight_psd.
move=> i j hi hj; rewrite h1; try lia.
by apply: core_fresh => hcell; apply: (clean_core hv hc) => //; lia.
Qed.
Print Assumptions C21_flight_partial.

(** Any number of steps, each starting from the state the one before produced. *)
Inductive flight n nz an : full n -> seq (full n) -> full n -> Prop :=
| flight_end f : flight nz an f [::] f
| flight_step old new q ew ea tP old' new' tP' rest last :
    step_ok old new -> inputs new q ew ea -> qnorm2 q = R1 -> ordinary nz (step_dt old new) ew ea ->
    predict_process_covariance std_layout nz (calc_q_aux an) old new tP = Ok (old', new', tP') ->
    flight nz an new' rest last -> flight nz an old (new :: rest) last.

Lemma psd_diag n (P : 'M[R]_n) i : psd P -> 0 <= P i i.
Proof.
move=> h; have := h (delta_mx i 0); by rewrite /qf trmx_delta -rowE -colE !mxE.
Qed.

Theorem C21_no_negative_variance_partial : forall n nz an (old last : full n) steps, flight nz an old steps last -> psd (f_P old) ->
  psd (f_P last) /\ forall i, Rle R0 (f_P last i i).
Proof.
move=> n nz an old last steps h hP.
have h1 : psd (f_P last); last by split=> // i; apply/RleE; exact: psd_diag.
elim: h hP => {old last steps} [//|old new q ew ea tP old' new' tP' rest last hs hi hq ho e _ IH hP].
apply: IH; have [o [w [e' p]]] := C21_flight_partial an tP hs hi hq ho hP.
by move: e; rewrite e' => -[_ <- _].
Qed.
Print Assumptions C21_no_negative_variance_partial.

(** With the noise the package ships for its position sensors: up to 14 m/s^2, whatever the attitude.
    (Not so with that for the pose sensor, see [C21_rest_refuted] in PropertiesRest.) *)
Theorem C21_shipped_partial : forall dt ew ea, Rlt R0 dt -> Rle dt (Rdiv R1 (IZR 20)) ->
  Rle (Rabs (Rmult (v3x ew) dt)) (Rdiv R1 (IZR 20)) -> Rle (Rabs (Rmult (v3y ew) dt)) (Rdiv R1 (IZR 20)) ->
  Rle (Rabs (Rmult (v3z ew) dt)) (Rdiv R1 (IZR 20)) ->
  Rle (Rplus (Rplus (Rmult (v3x ea) (v3x ea)) (Rmult (v3y ea) (v3y ea))) (Rmult (v3z ea) (v3z ea))) (Rmult (IZR 14) (IZR 14)) ->
  ordinary usual_noise dt ew ea.
Proof.
move=> dt ew ea h1 h2 h3 h4 h5 h6; split=> //; rewrite /usual_noise; cbn [n_acc n_accbias n_gyr n_gyrbias].
- move: h6; set s := Rplus _ _ => h6; lra.
- have : Rle (Rmult dt dt) (IZR 1) by nra.
  set s := Rmult dt dt => hs; lra.
- have : Rle (Rmult dt dt) (IZR 1) by nra.
  set s := Rmult dt dt => hs; lra.
Qed.
Print Assumptions C21_shipped_partial.

(** Hovering, 5 ms, noise as shipped, from certainty: covered (and not symmetric, see
    [C21_symmetric_refuted]). *)
Example C21_flight_ex : exists old' new',
  predict_process_covariance std_layout usual_noise (calc_q_aux (position_aux R1))
    (fresh 18 0 (still qone) hover_imu) (fresh 18 ms5 (still qone) hover_imu) 0 = Ok (old', new', ms5) /\
  flight usual_noise (position_aux R1) (fresh 18 0 (still qone) hover_imu) [:: fresh 18 ms5 (still qone) hover_imu] new' /\
  psd (f_P new') /\ ~ sym (f_P new').
Proof.
have hs := @still_step qone 0 ms5 hover_imu hover_imu erefl.
have hi := @still_inputs qone ms5 hover_imu.
have hq : qnorm2 qone = R1 by rewrite /qnorm2 /qone; cbn [qw qx qy qz]; ring.
have ho : ordinary usual_noise (step_dt (fresh 18 0 (still qone) hover_imu) (fresh 18 ms5 (still qone) hover_imu))
    (v3sub (iw hover_imu) v3zero) (v3sub (ia hover_imu) v3zero).
  rewrite step_ms5; apply: C21_shipped_partial; rewrite /hover_imu /v3sub /v3zero; cbn [iw ia v3x v3y v3z];
    try (rewrite Rminus_0_r Rmult_0_l Rabs_R0); lra.
have [old' [new' [e p]]] := C21_flight_partial (position_aux R1) Z0 hs hi hq ho (proj2 (zero_ok _)).
exists old', new'; split=> //; split; first by apply: (flight_step hs hi hq ho e); exact: flight_end.
split=> // hsym.
have [old2 [new2 [e2 hP]]] := @still_predict usual_noise (position_aux R1) qone ms5 hover_imu hover_imu Z0 erefl.
move: e2; rewrite e => -[_ e2]; rewrite -e2 in hP.
have h1 := hP (inord 4) (inord 6); have h2 := hP (inord 6) (inord 4).
have h : f_P new' (inord 4) (inord 6) = f_P new' (inord 6) (inord 4) by rewrite -[in LHS]hsym mxE.
move: h1 h2; rewrite h !inordK // => -> // /(_ isT isT).
have -> : v3sub (iw hover_imu) v3zero = V3 R0 R0 R0 by rewrite /v3sub /v3zero; cbn [v3x v3y v3z iw hover_imu v3zero]; congr V3; ring.
have -> : v3sub (ia hover_imu) v3zero = V3 R0 R0 (Rdiv (IZR 981) (IZR 100)).
  by rewrite /v3sub /v3zero; cbn [v3x v3y v3z ia hover_imu]; congr V3; ring.
rewrite (entry_v_q_hover _ (Rdiv (IZR 981) (IZR 100)) usual_noise) entry_q_v step_ms5 /usual_noise; cbn [n_gyr]; lra.
Qed.

(** *** When the process noise is symmetric *)

(** Without rotation and with a noisy gyroscope: only when the specific force, projected on the
    body y-z plane, is parallel to the first two rows of the attitude matrix there. *)
Theorem C21_symmetric_iff_partial : forall dt q ea nz, dt <> R0 -> n_gyr nz <> R0 -> qnorm2 q = R1 ->
  let Q i j := calc_q_core std_ix dt q v3zero ea nz zzero (Z.of_nat i) (Z.of_nat j) in
  (forall i j, (i < 15)%coq_nat -> (j < 15)%coq_nat -> Q i j = Q j i) <->
  (Rmult (v3y ea) (v3z (r1 (qrot q))) = Rmult (v3z ea) (v3y (r1 (qrot q))) /\
   Rmult (v3y ea) (v3z (r2 (qrot q))) = Rmult (v3z ea) (v3y (r2 (qrot q)))).
Proof.
move=> dt q ea nz hd hn hq Q; have e0 := u0_row q ea hq; have e2 := u2_row q ea hq.
split=> [h|[h0 h2]].
- have h1 := h 3%N 7%N ltac:(lia) ltac:(lia); have h3 := h 4%N 6%N ltac:(lia) ltac:(lia).
  move: h1 h3; rewrite /Q; destruct nz as [na nba nw nbw]; cbn [n_gyr] in hn.
  by move=> /(asym_37 _ _ _ _ _ _ _ hd hn) h1 /(asym_46 _ _ _ _ _ _ _ hd hn) h3; split; lra.
- move=> i j hi hj; rewrite /Q; destruct nz as [na nba nw nbw]; apply: sym_rest => //; lra.
Qed.
Print Assumptions C21_symmetric_iff_partial.

(** Level attitude: symmetric exactly when the specific force has no vertical part. *)
Example C21_symmetric_iff_ex : forall dt a b c, dt <> R0 ->
  let Q i j := calc_q_core std_ix dt qone v3zero (V3 a b c) usual_noise zzero (Z.of_nat i) (Z.of_nat j) in
  (forall i j, (i < 15)%coq_nat -> (j < 15)%coq_nat -> Q i j = Q j i) <-> c = R0.
Proof.
move=> dt a b c hd; have hn : n_gyr usual_noise <> R0 by rewrite /usual_noise; cbn [n_gyr]; lra.
have hq : qnorm2 qone = R1 by rewrite /qnorm2 /qone; cbn [qw qx qy qz]; ring.
have := C21_symmetric_iff_partial (V3 a b c) hd hn hq; cbn [v3x v3y v3z qrot qone r1 r2 qw qx qy qz] => h.
by split=> [/h [_ ?]|?]; [|apply/h; split]; lra.
Qed.
