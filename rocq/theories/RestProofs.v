(** The core process noise at rest with little accelerometer noise, as in
    msf_updates/pose_sensor_fix.yaml: a direction in which its quadratic form is negative. *)

From Coq Require Import Reals ZArith List Bool Lia Lra.
From Verif Require Import Outcome Geom StateList Propagate QCore ProcNoise ProcNoiseProofs FlightNoise FlightProofs.
Local Open Scope R_scope.

(** Noise densities of msf_updates/pose_sensor_fix.yaml lines 26-31. *)
Definition pose_noise : noise := Noise (22563/10000000) (8/100000) (4/10000) (3/1000000).
(** A third of a turn about (1, 1, 1): the y axis of the IMU points upwards. *)
Definition upright : quat := Quat (1/2) (1/2) (1/2) (1/2).
(** What the accelerometer measures at rest then. *)
Definition weight : v3 := V3 0 (981/100) 0.

Definition direction (i : nat) : R :=
  match i with
  | 0%nat => -300 | 1%nat => 600 | 3%nat => 1 | 4%nat => -2
  | 6%nat => 981/100 | 7%nat => 981/200 | 8%nat => 2943/100 | _ => 0
  end.

Lemma form_split dt q ew ea na nba nw nbw x :
  rsum 15 (fun i => rsum 15 (fun j => x i * calc_q_core std_ix dt q ew ea (Noise na nba nw nbw) zzero (Z.of_nat i) (Z.of_nat j) * x j)) =
  rsum 15 (fun i => rsum 15 (fun j => x i * target dt na nba 0 nbw (hrot q) i j * x j)) +
  nw * nw * dt * rsum 15 (fun i => rsum 15 (fun j => x i * lead (u_of q ea 0) (u_of q ea 1) (u_of q ea 2) (u_of q ea 3) (u_of q ea 4)
    (u_of q ea 5) (u_of q ea 6) i j * x j)) +
  rsum 15 (fun i => rsum 15 (fun j => x i * dev dt nw nbw (u_of q ea 0) (u_of q ea 1) (u_of q ea 2) (u_of q ea 3) (u_of q ea 4)
    (u_of q ea 5) (u_of q ea 6) (v3x ew * dt) (v3y ew * dt) (v3z ew * dt) i j * x j)).
Proof.
  assert (E : forall c f, c * rsum 15 f = rsum 15 (fun i => c * f i)).
  { intros c f. cbn [rsum]. ring. }
  rewrite E, <- !rsum_plus. apply rsum_eq. intros i Hi. rewrite E, <- !rsum_plus. apply rsum_eq. intros j Hj.
  rewrite noise_split, gyr_entry by assumption.
  rewrite core_entry; [|reflexivity|right; split; reflexivity|assumption|assumption]. cbn [n_acc n_accbias n_gyr n_gyrbias].
  assert (T : target dt na nba 0 nbw (hrot q) i j = target dt na nba 0 0 (hrot q) i j + target dt 0 0 0 nbw (hrot q) i j).
  { unfold target, coef, acc_coef, gyr_coef. destruct (i / 3)%nat as [|[|[|[|[|k]]]]]; destruct (j / 3)%nat as [|[|[|[|[|l]]]]]; ring. }
  rewrite T. ring.
Qed.

Lemma u_rest : u_of upright weight 0 = 981/100 /\ u_of upright weight 1 = -(981/100) /\ u_of upright weight 2 = 0 /\
  u_of upright weight 3 = 0 /\ u_of upright weight 4 = 0 /\ u_of upright weight 5 = 0 /\ u_of upright weight 6 = 0.
Proof.
  repeat split; cbv [u_of upright weight qw qx qy qz v3x v3y v3z
    t362 t363 t364 t345 t344 t356 t357 t348 t349 t381 t380 t391 t366 t367 t350 t351 t352 t353 t384 t382 t383 t376 t358 t368
    t388 t386 t387 t390 t389 t407 t370 t372 t394 t392 t393 t369 t397 t395 t396]; lra.
Qed.

Lemma rest_form na nba nw nbw : nw <> 0 -> na * na <= 64 * (nw * nw) -> nba * nba <= na * na -> nbw * nbw <= nw * nw ->
  rsum 15 (fun i => rsum 15 (fun j => direction i *
    calc_q_core std_ix (5/1000) upright v3zero weight (Noise na nba nw nbw) zzero (Z.of_nat i) (Z.of_nat j) * direction j)) < 0.
Proof.
  intros H0 H1 H2 H3. assert (H : 0 < nw * nw) by (apply Rsqr_pos_lt; exact H0).
  assert (0 <= nba * nba) by apply Rle_0_sqr. assert (0 <= nbw * nbw) by apply Rle_0_sqr.
  rewrite form_split, target_form, lead_form.
  destruct u_rest as (-> & -> & -> & -> & -> & -> & ->).
  unfold axis_form, gyro_form, hrot, upright, v3zero. cbv beta.
  cbn [rsum dev direction v3x v3y v3z qw qx qy qz]. lra.
Qed.
