(** C55: the process noise (calc_q_core) is the integral of the sensor noise that the
    transition matrix (calc_fd) spreads over the errors. *)

From Coq Require Import Reals ZArith List Bool Lia Lra.
From Coquelicot Require Import Coquelicot.
From Verif Require Import Outcome Geom StateList Propagate QCore ProcNoise ProcNoiseProofs QdProofs
  TransitionSpec TransitionProofs UnitsProofs PropertiesTransition NoiseSpec NoiseProofs NoiseOrder.
Import ListNotations.
Open Scope R_scope.

(** The rate at which noise enters the covariance of the errors i and j, a time [t] into the step. *)
Definition rate (q : quat) (ew ea : v3) (nz : noise) (i j : nat) (t : R) : R :=
  noise_rate (Fd_of q ew ea t) (qrot q) (n_acc nz) (n_gyr nz) (n_gyrbias nz) (n_accbias nz) i j.

Definition C55_full : Prop := forall q ew ea nz i j, qnorm2 q = 1 -> (i < 15)%nat -> (j < 15)%nat ->
  integral_of (rate q ew ea nz i j) (fun t => Qd_of t q ew ea nz i j).

(** Missing here: noise of the gyroscope and its bias, and noise of the accelerometer bias in the
    blocks (p,p), (p,v), (v,p). *)
Theorem C55_accelerometer_partial : forall q ew ea na nba i j, qnorm2 q = 1 -> (i < 15)%nat -> (j < 15)%nat ->
  (3 <= i /\ 3 <= j \/ 6 <= i \/ 6 <= j)%nat \/ nba = 0 ->
  integral_of (rate q ew ea (Noise na nba 0 0) i j) (fun t => Qd_of t q ew ea (Noise na nba 0 0) i j).
Proof.
  intros q ew ea na nba i j Hq Hi Hj H.
  assert (L : low_block i j = true \/ nba = 0).
  { destruct H as [H|H]; [left|now right]. unfold low_block.
    rewrite !orb_true_iff, andb_true_iff, !Nat.leb_le. tauto. }
  assert (E : forall t, Qd_of t q ew ea (Noise na nba 0 0) i j =
     t * A0 (qrot q) na nba 0 i j + t * t / 2 * A1 (qrot q) na nba 0 i j + t * t * t / 3 * A2 (qrot q) na nba i j).
  { intros t. unfold Qd_of. rewrite <- (hM_unit q Hq). now apply q_accel. }
  split; [rewrite E; field|]. intros t. apply is_derive_Reals.
  apply (is_derive_ext (fun t => t * A0 (qrot q) na nba 0 i j + t * t / 2 * A1 (qrot q) na nba 0 i j +
           t * t * t / 3 * A2 (qrot q) na nba i j)). { intros s. symmetry. apply E. }
  unfold rate. cbn [n_acc n_gyr n_gyrbias n_accbias]. rewrite rate_accel by assumption.
  auto_derive; [exact Logic.I|field].
Qed.
Print Assumptions C55_accelerometer_partial.

(** The integral always exists, so the next theorem is about something. *)
Lemma total_continuous : forall n (f : nat -> R -> R) (x : R), (forall k, (k < n)%nat -> continuous (f k) x) -> continuous (fun t => total n (fun k => f k t)) x.
Proof.
  induction n as [|n IH]; intros f x H; cbn [total]; [apply continuous_const|].
  apply (continuous_plus (fun t => total n (fun k => f k t)) (f n)); [apply IH; intros k Hk; apply H; lia|apply H; lia].
Qed.
Lemma rate_continuous : forall q ew ea nz i j x, (i < 15)%nat -> (j < 15)%nat -> continuous (rate q ew ea nz i j) x.
Proof.
  intros q ew ea nz i j x Hi Hj. unfold rate, noise_rate.
  assert (S : forall i k, (i < 15)%nat -> continuous (fun t => spread (Fd_of q ew ea t) (qrot q) i k) x).
  { intros i' k Hi'. unfold spread. apply total_continuous. intros l Hl.
    apply (continuous_mult (fun t => Fd_of q ew ea t i' l) (fun _ => inject (qrot q) l k)); [|apply continuous_const].
    apply (ex_derive_continuous (fun t => Fd_of q ew ea t i' l)). eexists. apply is_derive_Reals.
    apply (C48_transition_flow q ew ea i' l Hi' Hl). }
  apply total_continuous. intros k Hk.
  apply (continuous_mult (fun t => density _ _ _ _ k * spread (Fd_of q ew ea t) (qrot q) i k)); [|now apply S].
  apply (continuous_mult (fun _ => density (n_acc nz) (n_gyr nz) (n_gyrbias nz) (n_accbias nz) k)); [apply continuous_const|now apply S].
Qed.
Theorem C55_integral_exists : forall q ew ea nz i j, (i < 15)%nat -> (j < 15)%nat -> exists I, integral_of (rate q ew ea nz i j) I.
Proof.
  intros q ew ea nz i j Hi Hj. exists (fun t => RInt (rate q ew ea nz i j) 0 t). split; [exact (RInt_point 0 (rate q ew ea nz i j))|].
  intros t. apply is_derive_Reals. apply (is_derive_RInt (rate q ew ea nz i j) _ 0).
  - apply filter_forall. intros u. apply (@RInt_correct R_CompleteNormedModule).
    apply (ex_RInt_continuous (rate q ew ea nz i j)). intros z _. now apply rate_continuous.
  - now apply rate_continuous.
Qed.
Print Assumptions C55_integral_exists.

(** With all noise but that of the gyroscope the two agree up to the third power of the step. *)
Theorem C55_third_order_partial : forall q ew ea nz i j I, qnorm2 q = 1 -> (i < 15)%nat -> (j < 15)%nat -> n_gyr nz = 0 ->
  integral_of (rate q ew ea nz i j) I ->
  exists K, forall t, Rabs t <= 1 -> Rabs (Qd_of t q ew ea nz i j - I t) <= K * Rabs t ^ 3.
Proof.
  intros q ew ea [na nba nw nbw] i j I Hq Hi Hj Hw HI. cbn in Hw. subst nw.
  exact (q_integral q ew ea na nba nbw i j I Hq Hi Hj HI).
Qed.
Print Assumptions C55_third_order_partial.

(** Gyroscope noise: hovering, the velocity/attitude entry is off in first order. *)
Lemma hover_rate : forall g nw t, rate qone v3zero (V3 0 0 g) (Noise 0 0 nw 0) 4 6 t = - (t * g * (nw * nw)).
Proof.
  intros g nw t. unfold rate, noise_rate. cbn [n_acc n_gyr n_gyrbias n_accbias].
  assert (S : forall i k, (i < 15)%nat -> spread (Fd_of qone v3zero (V3 0 0 g) t) (qrot qone) i k =
     total 15 (fun l => of_blocks (still_block (qrot qone) (m3mul (qrot qone) (skew (V3 0 0 g))) t) i l * inject (qrot qone) l k)).
  { intros i k Hi. unfold spread. apply total_ext. intros l Hl. rewrite Fd_blocks by assumption. f_equal.
    unfold of_blocks. apply still; now apply block_lt. }
  cbn [total]. rewrite !S by lia. cbn [total]. unfold inject, of_blocks, density.
  cbn [Nat.div Nat.modulo Nat.divmod fst snd Nat.sub still_block inject_block].
  unfold qrot, qone; m3_entries; lazy beta iota delta [qw qx qy qz]; field.
Qed.

Theorem C55_gyro_refuted : exists q ew ea nz i j I, qnorm2 q = 1 /\ (i < 15)%nat /\ (j < 15)%nat /\
  integral_of (rate q ew ea nz i j) I /\
  ~ exists K, forall t, Rabs t <= 1 -> Rabs (Qd_of t q ew ea nz i j - I t) <= K * Rabs t ^ 2.
Proof.
  exists qone, v3zero, (V3 0 0 10), (Noise 0 0 1 0), 4%nat, 6%nat, (fun t => - (5 * (t * t))).
  split; [unfold qnorm2, qone; cbn [qw qx qy qz]; ring|]. split; [lia|split; [lia|split]].
  - split; [ring|]. intros t. rewrite hover_rate. apply is_derive_Reals. auto_derive; [exact Logic.I|ring].
  - intros [K H].
    assert (P : forall t, 0 < t <= 1 -> 10 <= K * t).
    { intros t Ht. specialize (H t). rewrite hover_entry in H.
      replace (t * 10 * (1 * 1) - - (5 * (t * t))) with (t * (10 + 5 * t)) in H by ring.
      rewrite !Rabs_pos_eq in H by nra. specialize (H ltac:(lra)). nra. }
    pose proof (P 1 ltac:(lra)) as P1.
    specialize (P (/ (K + 1))). assert (0 < K + 1) by lra.
    assert (0 < / (K + 1) <= 1).
    { split; [now apply Rinv_0_lt_compat|]. rewrite <- Rinv_1. apply Rinv_le_contravar; lra. }
    specialize (P H1). assert (K * / (K + 1) < 1).
    { apply (Rmult_lt_reg_r (K + 1)); [assumption|]. rewrite Rmult_assoc, Rinv_l by lra. lra. }
    lra.
Qed.
Print Assumptions C55_gyro_refuted.

Theorem C55_full_refuted : ~ C55_full.
Proof.
  intros F. pose proof (F qone v3zero (V3 0 0 10) (Noise 0 0 1 0) 4%nat 6%nat) as [_ D];
    [unfold qnorm2, qone; cbn [qw qx qy qz]; ring|lia|lia|].
  specialize (D 0). rewrite hover_rate in D.
  assert (E : derivable_pt_lim (fun t => Qd_of t qone v3zero (V3 0 0 10) (Noise 0 0 1 0) 4 6) 0 10).
  { apply is_derive_Reals. apply (is_derive_ext (fun t => t * 10 * (1 * 1))); [intros t; symmetry; apply hover_entry|].
    auto_derive; [exact Logic.I|ring]. }
  pose proof (uniqueness_limite _ _ _ _ D E). lra.
Qed.
Print Assumptions C55_full_refuted.

(** Accelerometer noise at rest: the position variance. *)
Example C55_ex :
  (forall t, rate qone v3zero v3zero (Noise 2 0 0 0) 0 0 t = 4 * (t * t)) /\
  (forall t, Qd_of t qone v3zero v3zero (Noise 2 0 0 0) 0 0 = 4 * (t * t * t) / 3) /\
  integral_of (rate qone v3zero v3zero (Noise 2 0 0 0) 0 0) (fun t => Qd_of t qone v3zero v3zero (Noise 2 0 0 0) 0 0).
Proof.
  assert (U : qnorm2 qone = 1) by (unfold qnorm2, qone; cbn [qw qx qy qz]; ring).
  split; [|split].
  - intros t. unfold rate. cbn [n_acc n_gyr n_gyrbias n_accbias]. rewrite rate_accel by (lia || now right).
    coefs2. unfold qrot, qone; m3_entries; lazy beta iota delta [qw qx qy qz]; field.
  - intros t. unfold Qd_of. rewrite q_accel by (lia || now right).
    coefs2. unfold hrot, qone; lazy beta iota delta [qw qx qy qz m3at r1 r2 r3 v3x v3y v3z]; field.
  - apply C55_accelerometer_partial; [exact U|lia|lia|now right].
Qed.
