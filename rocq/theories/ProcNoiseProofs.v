(** Entries of the core process noise where it is a covariance. *)

From Coq Require Import Reals ZArith List Bool Lia Lra Psatz.
From Verif Require Import Outcome Geom StateList Propagate QCore ProcNoise.
Import ListNotations.

(** ** Expected entries: accelerometer noise seen through the attitude matrix, gyroscope noise
       on the attitude itself. *)
Section Target.
Local Open Scope R_scope.
Variables (dt na nba nw nbw : R) (C : nat -> nat -> R).

Definition cc (i k : nat) : R :=
  match (i / 3)%nat with
  | 0%nat | 1%nat => C (i mod 3) k
  | _ => if Nat.eqb (i mod 3) k then 1 else 0
  end.
Definition acc_coef (a b : nat) : R :=
  match a, b with
  | 0%nat, 0%nat => dt * dt * dt * (na * na) * (1/3)
  | 0%nat, 1%nat | 1%nat, 0%nat => dt * dt * (na * na) * (1/2)
  | 1%nat, 1%nat => dt * (na * na) + dt * dt * dt * (nba * nba) * (1/3)
  | 0%nat, 4%nat | 4%nat, 0%nat => - (dt * dt * dt * (nba * nba) * (1/6))
  | 1%nat, 4%nat | 4%nat, 1%nat => - (dt * dt * (nba * nba) * (1/2))
  | 4%nat, 4%nat => dt * (nba * nba)
  | _, _ => 0
  end.
Definition gyr_coef (a b : nat) : R :=
  match a, b with
  | 2%nat, 2%nat => dt * (nw * nw) + dt * dt * dt * (nbw * nbw) * (1/3)
  | 2%nat, 3%nat | 3%nat, 2%nat => - (dt * dt * (nbw * nbw) * (1/2))
  | 3%nat, 3%nat => dt * (nbw * nbw)
  | _, _ => 0
  end.
Definition coef (a b : nat) : R := acc_coef a b + gyr_coef a b.
Definition target (i j : nat) : R :=
  coef (i / 3) (j / 3) * (cc i 0 * cc j 0 + cc i 1 * cc j 1 + cc i 2 * cc j 2).
End Target.

(** Attitude matrix as CalcQCore computes it (homogeneous form). *)
Definition hrot (q : quat) (i k : nat) : R :=
  (match i, k with
  | 0%nat, 0%nat => qw q * qw q + qx q * qx q - qy q * qy q - qz q * qz q
  | 0%nat, 1%nat => 2 * qx q * qy q - 2 * qw q * qz q
  | 0%nat, _ => 2 * qw q * qy q + 2 * qx q * qz q
  | 1%nat, 0%nat => 2 * qw q * qz q + 2 * qx q * qy q
  | 1%nat, 1%nat => qw q * qw q - qx q * qx q + qy q * qy q - qz q * qz q
  | 1%nat, _ => 2 * qy q * qz q - 2 * qw q * qx q
  | _, 0%nat => 2 * qx q * qz q - 2 * qw q * qy q
  | _, 1%nat => 2 * qw q * qx q + 2 * qy q * qz q
  | _, _ => qw q * qw q - qx q * qx q - qy q * qy q + qz q * qz q
  end)%R.

(** ** The expected entries form a covariance *)

Lemma target_sym : forall dt na nba nw nbw C i j, (i < 15)%nat -> (j < 15)%nat ->
  target dt na nba nw nbw C i j = target dt na nba nw nbw C j i.
Proof.
  intros dt na nba nw nbw C i j Hi Hj. unfold target.
  replace (coef dt na nba nw nbw (i / 3) (j / 3)) with (coef dt na nba nw nbw (j / 3) (i / 3)); [ring|].
  generalize (i / 3)%nat (j / 3)%nat. intros a b. unfold coef, acc_coef, gyr_coef.
  destruct a as [|[|[|[|[|a]]]]]; destruct b as [|[|[|[|[|b]]]]]; reflexivity.
Qed.

Fixpoint rsum (n : nat) (f : nat -> R) : R :=
  match n with O => 0%R | S k => (rsum k f + f k)%R end.

Section Squares.
Local Open Scope R_scope.
Variables (dt na nba nw nbw : R) (C : nat -> nat -> R) (x : nat -> R).
Let n := na * na.
Let m := nba * nba.
Let nr := n - m * (dt * dt) * (1/9).
Let av (k : nat) : R := C 0%nat k * x 0%nat + C 1%nat k * x 1%nat + C 2%nat k * x 2%nat.
Let bv (k : nat) : R := C 0%nat k * x 3%nat + C 1%nat k * x 4%nat + C 2%nat k * x 5%nat.
Let sq (a : R) : R := a * a.
Definition axis_form (a b c : R) : R :=
  nr * dt * sq (b + dt * a * (1/2)) + nr * (dt * dt * dt) * (1/12) * sq a +
  m * dt * sq (c - dt * dt * a * (1/6) - dt * b * (1/2)) +
  m * (dt * dt * dt) * (7/36) * sq (b - dt * a * (1/7)) +
  m * (dt * dt * dt * dt * dt) * (1/108 - 1/252) * sq a.
Definition gyro_form (q w : R) : R :=
  nw * nw * dt * sq q + nbw * nbw * dt * sq (w - dt * q * (1/2)) + nbw * nbw * (dt * dt * dt) * (1/12) * sq q.

Lemma target_form :
  rsum 15 (fun i => rsum 15 (fun j => x i * target dt na nba nw nbw C i j * x j)) =
  axis_form (av 0) (bv 0) (x 12%nat) + axis_form (av 1) (bv 1) (x 13%nat) + axis_form (av 2) (bv 2) (x 14%nat) +
  (gyro_form (x 6%nat) (x 9%nat) + gyro_form (x 7%nat) (x 10%nat) + gyro_form (x 8%nat) (x 11%nat)).
Proof.
  unfold axis_form, gyro_form, target, cc, coef, acc_coef, gyr_coef, nr, m, n, av, bv, sq.
  cbn [rsum Nat.div Nat.modulo Nat.divmod Nat.eqb Nat.sub fst snd].
  field.
Qed.

Lemma target_form_pos : 0 <= dt -> m * (dt * dt) <= 9 * n ->
  0 <= rsum 15 (fun i => rsum 15 (fun j => x i * target dt na nba nw nbw C i j * x j)).
Proof.
  intros Hdt Hm. rewrite target_form.
  assert (Hs : forall a, 0 <= sq a) by (intros a; unfold sq; nra).
  assert (Hn : 0 <= nr) by (unfold nr; lra).
  assert (Hm0 : 0 <= m) by (unfold m; nra).
  assert (H3 : 0 <= dt * dt * dt) by (apply Rmult_le_pos; nra).
  assert (H5 : 0 <= dt * dt * dt * dt * dt) by (apply Rmult_le_pos; [apply Rmult_le_pos|]; nra).
  assert (Ha : forall a b c, 0 <= axis_form a b c).
  { intros a b c. unfold axis_form. clearbody nr. clearbody m. clearbody sq.
    repeat apply Rplus_le_le_0_compat; repeat apply Rmult_le_pos; try apply Hs; try assumption; lra. }
  assert (Hg : forall q w, 0 <= gyro_form q w).
  { intros q w. unfold gyro_form.
    assert (H1 : 0 <= nw * nw) by nra. assert (H2 : 0 <= nbw * nbw) by nra.
    clearbody sq. revert H1 H2. generalize (nw * nw) (nbw * nbw). intros N1 N2 H1 H2.
    repeat apply Rplus_le_le_0_compat; repeat apply Rmult_le_pos; try apply Hs; try assumption; lra. }
  pose proof (Ha (av 0) (bv 0) (x 12%nat)). pose proof (Ha (av 1) (bv 1) (x 13%nat)).
  pose proof (Ha (av 2) (bv 2) (x 14%nat)). pose proof (Hg (x 6%nat) (x 9%nat)).
  pose proof (Hg (x 7%nat) (x 10%nat)). pose proof (Hg (x 8%nat) (x 11%nat)). lra.
Qed.
End Squares.

(** ** The entries the code writes *)

Definition std_ix : core_ix := CoreIx 0 3 6 9 12.

(** The entries CalcQCore writes when the core variables come first. *)
Definition core_cells : list (Z * Z) :=
  map fst (qd_writes 0 0 0 0 0 0 0 0 0 0 0 0 0 0 0 0 0 0 0 0 0 0 0 0 3 6 9 12).
Definition is_core_cell (r c : Z) : bool := existsb (fun p => (r =? fst p)%Z && (c =? snd p)%Z) core_cells.

Ltac unf_t := 
  cbv [
        t343 t348 t349 t344 t356 t357 t345 t350 t351 t352 t353 t346 t347 t354 t355 t358 t359 t360
    t361 t363 t364 t362 t365 t366 t367 t368 t369 t370 t371 t372 t373 t374 t375 t376 t377 t378 t379
    t380 t391 t381 t382 t383 t384 t385 t386 t387 t388 t389 t407 t390 t392 t393 t394 t395 t396 t397
    t398 t399 t400 t401 t402 t403 t404 t405 t406 t421 t422 t423 t424 t408 t409 t410 t411 t463 t464
    t465 t412 t413 t414 t415 t416 t417 t418 t419 t453 t454 t420 t426 t427 t425 t428 t429 t430 t431
    t432 t433 t434 t435 t436 t443 t437 t438 t511 t439 t440 t441 t442 t444 t445 t446 t447 t448 t449
    t450 t451 t452 t455 t456 t457 t458 t459 t460 t461 t462 t466 t467 t468 t469 t470 t471 t472 t479
    t473 t474 t475 t476 t477 t492 t478 t480 t481 t482 t483 t484 t486 t485 t487 t488 t489 t490 t491
    t493 t541 t494 t495 t496 t527 t497 t498 t499 t500 t501 t502 t503 t504 t505 t506 t507 t508 t509
    t510 t512 t513 t514 t515 t516 t517 t518 t519 t520 t521 t522 t523 t524 t525 t526 t528 t529 t530
    t531 t532 t533 t534 t535 t536 t537 t538 t539 t540 t542 t543 t544 t545 t546 t547 t548 t549 t550
    t551 t552 t553 t554 t555 t556 t557 t558 t559 t560 t561 t562 t563 t564 t565 t566 t567 t568 t569
    t570 t571 t572 t573 t574 t575 t576 t577 t578 t579 t580 t581 t582 t583 t584 t585 t586 t587 t588
    t589 t590 t591 t592 t593 t594 t595 t596 t597 t598 t599 t600 t601 t602 t603 t604 t605 t606 t607
    t608 t609 t610 t611 t612 t613 t614 t615 t616 t617 t618 t619 t620 t621 t622 t623 t624 t625 t626
    t627 t628 t629 t630 t631 t632 t633 t634 t635 t636 t637 t638 t639 t640 t641 t642 t643 t644 t645
    t646 t647 t648 t649 t650 t651 t652 t653 t654 t655 t656 t657 t658 t659 t660 t661 t662 t663].

Ltac all_cases k H :=
  lazymatch k with
  | S ?k' => lazymatch type of H with (?i < S _)%nat => 
     destruct i as [|i]; [|let H' := fresh H in assert (H' : (i < k')%nat) by lia; clear H; all_cases k' H'] end
  | O => exfalso; lia
  end.

Lemma core_entry : forall dt q ew ea nz Q i j,
  (forall r c, (r < 15)%Z -> (c < 15)%Z -> is_core_cell r c = false -> Q r c = 0%R) ->
  (ew = v3zero /\ ea = v3zero) \/ (n_gyr nz = 0%R /\ n_gyrbias nz = 0%R) ->
  (i < 15)%nat -> (j < 15)%nat ->
  calc_q_core std_ix dt q ew ea nz Q (Z.of_nat i) (Z.of_nat j) =
  target dt (n_acc nz) (n_accbias nz) (n_gyr nz) (n_gyrbias nz) (hrot q) i j.
Proof.
  intros dt q ew ea nz Q i j HQ Hg Hi Hj.
  destruct q as [q1 q2 q3 q4]. destruct ew as [e1 e2 e3]. destruct ea as [a1 a2 a3]. destruct nz as [na nba nw nbw].
  cbn [n_acc n_accbias n_gyr n_gyrbias] in *.
  set (f := calc_q_core _ _ _ _ _ _ _).
  all_cases 15%nat Hi; all_cases 15%nat Hj.
  all: match goal with |- ?f (Z.of_nat ?x) (Z.of_nat ?y) = _ => let a := constr:(Z.of_nat x) in let b := constr:(Z.of_nat y) in
    let va := eval vm_compute in a in let vb := eval vm_compute in b in change (f a b) with (f va vb) end.
  all: subst f; unfold calc_q_core, qd_writes;
       cbv beta iota zeta delta [fold_left put xp xv xq xbw xba std_ix Z.add Z.eqb Pos.eqb Pos.add Pos.succ andb
         qw qx qy qz v3x v3y v3z n_acc n_accbias n_gyr n_gyrbias].
  all: try rewrite HQ by (reflexivity || vm_compute; reflexivity); unfold target, coef, acc_coef, gyr_coef, cc, hrot; cbn [Nat.div Nat.modulo Nat.divmod Nat.eqb Nat.sub fst snd qw qx qy qz].
  all: destruct Hg as [[Hw Ha]|[-> ->]]; [injection Hw as -> -> ->; injection Ha as -> -> ->|]; unf_t; field.
Qed.

