(** The core process noise of ordinary flight as a quadratic form: the parts of CalcQCore that
    come from the gyroscope, their leading order and what is left. *)

From Coq Require Import Reals ZArith List Bool Lia Lra Psatz.
From Verif Require Import Outcome Geom StateList Propagate QCore ProcNoise ProcNoiseProofs.
Import ListNotations.
Local Open Scope R_scope.

(** ** Entries *)

Section Entries.
(** [u0 ... u6]: cross products of the rows of the attitude matrix with the specific force;
    [e1 e2 e3]: rotation over the step. *)
Variables (dt nw nbw : R) (u0 u1 u2 u3 u4 u5 u6 e1 e2 e3 : R).

(** Order zero in the rotation, in units of [nw * nw * dt]. *)
Definition lead (i j : nat) : R :=
  match i, j with
  | 3%nat, 3%nat => 3 * u0 * u0
  | 3%nat, 5%nat => u0 * u4 + u0 * u5 - u0 * u6
  | 3%nat, 6%nat => - u0
  | 3%nat, 8%nat => - u0
  | 4%nat, 3%nat => u0 * u1 - u0 * u2 + u0 * u3
  | 4%nat, 4%nat => u1 * u1 + u2 * u2 + u3 * u3
  | 4%nat, 5%nat => u1 * u5 - u2 * u4 - u3 * u6
  | 4%nat, 6%nat => u2
  | 4%nat, 7%nat => - u3
  | 4%nat, 8%nat => - u1
  | 5%nat, 3%nat => u0 * u4 + u0 * u5 - u0 * u6
  | 5%nat, 4%nat => u1 * u5 - u2 * u4 - u3 * u6
  | 5%nat, 5%nat => u4 * u4 + u5 * u5 + u6 * u6
  | 5%nat, 6%nat => - u4
  | 5%nat, 7%nat => u6
  | 5%nat, 8%nat => - u5
  | 6%nat, 3%nat => - u0
  | 6%nat, 5%nat => - u4
  | 6%nat, 6%nat => 1
  | 7%nat, 3%nat => - u0
  | 7%nat, 4%nat => - u3
  | 7%nat, 5%nat => u6
  | 7%nat, 7%nat => 1
  | 8%nat, 3%nat => - u0
  | 8%nat, 4%nat => - u1
  | 8%nat, 5%nat => - u5
  | 8%nat, 8%nat => 1
  | _, _ => 0
  end.

(** The rest. *)
Definition dev (i j : nat) : R :=
  match i, j with
  | 0%nat, 3%nat => nw * nw * (dt * dt * dt) * (- (1/2) * u0 * u0)
  | 0%nat, 5%nat => nw * nw * (dt * dt * dt) * (- (1/6) * u0 * u4 - (1/6) * u0 * u5 + (1/6) * u0 * u6)
  | 0%nat, 6%nat => nw * nw * (dt * dt * dt) * ((1/6) * u0)
  | 0%nat, 8%nat => nw * nw * (dt * dt * dt) * ((1/6) * u0)
  | 1%nat, 3%nat => nw * nw * (dt * dt * dt) * (- (1/6) * u0 * u1 + (1/6) * u0 * u2 - (1/6) * u0 * u3)
  | 1%nat, 4%nat => nw * nw * (dt * dt * dt) * (- (1/6) * u1 * u1 - (1/6) * u2 * u2 - (1/6) * u3 * u3)
  | 1%nat, 5%nat => nw * nw * (dt * dt * dt) * (- (1/6) * u1 * u5 + (1/6) * u2 * u4 + (1/6) * u3 * u6)
  | 1%nat, 6%nat => nw * nw * (dt * dt * dt) * (- (1/6) * u2)
  | 1%nat, 7%nat => nw * nw * (dt * dt * dt) * ((1/6) * u3)
  | 1%nat, 8%nat => nw * nw * (dt * dt * dt) * ((1/6) * u1)
  | 2%nat, 3%nat => nw * nw * (dt * dt * dt) * (- (1/6) * u0 * u4 - (1/6) * u0 * u5 + (1/6) * u0 * u6)
  | 2%nat, 4%nat => nw * nw * (dt * dt * dt) * (- (1/6) * u1 * u5 + (1/6) * u2 * u4 + (1/6) * u3 * u6)
  | 2%nat, 5%nat => nw * nw * (dt * dt * dt) * (- (1/6) * u4 * u4 - (1/6) * u5 * u5 - (1/6) * u6 * u6)
  | 2%nat, 6%nat => nw * nw * (dt * dt * dt) * ((1/6) * u4)
  | 2%nat, 7%nat => nw * nw * (dt * dt * dt) * (- (1/6) * u6)
  | 2%nat, 8%nat => nw * nw * (dt * dt * dt) * ((1/6) * u5)
  | 3%nat, 0%nat => nw * nw * (dt * dt * dt) * (- (1/2) * u0 * u0)
  | 3%nat, 2%nat => nw * nw * (dt * dt * dt) * (- (1/6) * u0 * u4 - (1/6) * u0 * u5 + (1/6) * u0 * u6)
  | 3%nat, 3%nat => nw * nw * dt * (u0 * u0 * e2 - u0 * u0 * e3 + (1/3) * u0 * u0 * e1 * e2 + (1/3) * u0 * u0 * e1 * e3
      - u0 * u0 * e2 * e2 - u0 * u0 * e3 * e3)
  | 3%nat, 5%nat => nw * nw * dt * ((1/2) * u0 * u4 * e2 + (1/2) * u0 * u5 * e2 - (1/2) * u0 * u4 * e3 + (1/2) * u0 * u6
      * e3 + (1/6) * u0 * u4 * e1 * e2 - (1/6) * u0 * u6 * e1 * e2 + (1/6) * u0 * u4 * e1 * e3 + (1/6) * u0 * u5 * e1 * e3 -
      (2/3) * u0 * u4 * e2 * e2 - (1/6) * u0 * u5 * e2 * e2 + (1/6) * u0 * u6 * e2 * e2 - (2/3) * u0 * u4 * e3 * e3 - (1/6)
      * u0 * u5 * e3 * e3 + (1/6) * u0 * u6 * e3 * e3)
  | 3%nat, 6%nat => nw * nw * dt * (- (1/2) * u0 * e2 + (1/2) * u0 * e3 - (1/6) * u0 * e1 * e2 - (1/6) * u0 * e1 * e3 +
      (2/3) * u0 * e2 * e2 + (2/3) * u0 * e3 * e3)
  | 3%nat, 8%nat => nw * nw * dt * (- (1/2) * u0 * e2 - (1/6) * u0 * e1 * e3 + (1/6) * u0 * e2 * e2 + (1/6) * u0 * e3 *
      e3)
  | 3%nat, 9%nat => nbw * nbw * (dt * dt * dt) * (- (1/6) * u0)
  | 3%nat, 11%nat => nbw * nbw * (dt * dt * dt) * (- (1/6) * u0)
  | 4%nat, 0%nat => nw * nw * (dt * dt * dt) * (- (1/6) * u0 * u1 + (1/6) * u0 * u2 - (1/6) * u0 * u3)
  | 4%nat, 1%nat => nw * nw * (dt * dt * dt) * (- (1/6) * u1 * u1 - (1/6) * u2 * u2 - (1/6) * u3 * u3)
  | 4%nat, 2%nat => nw * nw * (dt * dt * dt) * (- (1/6) * u1 * u5 + (1/6) * u2 * u4 + (1/6) * u3 * u6)
  | 4%nat, 3%nat => nw * nw * dt * ((1/2) * u0 * u1 * e2 - (1/2) * u0 * u2 * e2 + (1/2) * u0 * u2 * e3 - (1/2) * u0 * u3
      * e3 - (1/6) * u0 * u2 * e1 * e2 + (1/6) * u0 * u3 * e1 * e2 + (1/6) * u0 * u1 * e1 * e3 - (1/6) * u0 * u2 * e1 * e3 -
      (1/6) * u0 * u1 * e2 * e2 + (2/3) * u0 * u2 * e2 * e2 - (1/6) * u0 * u3 * e2 * e2 - (1/6) * u0 * u1 * e3 * e3 + (2/3)
      * u0 * u2 * e3 * e3 - (1/6) * u0 * u3 * e3 * e3)
  | 4%nat, 4%nat => nw * nw * dt * (- u1 * u2 * e2 + u2 * u3 * e3 - (1/3) * u2 * u3 * e1 * e2 - (1/3) * u1 * u2 * e1 *
      e3 + (1/3) * u1 * u2 * e2 * e2 + (1/3) * u2 * u3 * e2 * e2 - (1/3) * u2 * u2 * e2 * e2 + (1/3) * u1 * u2 * e3 * e3 +
      (1/3) * u2 * u3 * e3 * e3 - (1/3) * u2 * u2 * e3 * e3)
  | 4%nat, 5%nat => nw * nw * dt * ((1/2) * u1 * u4 * e2 - (1/2) * u2 * u5 * e2 - (1/2) * u2 * u6 * e3 - (1/2) * u3 * u4
      * e3 + (1/6) * u2 * u6 * e1 * e2 + (1/6) * u3 * u4 * e1 * e2 + (1/6) * u1 * u4 * e1 * e3 - (1/6) * u2 * u5 * e1 * e3 -
      (1/6) * u1 * u4 * e2 * e2 + (1/3) * u2 * u4 * e2 * e2 + (1/6) * u2 * u5 * e2 * e2 - (1/6) * u2 * u6 * e2 * e2 - (1/6)
      * u3 * u4 * e2 * e2 - (1/6) * u1 * u4 * e3 * e3 + (1/3) * u2 * u4 * e3 * e3 + (1/6) * u2 * u5 * e3 * e3 - (1/6) * u2 *
      u6 * e3 * e3 - (1/6) * u3 * u4 * e3 * e3)
  | 4%nat, 6%nat => nw * nw * dt * (- (1/2) * u1 * e2 + (1/2) * u3 * e3 - (1/6) * u3 * e1 * e2 - (1/6) * u1 * e1 * e3 +
      (1/6) * u1 * e2 * e2 - (1/3) * u2 * e2 * e2 + (1/6) * u3 * e2 * e2 + (1/6) * u1 * e3 * e3 - (1/3) * u2 * e3 * e3 +
      (1/6) * u3 * e3 * e3)
  | 4%nat, 7%nat => nw * nw * dt * (- (1/2) * u2 * e3 + (1/6) * u2 * e1 * e2 - (1/6) * u2 * e2 * e2 - (1/6) * u2 * e3 *
      e3)
  | 4%nat, 8%nat => nw * nw * dt * ((1/2) * u2 * e2 + (1/6) * u2 * e1 * e3 - (1/6) * u2 * e2 * e2 - (1/6) * u2 * e3 *
      e3)
  | 4%nat, 9%nat => nbw * nbw * (dt * dt * dt) * ((1/6) * u2)
  | 4%nat, 10%nat => nbw * nbw * (dt * dt * dt) * (- (1/6) * u3)
  | 4%nat, 11%nat => nbw * nbw * (dt * dt * dt) * (- (1/6) * u1)
  | 5%nat, 0%nat => nw * nw * (dt * dt * dt) * (- (1/6) * u0 * u4 - (1/6) * u0 * u5 + (1/6) * u0 * u6)
  | 5%nat, 1%nat => nw * nw * (dt * dt * dt) * (- (1/6) * u1 * u5 + (1/6) * u2 * u4 + (1/6) * u3 * u6)
  | 5%nat, 2%nat => nw * nw * (dt * dt * dt) * (- (1/6) * u4 * u4 - (1/6) * u5 * u5 - (1/6) * u6 * u6)
  | 5%nat, 3%nat => nw * nw * dt * ((1/2) * u0 * u4 * e2 + (1/2) * u0 * u5 * e2 - (1/2) * u0 * u4 * e3 + (1/2) * u0 * u6
      * e3 + (1/6) * u0 * u4 * e1 * e2 - (1/6) * u0 * u6 * e1 * e2 + (1/6) * u0 * u4 * e1 * e3 + (1/6) * u0 * u5 * e1 * e3 -
      (2/3) * u0 * u4 * e2 * e2 - (1/6) * u0 * u5 * e2 * e2 + (1/6) * u0 * u6 * e2 * e2 - (2/3) * u0 * u4 * e3 * e3 - (1/6)
      * u0 * u5 * e3 * e3 + (1/6) * u0 * u6 * e3 * e3)
  | 5%nat, 4%nat => nw * nw * dt * ((1/2) * u1 * u4 * e2 - (1/2) * u2 * u5 * e2 - (1/2) * u2 * u6 * e3 - (1/2) * u3 * u4
      * e3 + (1/6) * u2 * u6 * e1 * e2 + (1/6) * u3 * u4 * e1 * e2 + (1/6) * u1 * u4 * e1 * e3 - (1/6) * u2 * u5 * e1 * e3 -
      (1/6) * u1 * u4 * e2 * e2 + (1/3) * u2 * u4 * e2 * e2 + (1/6) * u2 * u5 * e2 * e2 - (1/6) * u2 * u6 * e2 * e2 - (1/6)
      * u3 * u4 * e2 * e2 - (1/6) * u1 * u4 * e3 * e3 + (1/3) * u2 * u4 * e3 * e3 + (1/6) * u2 * u5 * e3 * e3 - (1/6) * u2 *
      u6 * e3 * e3 - (1/6) * u3 * u4 * e3 * e3)
  | 5%nat, 5%nat => nw * nw * dt * (u4 * u5 * e2 + u4 * u6 * e3 - (1/3) * u4 * u6 * e1 * e2 + (1/3) * u4 * u5 * e1 * e3
      - (1/3) * u4 * u5 * e2 * e2 + (1/3) * u4 * u6 * e2 * e2 - (1/3) * u4 * u4 * e2 * e2 - (1/3) * u4 * u5 * e3 * e3 +
      (1/3) * u4 * u6 * e3 * e3 - (1/3) * u4 * u4 * e3 * e3)
  | 5%nat, 6%nat => nw * nw * dt * (- (1/2) * u5 * e2 - (1/2) * u6 * e3 + (1/6) * u6 * e1 * e2 - (1/6) * u5 * e1 * e3 +
      (1/3) * u4 * e2 * e2 + (1/6) * u5 * e2 * e2 - (1/6) * u6 * e2 * e2 + (1/3) * u4 * e3 * e3 + (1/6) * u5 * e3 * e3 -
      (1/6) * u6 * e3 * e3)
  | 5%nat, 7%nat => nw * nw * dt * ((1/2) * u4 * e3 - (1/6) * u4 * e1 * e2 + (1/6) * u4 * e2 * e2 + (1/6) * u4 * e3 *
      e3)
  | 5%nat, 8%nat => nw * nw * dt * (- (1/2) * u4 * e2 - (1/6) * u4 * e1 * e3 + (1/6) * u4 * e2 * e2 + (1/6) * u4 * e3 *
      e3)
  | 5%nat, 9%nat => nbw * nbw * (dt * dt * dt) * (- (1/6) * u4)
  | 5%nat, 10%nat => nbw * nbw * (dt * dt * dt) * ((1/6) * u6)
  | 5%nat, 11%nat => nbw * nbw * (dt * dt * dt) * (- (1/6) * u5)
  | 6%nat, 0%nat => nw * nw * (dt * dt * dt) * ((1/6) * u0)
  | 6%nat, 2%nat => nw * nw * (dt * dt * dt) * ((1/6) * u4)
  | 6%nat, 3%nat => nw * nw * dt * (- (1/2) * u0 * e2 + (1/2) * u0 * e3 - (1/6) * u0 * e1 * e2 - (1/6) * u0 * e1 * e3 +
      (2/3) * u0 * e2 * e2 + (2/3) * u0 * e3 * e3)
  | 6%nat, 5%nat => nw * nw * dt * (- (1/2) * u5 * e2 - (1/2) * u6 * e3 + (1/6) * u6 * e1 * e2 - (1/6) * u5 * e1 * e3 +
      (1/3) * u4 * e2 * e2 + (1/6) * u5 * e2 * e2 - (1/6) * u6 * e2 * e2 + (1/3) * u4 * e3 * e3 + (1/6) * u5 * e3 * e3 -
      (1/6) * u6 * e3 * e3)
  | 6%nat, 6%nat => nw * nw * dt * (- (1/3) * e2 * e2 - (1/3) * e3 * e3)
  | 6%nat, 8%nat => nw * nw * dt * ((1/2) * e2 + (1/6) * e1 * e3 - (1/6) * e2 * e2 - (1/6) * e3 * e3)
  | 7%nat, 0%nat => nw * nw * (dt * dt * dt) * ((1/6) * u0)
  | 7%nat, 1%nat => nw * nw * (dt * dt * dt) * ((1/6) * u3)
  | 7%nat, 2%nat => nw * nw * (dt * dt * dt) * (- (1/6) * u6)
  | 7%nat, 3%nat => nw * nw * dt * ((1/2) * u0 * e3 - (1/6) * u0 * e1 * e2 + (1/6) * u0 * e2 * e2 + (1/6) * u0 * e3 *
      e3)
  | 7%nat, 4%nat => nw * nw * dt * (- (1/2) * u2 * e3 + (1/6) * u2 * e1 * e2 - (1/6) * u2 * e2 * e2 - (1/6) * u2 * e3 *
      e3)
  | 7%nat, 5%nat => nw * nw * dt * ((1/2) * u4 * e3 - (1/6) * u4 * e1 * e2 + (1/6) * u4 * e2 * e2 + (1/6) * u4 * e3 *
      e3)
  | 7%nat, 6%nat => nw * nw * dt * (- (1/2) * e3 + (1/6) * e1 * e2 - (1/6) * e2 * e2 - (1/6) * e3 * e3)
  | 7%nat, 9%nat => nbw * nbw * (dt * dt) * ((1/6) * e3)
  | 7%nat, 11%nat => nbw * nbw * (dt * dt) * (- (1/6) * e1)
  | 8%nat, 0%nat => nw * nw * (dt * dt * dt) * ((1/6) * u0)
  | 8%nat, 1%nat => nw * nw * (dt * dt * dt) * ((1/6) * u1)
  | 8%nat, 2%nat => nw * nw * (dt * dt * dt) * ((1/6) * u5)
  | 8%nat, 3%nat => nw * nw * dt * (- (1/2) * u0 * e2 - (1/6) * u0 * e1 * e3 + (1/6) * u0 * e2 * e2 + (1/6) * u0 * e3 *
      e3)
  | 8%nat, 4%nat => nw * nw * dt * ((1/2) * u2 * e2 + (1/6) * u2 * e1 * e3 - (1/6) * u2 * e2 * e2 - (1/6) * u2 * e3 *
      e3)
  | 8%nat, 5%nat => nw * nw * dt * (- (1/2) * u4 * e2 - (1/6) * u4 * e1 * e3 + (1/6) * u4 * e2 * e2 + (1/6) * u4 * e3 *
      e3)
  | 8%nat, 6%nat => nw * nw * dt * ((1/2) * e2 + (1/6) * e1 * e3 - (1/6) * e2 * e2 - (1/6) * e3 * e3)
  | 8%nat, 9%nat => nbw * nbw * (dt * dt) * (- (1/6) * e2)
  | 8%nat, 10%nat => nbw * nbw * (dt * dt) * ((1/6) * e1)
  | 9%nat, 3%nat => nbw * nbw * (dt * dt * dt) * (- (1/6) * u0)
  | 9%nat, 5%nat => nbw * nbw * (dt * dt * dt) * (- (1/6) * u4)
  | 9%nat, 8%nat => nbw * nbw * (dt * dt) * (- (1/6) * e2)
  | 10%nat, 3%nat => nbw * nbw * (dt * dt * dt) * (- (1/6) * u0)
  | 10%nat, 4%nat => nbw * nbw * (dt * dt * dt) * (- (1/6) * u3)
  | 10%nat, 5%nat => nbw * nbw * (dt * dt * dt) * ((1/6) * u6)
  | 10%nat, 8%nat => nbw * nbw * (dt * dt) * ((1/6) * e1)
  | 11%nat, 3%nat => nbw * nbw * (dt * dt * dt) * (- (1/6) * u0)
  | 11%nat, 4%nat => nbw * nbw * (dt * dt * dt) * (- (1/6) * u1)
  | 11%nat, 5%nat => nbw * nbw * (dt * dt * dt) * (- (1/6) * u5)
  | 11%nat, 7%nat => nbw * nbw * (dt * dt) * (- (1/6) * e1)
  | _, _ => 0
  end.
End Entries.

(** All local variables of CalcQCore but those cross products. *)
Ltac unf_g :=
  cbv [
    t343 t348 t349 t344 t356 t357 t345 t350 t351 t352 t353 t346 t347 t354 t355 t358 t359 t360 t361 t365 t366 t367 t368
    t369 t370 t371 t372 t373 t374 t375 t376 t377 t378 t379 t385 t398 t399 t400 t401 t402 t403 t404 t405 t406 t421 t422
    t423 t424 t408 t409 t410 t411 t463 t464 t465 t412 t413 t414 t415 t416 t417 t418 t419 t453 t454 t420 t426 t427 t425
    t428 t429 t430 t431 t432 t433 t434 t435 t436 t443 t437 t438 t511 t439 t440 t441 t442 t444 t445 t446 t447 t448 t449
    t450 t451 t452 t455 t456 t457 t458 t459 t460 t461 t462 t466 t467 t468 t469 t470 t471 t472 t479 t473 t474 t475 t476
    t477 t492 t478 t480 t481 t482 t483 t484 t486 t485 t487 t488 t489 t490 t491 t493 t541 t494 t495 t496 t527 t497 t498
    t499 t500 t501 t502 t503 t504 t505 t506 t507 t508 t509 t510 t512 t513 t514 t515 t516 t517 t518 t519 t520 t521 t522
    t523 t524 t525 t526 t528 t529 t530 t531 t532 t533 t534 t535 t536 t537 t538 t539 t540 t542 t543 t544 t545 t546 t547
    t548 t549 t550 t551 t552 t553 t554 t555 t556 t557 t558 t559 t560 t561 t562 t563 t564 t565 t566 t567 t568 t569 t570
    t571 t572 t573 t574 t575 t576 t577 t578 t579 t580 t581 t582 t583 t584 t585 t586 t587 t588 t589 t590 t591 t592 t593
    t594 t595 t596 t597 t598 t599 t600 t601 t602 t603 t604 t605 t606 t607 t608 t609 t610 t611 t612 t613 t614 t615 t616
    t617 t618 t619 t620 t621 t622 t623 t624 t625 t626 t627 t628 t629 t630 t631 t632 t633 t634 t635 t636 t637 t638 t639
    t640 t641 t642 t643 t644 t645 t646 t647 t648 t649 t650 t651 t652 t653 t654 t655 t656 t657 t658 t659 t660 t661 t662
    t663].

Definition u_of (q : quat) (a : v3) (k : nat) : R :=
  match k with
  | 0%nat => t362 (qw q) (qx q) (qy q) (qz q) (v3y a) (v3z a)
  | 1%nat => t381 (qw q) (qx q) (qy q) (qz q) (v3x a) (v3y a)
  | 2%nat => t384 (qw q) (qx q) (qy q) (qz q) (v3y a) (v3z a)
  | 3%nat => t388 (qw q) (qx q) (qy q) (qz q) (v3x a) (v3z a)
  | 4%nat => t390 (qw q) (qx q) (qy q) (qz q) (v3y a) (v3z a)
  | 5%nat => t394 (qw q) (qx q) (qy q) (qz q) (v3x a) (v3y a)
  | _ => t397 (qw q) (qx q) (qy q) (qz q) (v3x a) (v3z a)
  end.

Lemma gyr_entry : forall dt q ew ea nw nbw i j, (i < 15)%nat -> (j < 15)%nat ->
  calc_q_core std_ix dt q ew ea (Noise 0 0 nw nbw) zzero (Z.of_nat i) (Z.of_nat j) =
  target dt 0 0 0 nbw (hrot q) i j +
  nw * nw * dt * lead (u_of q ea 0) (u_of q ea 1) (u_of q ea 2) (u_of q ea 3) (u_of q ea 4) (u_of q ea 5) (u_of q ea 6) i j +
  dev dt nw nbw (u_of q ea 0) (u_of q ea 1) (u_of q ea 2) (u_of q ea 3) (u_of q ea 4) (u_of q ea 5) (u_of q ea 6)
    (v3x ew * dt) (v3y ew * dt) (v3z ew * dt) i j.
Proof.
  intros dt q ew ea nw nbw i j Hi Hj.
  destruct q as [q1 q2 q3 q4]. destruct ew as [e1 e2 e3]. destruct ea as [a1 a2 a3].
  set (f := calc_q_core _ _ _ _ _ _ _).
  all_cases 15%nat Hi; all_cases 15%nat Hj.
  all: match goal with |- ?f (Z.of_nat ?x) (Z.of_nat ?y) = _ => let a := constr:(Z.of_nat x) in let b := constr:(Z.of_nat y) in
    let va := eval vm_compute in a in let vb := eval vm_compute in b in change (f a b) with (f va vb) end.
  all: subst f; unfold calc_q_core, qd_writes;
       cbv beta iota zeta delta [fold_left put xp xv xq xbw xba std_ix Z.add Z.eqb Pos.eqb Pos.add Pos.succ andb
         qw qx qy qz v3x v3y v3z n_acc n_accbias n_gyr n_gyrbias zzero u_of lead dev].
  all: unfold target, coef, acc_coef, gyr_coef, cc; cbn [Nat.div Nat.modulo Nat.divmod Nat.eqb Nat.sub fst snd].
  all: unf_g; field.
Qed.

Lemma noise_split : forall dt q ew ea na nba nw nbw i j, (i < 15)%nat -> (j < 15)%nat ->
  calc_q_core std_ix dt q ew ea (Noise na nba nw nbw) zzero (Z.of_nat i) (Z.of_nat j) =
  calc_q_core std_ix dt q ew ea (Noise na nba 0 0) zzero (Z.of_nat i) (Z.of_nat j) +
  calc_q_core std_ix dt q ew ea (Noise 0 0 nw nbw) zzero (Z.of_nat i) (Z.of_nat j).
Proof.
  intros dt q ew ea na nba nw nbw i j Hi Hj.
  destruct q as [q1 q2 q3 q4]. destruct ew as [e1 e2 e3]. destruct ea as [a1 a2 a3].
  set (f := calc_q_core _ _ _ _ _ (Noise na nba nw nbw) _). set (g := calc_q_core _ _ _ _ _ (Noise na nba _ _) _).
  set (h := calc_q_core _ _ _ _ _ _ _).
  all_cases 15%nat Hi; all_cases 15%nat Hj.
  all: match goal with |- ?f (Z.of_nat ?x) (Z.of_nat ?y) = ?g _ _ + ?h _ _ => let a := constr:(Z.of_nat x) in let b := constr:(Z.of_nat y) in
    let va := eval vm_compute in a in let vb := eval vm_compute in b in
    change (f a b) with (f va vb); change (g a b) with (g va vb); change (h a b) with (h va vb) end.
  all: subst f g h; unfold calc_q_core, qd_writes;
       cbv beta iota zeta delta [fold_left put xp xv xq xbw xba std_ix Z.add Z.eqb Pos.eqb Pos.add Pos.succ andb
         qw qx qy qz v3x v3y v3z n_acc n_accbias n_gyr n_gyrbias zzero].
  all: unf_g; field.
Qed.
