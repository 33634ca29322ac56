(** The discrete process noise of the core states: CalcQCore,
    msf_core/include/msf_core/implementation/calcQCore.h lines 28-721.
    Definitions only; real arithmetic instead of double.

    One definition per local variable of the source, under its name and in its
    order; [qd_writes] is the list of the assignments to entries of [Qd] in
    source order ([idxstartcorr_p] and so on are the arguments [ip], ...). *)

From Coq Require Import Reals ZArith List.
Import ListNotations.
Open Scope R_scope.

Section CalcQCore.
  (** lines 29-46: the arguments by component; q = (w, x, y, z) = (q1, q2, q3, q4) *)
  Variable dt : R.
  Variables q1 q2 q3 q4 : R.
  Variables ew1 ew2 ew3 ea1 ea2 ea3 : R.
  Variables n_a1 n_a2 n_a3 n_ba1 n_ba2 n_ba3 : R.
  Variables n_w1 n_w2 n_w3 n_bw1 n_bw2 n_bw3 : R.

  (** lines 47-379 *)
Definition t343 : R := dt * dt.
Definition t348 : R := q1 * q4 * 2.
Definition t349 : R := q2 * q3 * 2.
Definition t344 : R := t348 - t349.
Definition t356 : R := q1 * q3 * 2.
Definition t357 : R := q2 * q4 * 2.
Definition t345 : R := t356 + t357.
Definition t350 : R := q1 * q1.
Definition t351 : R := q2 * q2.
Definition t352 : R := q3 * q3.
Definition t353 : R := q4 * q4.
Definition t346 : R := t350 + t351 - t352 - t353.
Definition t347 : R := n_a1 * n_a1.
Definition t354 : R := n_a2 * n_a2.
Definition t355 : R := n_a3 * n_a3.
Definition t358 : R := q1 * q2 * 2.
Definition t359 : R := t344 * t344.
Definition t360 : R := t345 * t345.
Definition t361 : R := t346 * t346.
Definition t363 : R := ea2 * t345.
Definition t364 : R := ea3 * t344.
Definition t362 : R := t363 + t364.
Definition t365 : R := t362 * t362.
Definition t366 : R := t348 + t349.
Definition t367 : R := t350 - t351 + t352 - t353.
Definition t368 : R := q3 * q4 * 2.
Definition t369 : R := t356 - t357.
Definition t370 : R := t350 - t351 - t352 + t353.
Definition t371 : R := n_w3 * n_w3.
Definition t372 : R := t358 + t368.
Definition t373 : R := n_w2 * n_w2.
Definition t374 : R := n_w1 * n_w1.
Definition t375 : R := dt * t343 * t346 * t347 * t366 * (1 / 3).
Definition t376 : R := t358 - t368.
Definition t377 : R := t343 * t346 * t347 * t366 * (1 / 2).
Definition t378 : R := t366 * t366.
Definition t379 : R := t376 * t376.
Definition t380 : R := ea1 * t367.
Definition t391 : R := ea2 * t366.
Definition t381 : R := t380 - t391.
Definition t382 : R := ea3 * t367.
Definition t383 : R := ea2 * t376.
Definition t384 : R := t382 + t383.
Definition t385 : R := t367 * t367.
Definition t386 : R := ea1 * t376.
Definition t387 : R := ea3 * t366.
Definition t388 : R := t386 + t387.
Definition t389 : R := ea2 * t370.
Definition t407 : R := ea3 * t372.
Definition t390 : R := t389 - t407.
Definition t392 : R := ea1 * t372.
Definition t393 : R := ea2 * t369.
Definition t394 : R := t392 + t393.
Definition t395 : R := ea1 * t370.
Definition t396 : R := ea3 * t369.
Definition t397 : R := t395 + t396.
Definition t398 : R := n_ba1 * n_ba1.
Definition t399 : R := n_ba2 * n_ba2.
Definition t400 : R := n_ba3 * n_ba3.
Definition t401 : R := dt * t343 * t345 * t355 * t370 * (1 / 3).
Definition t402 : R := t401 - dt * t343 * t346 * t347 * t369 * (1 / 3) - dt * t343 * t344 * t354 * t372 * (1 /
    3).
Definition t403 : R := dt * t343 * t354 * t367 * t372 * (1 / 3).
Definition t404 : R := t403 - dt * t343 * t347 * t366 * t369 * (1 / 3) - dt * t343 * t355 * t370 * t376 * (1 /
    3).
Definition t405 : R := t343 * t345 * t355 * t370 * (1 / 2).
Definition t406 : R := dt * t343 * t362 * t373 * t397 * (1 / 6).
Definition t421 : R := t343 * t346 * t347 * t369 * (1 / 2).
Definition t422 : R := dt * t343 * t362 * t371 * t394 * (1 / 6).
Definition t423 : R := t343 * t344 * t354 * t372 * (1 / 2).
Definition t424 : R := dt * t343 * t362 * t374 * t390 * (1 / 6).
Definition t408 : R := t405 + t406 - t421 - t422 - t423 - t424.
Definition t409 : R := t343 * t354 * t367 * t372 * (1 / 2).
Definition t410 : R := dt * t343 * t374 * t384 * t390 * (1 / 6).
Definition t411 : R := dt * t343 * t373 * t388 * t397 * (1 / 6).
Definition t463 : R := t343 * t355 * t370 * t376 * (1 / 2).
Definition t464 : R := t343 * t347 * t366 * t369 * (1 / 2).
Definition t465 : R := dt * t343 * t371 * t381 * t394 * (1 / 6).
Definition t412 : R := t409 + t410 + t411 - t463 - t464 - t465.
Definition t413 : R := t369 * t369.
Definition t414 : R := t372 * t372.
Definition t415 : R := t370 * t370.
Definition t416 : R := t343 * t354 * t359 * (1 / 2).
Definition t417 : R := t343 * t355 * t360 * (1 / 2).
Definition t418 : R := t343 * t347 * t361 * (1 / 2).
Definition t419 : R := t416 + t417 + t418 - dt * t343 * t365 * t371 * (1 / 6) - dt * t343 * t365 * t373 * (1 /
    6) - dt * t343 * t365 * t374 * (1 / 6).
Definition t453 : R := t343 * t344 * t354 * t367 * (1 / 2).
Definition t454 : R := t343 * t345 * t355 * t376 * (1 / 2).
Definition t420 : R := t377 - t453 - t454.
Definition t426 : R := ew2 * t362.
Definition t427 : R := ew3 * t362.
Definition t425 : R := t426 - t427.
Definition t428 : R := dt * t365.
Definition t429 : R := ew1 * ew1.
Definition t430 : R := ew2 * ew2.
Definition t431 : R := ew3 * ew3.
Definition t432 : R := t430 + t431.
Definition t433 : R := t362 * t432.
Definition t434 : R := ew1 * t343 * t365.
Definition t435 : R := t429 + t431.
Definition t436 : R := t362 * t435.
Definition t443 : R := ew2 * ew3 * t362.
Definition t437 : R := t433 + t436 - t443.
Definition t438 : R := ew1 * t362 * t394.
Definition t511 : R := ew1 * t362 * t397.
Definition t439 : R := t438 - t511.
Definition t440 : R := t343 * t439 * (1 / 2).
Definition t441 : R := t429 + t430.
Definition t442 : R := t362 * t441.
Definition t444 : R := t390 * t432.
Definition t445 : R := ew2 * t394.
Definition t446 : R := ew3 * t397.
Definition t447 : R := t445 + t446.
Definition t448 : R := ew1 * ew2 * t362.
Definition t449 : R := ew1 * ew3 * t362.
Definition t450 : R := ew1 * ew3 * t362 * (1 / 2).
Definition t451 : R := dt * t362.
Definition t452 : R := ew1 * t343 * t362 * (1 / 2).
Definition t455 : R := dt * t343 * t362 * t374 * t384 * (1 / 6).
Definition t456 : R := t343 * t347 * t378 * (1 / 2).
Definition t457 : R := t343 * t355 * t379 * (1 / 2).
Definition t458 : R := t381 * t381.
Definition t459 : R := t384 * t384.
Definition t460 : R := t343 * t354 * t385 * (1 / 2).
Definition t461 : R := t388 * t388.
Definition t462 : R := t456 + t457 + t460 - dt * t343 * t371 * t458 * (1 / 6) - dt * t343 * t374 * t459 * (1 /
    6) - dt * t343 * t373 * t461 * (1 / 6).
Definition t466 : R := t433 + t442 - t443.
Definition t467 : R := ew1 * t362 * t388.
Definition t468 : R := ew1 * t362 * t381.
Definition t469 : R := t467 + t468.
Definition t470 : R := t343 * t469 * (1 / 2).
Definition t471 : R := t384 * t432.
Definition t472 : R := ew2 * t381.
Definition t479 : R := ew3 * t388.
Definition t473 : R := t472 - t479.
Definition t474 : R := -t433 + t448 + t449.
Definition t475 : R := dt * t343 * t346 * t366 * t398 * (1 / 3).
Definition t476 : R := dt * t346 * t347 * t366.
Definition t477 : R := ew2 * ew3 * t381.
Definition t492 : R := t388 * t435.
Definition t478 : R := t471 + t477 - t492.
Definition t480 : R := t472 - t479.
Definition t481 : R := ew1 * ew3 * t381.
Definition t482 : R := ew1 * ew2 * t388.
Definition t483 : R := t471 + t481 + t482.
Definition t484 : R := ew2 * ew3 * t388.
Definition t486 : R := t381 * t441.
Definition t485 : R := t471 + t484 - t486.
Definition t487 : R := t394 * t441.
Definition t488 : R := ew2 * ew3 * t397.
Definition t489 : R := t444 + t487 + t488.
Definition t490 : R := t397 * t435.
Definition t491 : R := ew2 * ew3 * t394.
Definition t493 : R := ew1 * t381 * t397.
Definition t541 : R := ew1 * t388 * t394.
Definition t494 : R := t493 - t541.
Definition t495 : R := t343 * t494 * (1 / 2).
Definition t496 : R := ew1 * ew2 * t397.
Definition t527 : R := ew1 * ew3 * t394.
Definition t497 : R := t444 + t496 - t527.
Definition t498 : R := ew2 * ew3 * t381 * (1 / 2).
Definition t499 : R := ew1 * t343 * t381 * (1 / 2).
Definition t500 : R := t384 * t432 * (1 / 2).
Definition t501 : R := ew2 * ew3 * t388 * (1 / 2).
Definition t502 : R := n_bw1 * n_bw1.
Definition t503 : R := n_bw3 * n_bw3.
Definition t504 : R := t343 * t347 * t413 * (1 / 2).
Definition t505 : R := t343 * t354 * t414 * (1 / 2).
Definition t506 : R := t397 * t397.
Definition t507 : R := t390 * t390.
Definition t508 : R := t343 * t355 * t415 * (1 / 2).
Definition t509 : R := t394 * t394.
Definition t510 : R := t504 + t505 + t508 - dt * t343 * t373 * t506 * (1 / 6) - dt * t343 * t371 * t509 * (1 /
    6) - dt * t343 * t374 * t507 * (1 / 6).
Definition t512 : R := -t444 + t490 + t491.
Definition t513 : R := t397 * t437 * (1 / 2).
Definition t514 : R := t362 * t394 * t429.
Definition t515 : R := dt * t362 * t397.
Definition t516 : R := t362 * t489 * (1 / 2).
Definition t517 : R := t394 * t466 * (1 / 2).
Definition t518 : R := t362 * t397 * t429.
Definition t519 : R := t516 + t517 + t518.
Definition t520 : R := dt * t362 * t394.
Definition t521 : R := t440 + t520 - dt * t343 * t519 * (1 / 3).
Definition t522 : R := t371 * t521.
Definition t523 : R := t362 * t447.
Definition t524 : R := t390 * t425.
Definition t525 : R := t523 + t524.
Definition t526 : R := t343 * t525 * (1 / 2).
Definition t528 : R := t425 * t447.
Definition t529 : R := t390 * t474 * (1 / 2).
Definition t530 : R := t528 + t529 - t362 * t497 * (1 / 2).
Definition t531 : R := dt * t343 * t530 * (1 / 3).
Definition t532 : R := dt * t362 * t390.
Definition t533 : R := t526 + t531 + t532.
Definition t534 : R := t374 * t533.
Definition t535 : R := dt * t343 * t345 * t370 * t400 * (1 / 3).
Definition t536 : R := dt * t345 * t355 * t370.
Definition t537 : R := t381 * t489 * (1 / 2).
Definition t538 : R := t388 * t397 * t429.
Definition t539 : R := t537 + t538 - t394 * t485 * (1 / 2).
Definition t540 : R := dt * t343 * t539 * (1 / 3).
Definition t542 : R := t495 + t540 - dt * t381 * t394.
Definition t543 : R := t388 * t512 * (1 / 2).
Definition t544 : R := t381 * t394 * t429.
Definition t545 : R := t543 + t544 - t397 * t478 * (1 / 2).
Definition t546 : R := dt * t343 * t545 * (1 / 3).
Definition t547 : R := t495 + t546 - dt * t388 * t397.
Definition t548 : R := t373 * t547.
Definition t549 : R := t384 * t447.
Definition t550 : R := t549 - t390 * t473.
Definition t551 : R := t343 * t550 * (1 / 2).
Definition t552 : R := t384 * t497 * (1 / 2).
Definition t553 : R := t390 * t483 * (1 / 2).
Definition t554 : R := t447 * t473.
Definition t555 : R := t552 + t553 + t554.
Definition t556 : R := dt * t384 * t390.
Definition t557 : R := t551 + t556 - dt * t343 * t555 * (1 / 3).
Definition t558 : R := dt * t343 * t367 * t372 * t399 * (1 / 3).
Definition t559 : R := dt * t354 * t367 * t372.
Definition t560 : R := t548 + t558 + t559 - t371 * t542 - t374 * t557 - dt * t347 * t366 * t369 - dt * t355 *
    t370 * t376 - dt * t343 * t366 * t369 * t398 * (1 / 3) - dt * t343 * t370 * t376 * t400 * (1 / 3).
Definition t561 : R := ew1 * t343 * t394 * t397.
Definition t562 : R := ew1 * t343 * t397 * (1 / 2).
Definition t563 : R := n_bw2 * n_bw2.
Definition t564 : R := dt * t343 * t362 * t374 * (1 / 6).
Definition t565 : R := dt * t343 * t374 * t390 * (1 / 6).
Definition t566 : R := ew1 * ew2 * t362 * (1 / 2).
Definition t567 : R := -t433 + t450 + t566.
Definition t568 : R := dt * t343 * t567 * (1 / 3).
Definition t569 : R := t343 * t425 * (1 / 2).
Definition t570 : R := t451 + t568 + t569.
Definition t571 : R := dt * t343 * t362 * t373 * t432 * (1 / 6).
Definition t572 : R := dt * t343 * t362 * t371 * t432 * (1 / 6).
Definition t573 : R := t571 + t572 - t374 * t570.
Definition t574 : R := ew1 * ew2 * t397 * (1 / 2).
Definition t575 : R := t444 + t574 - ew1 * ew3 * t394 * (1 / 2).
Definition t576 : R := t343 * t447 * (1 / 2).
Definition t577 : R := dt * t390.
Definition t578 : R := t576 + t577 - dt * t343 * t575 * (1 / 3).
Definition t579 : R := dt * t343 * t371 * t394 * t432 * (1 / 6).
Definition t580 : R := t579 - t374 * t578 - dt * t343 * t373 * t397 * t432 * (1 / 6).
Definition t581 : R := dt * t343 * t373 * t388 * (1 / 6).
Definition t582 : R := t362 * t432 * (1 / 2).
Definition t583 : R := ew2 * ew3 * t362 * (1 / 2).
Definition t584 : R := t362 * t429.
Definition t585 : R := t583 + t584.
Definition t586 : R := ew3 * t473.
Definition t587 : R := ew1 * ew2 * t384 * (1 / 2).
Definition t588 : R := t586 + t587.
Definition t589 : R := dt * t343 * t588 * (1 / 3).
Definition t590 : R := t374 * (t589 - ew3 * t343 * t384 * (1 / 2)).
Definition t591 : R := t388 * t429.
Definition t592 : R := t498 + t591.
Definition t593 : R := dt * t343 * t592 * (1 / 3).
Definition t594 : R := t499 + t593.
Definition t595 : R := -t492 + t498 + t500.
Definition t596 : R := dt * t343 * t595 * (1 / 3).
Definition t597 : R := dt * t388.
Definition t598 : R := -t499 + t596 + t597.
Definition t599 : R := t590 - t371 * t594 - t373 * t598.
Definition t600 : R := t397 * t429.
Definition t601 : R := ew2 * ew3 * t394 * (1 / 2).
Definition t602 : R := ew1 * t343 * t394 * (1 / 2).
Definition t603 : R := ew3 * t447.
Definition t604 : R := t603 - ew1 * ew2 * t390 * (1 / 2).
Definition t605 : R := dt * t343 * t604 * (1 / 3).
Definition t606 : R := ew3 * t343 * t390 * (1 / 2).
Definition t607 : R := t605 + t606.
Definition t608 : R := t374 * t607.
Definition t609 : R := t390 * t432 * (1 / 2).
Definition t610 : R := dt * t397.
Definition t611 : R := t430 * (1 / 2).
Definition t612 : R := t431 * (1 / 2).
Definition t613 : R := t611 + t612.
Definition t614 : R := ew1 * t343 * (1 / 2).
Definition t615 : R := dt * t343 * t362 * t371 * (1 / 6).
Definition t616 : R := dt * t343 * t371 * t381 * (1 / 6).
Definition t617 : R := dt * t343 * t371 * t394 * (1 / 6).
Definition t618 : R := ew2 * t425.
Definition t619 : R := t450 + t618.
Definition t620 : R := dt * t343 * t619 * (1 / 3).
Definition t621 : R := ew2 * t343 * t362 * (1 / 2).
Definition t622 : R := t620 + t621.
Definition t623 : R := dt * t343 * t585 * (1 / 3).
Definition t624 : R := t381 * t429.
Definition t625 : R := t501 + t624.
Definition t626 : R := dt * t343 * t625 * (1 / 3).
Definition t627 : R := ew1 * t343 * t388 * (1 / 2).
Definition t628 : R := ew2 * t473.
Definition t629 : R := t628 - ew1 * ew3 * t384 * (1 / 2).
Definition t630 : R := dt * t343 * t629 * (1 / 3).
Definition t631 : R := t630 - ew2 * t343 * t384 * (1 / 2).
Definition t632 : R := -t486 + t500 + t501.
Definition t633 : R := dt * t343 * t632 * (1 / 3).
Definition t634 : R := dt * t381.
Definition t635 : R := t627 + t633 + t634.
Definition t636 : R := ew2 * t447.
Definition t637 : R := ew1 * ew3 * t390 * (1 / 2).
Definition t638 : R := t636 + t637.
Definition t639 : R := dt * t343 * t638 * (1 / 3).
Definition t640 : R := ew2 * t343 * t390 * (1 / 2).
Definition t641 : R := t639 + t640.
Definition t642 : R := t394 * t429.
Definition t643 : R := ew2 * ew3 * t397 * (1 / 2).
Definition t644 : R := t487 + t609 + t643.
Definition t645 : R := dt * t343 * t644 * (1 / 3).
Definition t646 : R := t562 + t645 - dt * t394.
Definition t647 : R := t371 * t646.
Definition t648 : R := ew2 * t343 * (1 / 2).
Definition t649 : R := dt * ew1 * ew3 * t343 * (1 / 6).
Definition t650 : R := t648 + t649.
Definition t651 : R := t374 * t650.
Definition t652 : R := t651 - dt * t343 * t371 * t613 * (1 / 3).
Definition t653 : R := dt * ew2 * ew3 * t343 * (1 / 6).
Definition t654 : R := t614 + t653.
Definition t655 : R := t371 * t654.
Definition t656 : R := dt * t343 * t397 * t563 * (1 / 6).
Definition t657 : R := dt * ew1 * t343 * t563 * (1 / 6).
Definition t658 : R := dt * t343 * t369 * t398 * (1 / 6).
Definition t659 : R := t343 * t369 * t398 * (1 / 2).
Definition t660 : R := dt * t343 * t344 * t399 * (1 / 6).
Definition t661 : R := t343 * t344 * t399 * (1 / 2).
Definition t662 : R := dt * t343 * t376 * t400 * (1 / 6).
Definition t663 : R := t343 * t376 * t400 * (1 / 2).

  (** lines 394-719 *)
  Definition qd_writes (ip iv iq ibw iba : Z) : list (Z * Z * R) := [
((ip + 0)%Z, (ip + 0)%Z, dt * t343 * t347 * t361 * (1 / 3) + dt * t343 * t354 * t359 * (1 / 3) + dt * t343 *
    t355 * t360 * (1 / 3));
((ip + 0)%Z, (ip + 1)%Z, t375 - dt * t343 * t345 * t355 * (t358 - q3 * q4 * 2) * (1 / 3) - dt * t343 * t344 *
    t354 * t367 * (1 / 3));
((ip + 0)%Z, (ip + 2)%Z, t402);
((ip + 0)%Z, (iv + 0)%Z, t419);
((ip + 0)%Z, (iv + 1)%Z, t420);
((ip + 0)%Z, (iv + 2)%Z, t408);
((ip + 0)%Z, (iq + 0)%Z, t564);
((ip + 0)%Z, (iq + 2)%Z, t615);
((ip + 0)%Z, (iba + 0)%Z, dt * t343 * t346 * t398 * (-1 / 6));
((ip + 0)%Z, (iba + 1)%Z, t660);
((ip + 0)%Z, (iba + 2)%Z, dt * t343 * t345 * t400 * (-1 / 6));
((ip + 1)%Z, (ip + 0)%Z, t375 - dt * t343 * t344 * t354 * t367 * (1 / 3) - dt * t343 * t345 * t355 * t376 * (1
    / 3));
((ip + 1)%Z, (ip + 1)%Z, dt * t343 * t347 * t378 * (1 / 3) + dt * t343 * t355 * t379 * (1 / 3) + dt * t343 *
    t354 * t385 * (1 / 3));
((ip + 1)%Z, (ip + 2)%Z, t404);
((ip + 1)%Z, (iv + 0)%Z, t377 + t455 - t343 * t344 * t354 * t367 * (1 / 2) - t343 * t345 * t355 * t376 * (1 /
    2) - dt * t343 * t362 * t371 * t381 * (1 / 6) - dt * t343 * t362 * t373 * t388 * (1 / 6));
((ip + 1)%Z, (iv + 1)%Z, t462);
((ip + 1)%Z, (iv + 2)%Z, t412);
((ip + 1)%Z, (iq + 0)%Z, dt * t343 * t374 * t384 * (-1 / 6));
((ip + 1)%Z, (iq + 1)%Z, t581);
((ip + 1)%Z, (iq + 2)%Z, t616);
((ip + 1)%Z, (iba + 0)%Z, dt * t343 * t366 * t398 * (-1 / 6));
((ip + 1)%Z, (iba + 1)%Z, dt * t343 * t367 * t399 * (-1 / 6));
((ip + 1)%Z, (iba + 2)%Z, t662);
((ip + 2)%Z, (ip + 0)%Z, t402);
((ip + 2)%Z, (ip + 1)%Z, t404);
((ip + 2)%Z, (ip + 2)%Z, dt * t343 * t347 * t413 * (1 / 3) + dt * t343 * t354 * t414 * (1 / 3) + dt * t343 *
    t355 * t415 * (1 / 3));
((ip + 2)%Z, (iv + 0)%Z, t408);
((ip + 2)%Z, (iv + 1)%Z, t412);
((ip + 2)%Z, (iv + 2)%Z, t510);
((ip + 2)%Z, (iq + 0)%Z, t565);
((ip + 2)%Z, (iq + 1)%Z, dt * t343 * t373 * t397 * (-1 / 6));
((ip + 2)%Z, (iq + 2)%Z, t617);
((ip + 2)%Z, (iba + 0)%Z, t658);
((ip + 2)%Z, (iba + 1)%Z, dt * t343 * t372 * t399 * (-1 / 6));
((ip + 2)%Z, (iba + 2)%Z, dt * t343 * t370 * t400 * (-1 / 6));
((iv + 0)%Z, (ip + 0)%Z, t419);
((iv + 0)%Z, (ip + 1)%Z, t420);
((iv + 0)%Z, (ip + 2)%Z, t408);
((iv + 0)%Z, (iv + 0)%Z, t374 * (t428 + t343 * t362 * t425 + dt * t343 * (t362 * (t448 + t449 - t362 * t432) +
    t425 * t425) * (1 / 3)) + t373 * (t428 - t434 + dt * t343 * (t365 * t429 - t362 * t437) * (1 / 3)) + t371
    * (t428 + t434 + dt * t343 * (t365 * t429 - t362 * (t433 + t442 - ew2 * ew3 * t362)) * (1 / 3)) + dt *
    t347 * t361 + dt * t354 * t359 + dt * t355 * t360 + dt * t343 * t359 * t399 * (1 / 3) + dt * t343 * t361 *
    t398 * (1 / 3) + dt * t343 * t360 * t400 * (1 / 3));
((iv + 0)%Z, (iv + 1)%Z, t475 + t476 - dt * t344 * t354 * t367 - dt * t345 * t355 * t376 - dt * t343 * t344 *
    t367 * t399 * (1 / 3) - dt * t343 * t345 * t376 * t400 * (1 / 3));
((iv + 0)%Z, (iv + 2)%Z, t522 + t534 + t535 + t536 - t373 * (t440 + t515 - dt * t343 * (t513 + t514 + t362 *
    (t490 + t491 - t390 * t432) * (1 / 2)) * (1 / 3)) - dt * t346 * t347 * t369 - dt * t344 * t354 * t372 - dt
    * t343 * t346 * t369 * t398 * (1 / 3) - dt * t343 * t344 * t372 * t399 * (1 / 3));
((iv + 0)%Z, (iq + 0)%Z, t573);
((iv + 0)%Z, (iq + 2)%Z, -t371 * (t451 + t452 - dt * t343 * (t442 + t582 - ew2 * ew3 * t362 * (1 / 2)) * (1 /
    3)) - t374 * t622 + t373 * (t452 - dt * t343 * t585 * (1 / 3)));
((iv + 0)%Z, (ibw + 0)%Z, dt * t343 * t362 * t502 * (-1 / 6));
((iv + 0)%Z, (ibw + 2)%Z, dt * t343 * t362 * t503 * (-1 / 6));
((iv + 0)%Z, (iba + 0)%Z, t343 * t346 * t398 * (-1 / 2));
((iv + 0)%Z, (iba + 1)%Z, t661);
((iv + 0)%Z, (iba + 2)%Z, t343 * t345 * t400 * (-1 / 2));
((iv + 1)%Z, (ip + 0)%Z, t377 - t453 - t454 + t455 - dt * t343 * t362 * t371 * t381 * (1 / 6) - dt * t343 *
    t362 * t373 * t388 * (1 / 6));
((iv + 1)%Z, (ip + 1)%Z, t462);
((iv + 1)%Z, (ip + 2)%Z, t412);
((iv + 1)%Z, (iv + 0)%Z, t475 + t476 - t374 * (t343 * (t384 * t425 - t362 * t473) * (1 / 2) - dt * t343 *
    (t362 * t483 * (1 / 2) - t384 * t474 * (1 / 2) + t425 * t473) * (1 / 3) + dt * t362 * t384) + t371 * (t470
    + dt * t362 * t381 + dt * t343 * (t362 * t485 * (1 / 2) - t381 * t466 * (1 / 2) + t362 * t388 * t429) * (1
    / 3)) + t373 * (-t470 + dt * t362 * t388 + dt * t343 * (t388 * t437 * (-1 / 2) + t362 * t478 * (1 / 2) +
    t362 * t381 * t429) * (1 / 3)) - dt * t344 * t354 * t367 - dt * t345 * t355 * t376 - dt * t343 * t344 *
    t367 * t399 * (1 / 3) - dt * t343 * t345 * t376 * t400 * (1 / 3));
((iv + 1)%Z, (iv + 1)%Z, -t374 * (-dt * t459 + dt * t343 * (t384 * t483 - t480 * t480) * (1 / 3) + t343 * t384
    * t473) + t373 * (dt * t461 + dt * t343 * (t388 * t478 + t429 * t458) * (1 / 3) - ew1 * t343 * t381 *
    t388) + t371 * (dt * t458 + dt * t343 * (t381 * t485 + t429 * t461) * (1 / 3) + ew1 * t343 * t381 * t388)
    + dt * t347 * t378 + dt * t355 * t379 + dt * t354 * t385 + dt * t343 * t378 * t398 * (1 / 3) + dt * t343 *
    t385 * t399 * (1 / 3) + dt * t343 * t379 * t400 * (1 / 3));
((iv + 1)%Z, (iv + 2)%Z, t560);
((iv + 1)%Z, (iq + 0)%Z, -t374 * (-dt * t384 + t343 * t473 * (1 / 2) + dt * t343 * (t471 + ew1 * ew2 * t388 *
    (1 / 2) + ew1 * ew3 * t381 * (1 / 2)) * (1 / 3)) + dt * t343 * t371 * t381 * t432 * (1 / 6) + dt * t343 *
    t373 * t388 * t432 * (1 / 6));
((iv + 1)%Z, (iq + 1)%Z, t599);
((iv + 1)%Z, (iq + 2)%Z, -t374 * t631 - t371 * t635 - t373 * (t626 - ew1 * t343 * t388 * (1 / 2)));
((iv + 1)%Z, (ibw + 0)%Z, dt * t343 * t384 * t502 * (1 / 6));
((iv + 1)%Z, (ibw + 1)%Z, dt * t343 * t388 * t563 * (-1 / 6));
((iv + 1)%Z, (ibw + 2)%Z, dt * t343 * t381 * t503 * (-1 / 6));
((iv + 1)%Z, (iba + 0)%Z, t343 * t366 * t398 * (-1 / 2));
((iv + 1)%Z, (iba + 1)%Z, t343 * t367 * t399 * (-1 / 2));
((iv + 1)%Z, (iba + 2)%Z, t663);
((iv + 2)%Z, (ip + 0)%Z, t408);
((iv + 2)%Z, (ip + 1)%Z, t412);
((iv + 2)%Z, (ip + 2)%Z, t510);
((iv + 2)%Z, (iv + 0)%Z, t522 + t534 + t535 + t536 - t373 * (t440 + t515 - dt * t343 * (t513 + t514 + t362 *
    t512 * (1 / 2)) * (1 / 3)) - dt * t346 * t347 * t369 - dt * t344 * t354 * t372 - dt * t343 * t346 * t369 *
    t398 * (1 / 3) - dt * t343 * t344 * t372 * t399 * (1 / 3));
((iv + 2)%Z, (iv + 1)%Z, t560);
((iv + 2)%Z, (iv + 2)%Z, -t371 * (t561 - dt * t509 + dt * t343 * (t394 * t489 - t429 * t506) * (1 / 3)) + t373
    * (t561 + dt * t506 - dt * t343 * (t397 * t512 - t429 * t509) * (1 / 3)) + t374 * (dt * t507 - dt * t343 *
    (t390 * t497 - t447 * t447) * (1 / 3) + t343 * t390 * t447) + dt * t347 * t413 + dt * t354 * t414 + dt *
    t355 * t415 + dt * t343 * t398 * t413 * (1 / 3) + dt * t343 * t399 * t414 * (1 / 3) + dt * t343 * t400 *
    t415 * (1 / 3));
((iv + 2)%Z, (iq + 0)%Z, t580);
((iv + 2)%Z, (iq + 1)%Z, t608 + t371 * (dt * t343 * (t600 - ew2 * ew3 * t394 * (1 / 2)) * (1 / 3) - ew1 * t343
    * t394 * (1 / 2)) + t373 * (t602 + t610 - dt * t343 * (t490 + t601 - t390 * t432 * (1 / 2)) * (1 / 3)));
((iv + 2)%Z, (iq + 2)%Z, t647 - t374 * t641 - t373 * (t562 + dt * t343 * (t642 - ew2 * ew3 * t397 * (1 / 2)) *
    (1 / 3)));
((iv + 2)%Z, (ibw + 0)%Z, dt * t343 * t390 * t502 * (-1 / 6));
((iv + 2)%Z, (ibw + 1)%Z, t656);
((iv + 2)%Z, (ibw + 2)%Z, dt * t343 * t394 * t503 * (-1 / 6));
((iv + 2)%Z, (iba + 0)%Z, t659);
((iv + 2)%Z, (iba + 1)%Z, t343 * t372 * t399 * (-1 / 2));
((iv + 2)%Z, (iba + 2)%Z, t343 * t370 * t400 * (-1 / 2));
((iq + 0)%Z, (ip + 0)%Z, t564);
((iq + 0)%Z, (ip + 2)%Z, t565);
((iq + 0)%Z, (iv + 0)%Z, t573);
((iq + 0)%Z, (iv + 2)%Z, t580);
((iq + 0)%Z, (iq + 0)%Z, t374 * (dt - dt * t343 * t432 * (1 / 3)) + dt * t343 * t502 * (1 / 3));
((iq + 0)%Z, (iq + 2)%Z, t652);
((iq + 0)%Z, (ibw + 0)%Z, t343 * t502 * (-1 / 2));
((iq + 1)%Z, (ip + 0)%Z, dt * t343 * t362 * t373 * (1 / 6));
((iq + 1)%Z, (ip + 1)%Z, t581);
((iq + 1)%Z, (ip + 2)%Z, dt * t343 * t373 * t397 * (-1 / 6));
((iq + 1)%Z, (iv + 0)%Z, -t371 * (t452 + t623) - t374 * (dt * t343 * (t566 - ew3 * t425) * (1 / 3) - ew3 *
    t343 * t362 * (1 / 2)) + t373 * (-t451 + t452 + dt * t343 * (t436 + t582 - t583) * (1 / 3)));
((iq + 1)%Z, (iv + 1)%Z, t599);
((iq + 1)%Z, (iv + 2)%Z, t608 + t373 * (t602 + t610 - dt * t343 * (t490 + t601 - t609) * (1 / 3)) - t371 *
    (t602 - dt * t343 * (t600 - t601) * (1 / 3)));
((iq + 1)%Z, (iq + 0)%Z, -t374 * (ew3 * t343 * (1 / 2) - dt * ew1 * ew2 * t343 * (1 / 6)) - dt * t343 * t373 *
    t613 * (1 / 3));
((iq + 1)%Z, (iq + 1)%Z, t373 * (dt - dt * t343 * t435 * (1 / 3)) + dt * t343 * t563 * (1 / 3) + dt * t343 *
    t371 * t429 * (1 / 3) + dt * t343 * t374 * t431 * (1 / 3));
((iq + 1)%Z, (iq + 2)%Z, t655 - t373 * (t614 - dt * ew2 * ew3 * t343 * (1 / 6)) - dt * ew2 * ew3 * t343 * t374
    * (1 / 3));
((iq + 1)%Z, (ibw + 0)%Z, dt * ew3 * t343 * t502 * (1 / 6));
((iq + 1)%Z, (ibw + 1)%Z, t343 * t563 * (-1 / 2));
((iq + 1)%Z, (ibw + 2)%Z, dt * ew1 * t343 * t503 * (-1 / 6));
((iq + 2)%Z, (ip + 0)%Z, t615);
((iq + 2)%Z, (ip + 1)%Z, t616);
((iq + 2)%Z, (ip + 2)%Z, t617);
((iq + 2)%Z, (iv + 0)%Z, -t374 * t622 - t371 * (t451 + t452 - dt * t343 * (t442 + t582 - t583) * (1 / 3)) +
    t373 * (t452 - t623));
((iq + 2)%Z, (iv + 1)%Z, -t374 * t631 - t371 * t635 - t373 * (t626 - t627));
((iq + 2)%Z, (iv + 2)%Z, t647 - t374 * t641 - t373 * (t562 + dt * t343 * (t642 - t643) * (1 / 3)));
((iq + 2)%Z, (iq + 0)%Z, t652);
((iq + 2)%Z, (iq + 1)%Z, t655 - t373 * (t614 - t653) - dt * ew2 * ew3 * t343 * t374 * (1 / 3));
((iq + 2)%Z, (iq + 2)%Z, t371 * (dt - dt * t343 * t441 * (1 / 3)) + dt * t343 * t503 * (1 / 3) + dt * t343 *
    t373 * t429 * (1 / 3) + dt * t343 * t374 * t430 * (1 / 3));
((iq + 2)%Z, (ibw + 0)%Z, dt * ew2 * t343 * t502 * (-1 / 6));
((iq + 2)%Z, (ibw + 1)%Z, t657);
((iq + 2)%Z, (ibw + 2)%Z, t343 * t503 * (-1 / 2));
((ibw + 0)%Z, (iv + 0)%Z, dt * t343 * t362 * t502 * (-1 / 6));
((ibw + 0)%Z, (iv + 2)%Z, dt * t343 * t390 * t502 * (-1 / 6));
((ibw + 0)%Z, (iq + 0)%Z, t343 * t502 * (-1 / 2));
((ibw + 0)%Z, (iq + 2)%Z, dt * ew2 * t343 * t502 * (-1 / 6));
((ibw + 0)%Z, (ibw + 0)%Z, dt * t502);
((ibw + 1)%Z, (iv + 0)%Z, dt * t343 * t362 * t563 * (-1 / 6));
((ibw + 1)%Z, (iv + 1)%Z, dt * t343 * t388 * t563 * (-1 / 6));
((ibw + 1)%Z, (iv + 2)%Z, t656);
((ibw + 1)%Z, (iq + 1)%Z, t343 * t563 * (-1 / 2));
((ibw + 1)%Z, (iq + 2)%Z, t657);
((ibw + 1)%Z, (ibw + 1)%Z, dt * t563);
((ibw + 2)%Z, (iv + 0)%Z, dt * t343 * t362 * t503 * (-1 / 6));
((ibw + 2)%Z, (iv + 1)%Z, dt * t343 * t381 * t503 * (-1 / 6));
((ibw + 2)%Z, (iv + 2)%Z, dt * t343 * t394 * t503 * (-1 / 6));
((ibw + 2)%Z, (iq + 1)%Z, dt * ew1 * t343 * t503 * (-1 / 6));
((ibw + 2)%Z, (iq + 2)%Z, t343 * t503 * (-1 / 2));
((ibw + 2)%Z, (ibw + 2)%Z, dt * t503);
((iba + 0)%Z, (ip + 0)%Z, dt * t343 * t346 * t398 * (-1 / 6));
((iba + 0)%Z, (ip + 1)%Z, dt * t343 * t366 * t398 * (-1 / 6));
((iba + 0)%Z, (ip + 2)%Z, t658);
((iba + 0)%Z, (iv + 0)%Z, t343 * t346 * t398 * (-1 / 2));
((iba + 0)%Z, (iv + 1)%Z, t343 * t366 * t398 * (-1 / 2));
((iba + 0)%Z, (iv + 2)%Z, t659);
((iba + 0)%Z, (iba + 0)%Z, dt * t398);
((iba + 1)%Z, (ip + 0)%Z, t660);
((iba + 1)%Z, (ip + 1)%Z, dt * t343 * t367 * t399 * (-1 / 6));
((iba + 1)%Z, (ip + 2)%Z, dt * t343 * t372 * t399 * (-1 / 6));
((iba + 1)%Z, (iv + 0)%Z, t661);
((iba + 1)%Z, (iv + 1)%Z, t343 * t367 * t399 * (-1 / 2));
((iba + 1)%Z, (iv + 2)%Z, t343 * t372 * t399 * (-1 / 2));
((iba + 1)%Z, (iba + 1)%Z, dt * t399);
((iba + 2)%Z, (ip + 0)%Z, dt * t343 * t345 * t400 * (-1 / 6));
((iba + 2)%Z, (ip + 1)%Z, t662);
((iba + 2)%Z, (ip + 2)%Z, dt * t343 * t370 * t400 * (-1 / 6));
((iba + 2)%Z, (iv + 0)%Z, t343 * t345 * t400 * (-1 / 2));
((iba + 2)%Z, (iv + 1)%Z, t663);
((iba + 2)%Z, (iv + 2)%Z, t343 * t370 * t400 * (-1 / 2));
((iba + 2)%Z, (iba + 2)%Z, dt * t400)].
End CalcQCore.
