(** The continuous-time error dynamics the transition matrix is meant to integrate.
    Specification only; nothing here refers to the matrices of the code. *)

From Coq Require Import Reals.
From Verif Require Import Geom.
Open Scope R_scope.

Definition m3at (A : m3) (i j : nat) : R :=
  let r := match i with 0%nat => r1 A | 1%nat => r2 A | _ => r3 A end in
  match j with 0%nat => v3x r | 1%nat => v3y r | _ => v3z r end.

(** Matrix made of 3 by 3 blocks. *)
Definition of_blocks (B : nat -> nat -> m3) (i j : nat) : R :=
  m3at (B (i / 3)%nat (j / 3)%nat) (i mod 3) (j mod 3).

(** Errors of position, velocity, attitude, gyroscope bias and accelerometer bias, in this
    order, for constant attitude matrix C, specific force a and rate w:
    p' = v,  v' = - C [a] theta - C b_a,  theta' = - [w] theta - b_w,  b_w' = b_a' = 0. *)
Definition dynamics_block (C : m3) (a w : v3) (k l : nat) : m3 :=
  match k, l with
  | 0%nat, 1%nat => m3eye
  | 1%nat, 2%nat => m3neg (m3mul C (skew a))
  | 1%nat, 4%nat => m3neg C
  | 2%nat, 2%nat => m3neg (skew w)
  | 2%nat, 3%nat => m3neg m3eye
  | _, _ => m3zero
  end.
Definition dynamics (C : m3) (a w : v3) : nat -> nat -> R := of_blocks (dynamics_block C a w).

(** What truncating the attitude series after the second order leaves out of the derivative. *)
Definition dropped_block (w : v3) (t : R) (k l : nat) : m3 :=
  let w3 := m3mul (skew w) (m3mul (skew w) (skew w)) in
  match k, l with
  | 2%nat, 2%nat => m3scale (t * t / 2) w3
  | 2%nat, 3%nat => m3scale (- (t * t * t / 6)) w3
  | _, _ => m3zero
  end.
Definition dropped (w : v3) (t : R) : nat -> nat -> R := of_blocks (dropped_block w t).
