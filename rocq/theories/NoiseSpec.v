(** How the sensor noise drives the continuous-time error dynamics.  Specification only;
    nothing here refers to the matrices of the code. *)

From Coq Require Import Reals.
From Verif Require Import Geom TransitionSpec.
Open Scope R_scope.

(** Errors p, v, theta, b_w, b_a (rows); white noise of the accelerometer, the gyroscope, the
    gyroscope bias and the accelerometer bias (columns):
    v' = ... - C n_a,  theta' = ... - n_w,  b_w' = n_bw,  b_a' = n_ba. *)
Definition inject_block (C : m3) (k s : nat) : m3 :=
  match k, s with
  | 1%nat, 0%nat => m3neg C
  | 2%nat, 1%nat => m3neg m3eye
  | 3%nat, 2%nat => m3eye
  | 4%nat, 3%nat => m3eye
  | _, _ => m3zero
  end.
Definition inject (C : m3) : nat -> nat -> R := of_blocks (inject_block C).

(** Densities of the twelve noise components. *)
Definition density (na nw nbw nba : R) (k : nat) : R :=
  match (k / 3)%nat with 0%nat => na * na | 1%nat => nw * nw | 2%nat => nbw * nbw | _ => nba * nba end.

Fixpoint total (n : nat) (f : nat -> R) : R := match n with O => 0 | S m => total m f + f m end.

(** Noise component [k] of a moment, seen in error [i] when the transition matrix since then is
    [Phi]; and the growth of the covariance of the errors i and j: Phi G S (Phi G)^T. *)
Definition spread (Phi : nat -> nat -> R) (C : m3) (i k : nat) : R := total 15 (fun l => Phi i l * inject C l k).
Definition noise_rate (Phi : nat -> nat -> R) (C : m3) (na nw nbw nba : R) (i j : nat) : R :=
  total 12 (fun k => density na nw nbw nba k * spread Phi C i k * spread Phi C j k).

(** [f] is the integral of [g] from 0. *)
Definition integral_of (g f : R -> R) : Prop := f 0 = 0 /\ forall t, derivable_pt_lim f t (g t).
