(** What it means to differentiate a measurement prediction with respect to the error
    state. *)

From Coq Require Import Reals Arith.
From Verif Require Import Geom.
Open Scope R_scope.

(** Derivatives at time 0, componentwise. *)
Definition deriv (f : R -> R) (l : R) : Prop := derivable_pt_lim f 0 l.
Definition deriv3 (f : R -> v3) (l : v3) : Prop :=
  deriv (fun t => v3x (f t)) (v3x l) /\ deriv (fun t => v3y (f t)) (v3y l) /\ deriv (fun t => v3z (f t)) (v3z l).
Definition derivq (f : R -> quat) (l : quat) : Prop :=
  deriv (fun t => qw (f t)) (qw l) /\ deriv (fun t => qx (f t)) (qx l) /\
  deriv (fun t => qy (f t)) (qy l) /\ deriv (fun t => qz (f t)) (qz l).

(** A number, a vector moving through [x] with velocity [d]. *)
Definition varies (f : R -> R) (x d : R) : Prop := f 0 = x /\ deriv f d.
Definition moves (f : R -> v3) (x d : v3) : Prop := f 0 = x /\ deriv3 f d.
(** A quaternion turning through [q] with the local angular velocity [w]: the attitude
    error multiplies from the right and is half the angle. *)
Definition turns (f : R -> quat) (q : quat) (w : v3) : Prop :=
  f 0 = q /\ derivq f (qmul q (Quat 0 (v3x w / 2) (v3y w / 2) (v3z w / 2))).

(** Matrix times vector, row [r]. *)
Fixpoint hsum (n : nat) (f : nat -> R) : R :=
  match n with O => 0 | S n' => hsum n' f + f n' end.
Definition hmul (n : nat) (H : nat -> nat -> R) (d : nat -> R) (r : nat) : R := hsum n (fun c => H r c * d c).

(** Three consecutive entries of an error vector. *)
Definition seg (d : nat -> R) (i : nat) : v3 := V3 (d i) (d (i + 1)%nat) (d (i + 2)%nat).
(** Three consecutive rows of a product. *)
Definition hmul3 (n : nat) (H : nat -> nat -> R) (d : nat -> R) (r : nat) : v3 :=
  V3 (hmul n H d r) (hmul n H d (r + 1)) (hmul n H d (r + 2)).

(** The parts of the error state are disjoint and inside a vector of length [n]. *)
Definition pos_ordered (n i_p i_q i_pip : nat) : Prop := (i_p + 3 <= i_q /\ i_q + 3 <= i_pip /\ i_pip + 3 <= n)%nat.
Definition pose_ordered (n i_p i_q i_L i_qwv i_pwv i_qic i_pic : nat) : Prop :=
  (i_p + 3 <= i_q /\ i_q + 3 <= i_L /\ i_L + 1 <= i_qwv /\ i_qwv + 3 <= i_pwv /\ i_pwv + 3 <= i_qic /\
   i_qic + 3 <= i_pic /\ i_pic + 3 <= n)%nat.

(** The derivative of a function that is defined near 0. *)
Definition oderiv (f : R -> option R) (l : R) : Prop :=
  exists g e, 0 < e /\ (forall t, Rabs t < e -> f t = Some (g t)) /\ deriv g l.

(** Entry [c] of the error state belongs to a part [a, a + len). *)
Definition part (a len c : nat) : Prop := (a <= c < a + len)%nat.
