(** Specification of the average similarity transform; uses the pairs of poses and the vector
    algebra only. *)

From Coq Require Import Reals List.
From mathcomp Require Import all_ssreflect all_algebra.
From Verif Require Import Geom RField Similarity.
Import GRing.Theory Num.Theory.

Set Implicit Arguments.
Unset Strict Implicit.
Unset Printing Implicit Defensive.
Local Open Scope ring_scope.

(** Singular value decomposition A = U diag(s) V^T: orthogonal U, V, singular values that do not
    increase and are not negative (Eigen's JacobiSVD). *)
Definition svd_ok (A : 'M[R]_4) (d : 'M[R]_4 * 'rV[R]_4 * 'M[R]_4) : Prop :=
  let '(U, s, V) := d in
  [/\ U^T *m U = 1%:M, V^T *m V = 1%:M, A = U *m diag_mx s *m V^T &
      (forall i, 0 <= s 0 i) /\ (forall i j : 'I_4, (i <= j)%N -> s 0 j <= s 0 i)].

(** Orthonormal eigenvectors, as columns, with eigenvalues that do not decrease (Eigen's
    SelfAdjointEigenSolver). *)
Definition eigen_ok (M : 'M[R]_4) (E : 'M[R]_4) : Prop := exists l : 'rV[R]_4,
  [/\ E^T *m E = 1%:M, M *m E = E *m diag_mx l & forall i j : 'I_4, (i <= j)%N -> l 0 i <= l 0 j].

Definition qdot (a b : quat) : R := Rplus (Rplus (Rplus (Rmult (qw a) (qw b)) (Rmult (qx a) (qx b))) (Rmult (qy a) (qy b))) (Rmult (qz a) (qz b)).

(** The second sensor sits at [p], turned by [q], in the frame of the first; its positions are
    multiples of [s]. *)
Definition rigged (p : v3) (q : quat) (s : R) (pp : pose_pair) : Prop :=
  qnorm2 (q1 pp) = IZR 1 /\
  v3scale s (t2 pp) = v3add (t1 pp) (m3vec (qrot (q1 pp)) p) /\
  (q2 pp = qmul (q1 pp) q \/ q2 pp = qscale (IZR (-1)) (qmul (q1 pp) q)).

(** The squared distances by which the pairs miss a transform. *)
Definition misfit (ms : seq pose_pair) (p : v3) (s : R) : R :=
  \sum_(pp <- ms) v3norm2 (v3sub (v3scale s (t2 pp)) (v3add (t1 pp) (m3vec (qrot (q1 pp)) p))).

(** Agreement of an orientation with the relative orientations of the pairs. *)
Definition agreement (ms : seq pose_pair) (q : quat) : R :=
  \sum_(pp <- ms) qdot (qmul (qconj (q1 pp)) (q2 pp)) q * qdot (qmul (qconj (q1 pp)) (q2 pp)) q.

Definition units (ms : seq pose_pair) : Prop := forall pp, List.In pp ms -> qnorm2 (q1 pp) = IZR 1.

(** The position of the second sensor in the axes of the first. *)
Definition seen (pp : pose_pair) : v3 := m3vec (m3tr (qrot (q1 pp))) (t2 pp).
