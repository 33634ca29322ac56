(** Covariance algebra of the measurement update
    (msf_core/include/msf_core/implementation/msf_measurement_inl.h) and of the
    initial covariance (msf_core_inl.h, SetPCore).  Definitions only.

    Matrices of any size over any real field [F]; rounding is not modelled.
    A residual that contains a not-a-number is [None] (then so is everything
    computed from it, as IEEE products with a NaN are NaN). *)

From Coq Require Import ZArith.
From mathcomp Require Import all_ssreflect all_algebra.
From mathcomp Require Import ssrZ.
From Verif Require Import PCore.
Import GRing.Theory Num.Theory.

Set Implicit Arguments.
Unset Strict Implicit.
Unset Printing Implicit Defensive.
Local Open Scope ring_scope.

Section Cov.
Variable F : realFieldType.

(** S = H P H' + R, lines 55 and 99 *)
Definition innov n m (P : 'M[F]_n) (H : 'M[F]_(m, n)) (R : 'M[F]_m) : 'M[F]_m :=
  H *m P *m H^T + R.

(** K = P H' S^-1, lines 56-57 and 100-101 ([invmx] is the inverse of an
    invertible matrix; the callers below test for invertibility) *)
Definition gain n m (P : 'M[F]_n) (H : 'M[F]_(m, n)) (R : 'M[F]_m) : 'M[F]_(n, m) :=
  P *m H^T *m invmx (innov P H R).

(** lines 72-74 and 116-118 *)
Definition joseph n m (P : 'M[F]_n) (H : 'M[F]_(m, n)) (R : 'M[F]_m) : 'M[F]_n :=
  let K := gain P H R in
  let KH := 1%:M - K *m H in
  KH *m P *m KH^T + K *m R *m K^T.

(** P = 0.5 * (P + P.transpose()), lines 77, 121, 195 and msf_core_inl.h line 88.
    Eigen evaluates the right hand side coefficient by coefficient straight into
    the left hand side, column by column (no temporary is made: the expression
    holds no matrix product), so later coefficients read overwritten ones. *)
Definition symm_step n (P : 'M[F]_n) (ij : 'I_n * 'I_n) : 'M[F]_n :=
  \matrix_(k, l) if (k, l) == ij then 2^-1 * (P k l + P l k) else P k l.
Definition traversal n : seq ('I_n * 'I_n) := [seq (i, j) | j <- enum 'I_n, i <- enum 'I_n].
Definition symm_inplace n (P : 'M[F]_n) : 'M[F]_n := foldl (@symm_step n) P (traversal n).
(** What the line reads as on paper. *)
Definition symm_ideal n (P : 'M[F]_n) : 'M[F]_n := 2^-1 *: (P + P^T).

(** sqrt(x) > t as evaluated in floating point: the square root of a negative
    number is not a number and the comparison is false, lines 65 and 109. *)
Definition sqrt_gt (x t : F) : bool := (0 <= x) && ((t < 0) || (t ^+ 2 < x)).

(** Result of CalculateAndApplyCorrection, lines 36-80 and 83-124: either nothing
    happens, or the covariance is replaced and the correction vector (not a number:
    [None]) is handed to ApplyCorrection. *)
Inductive outcome n := Rejected | Applied (c : option 'cV[F]_n) (P : 'M[F]_n).
Arguments Rejected {n}.
Arguments Applied {n}.

(** The Mahalanobis gate, lines 59-69 and 103-113; a not-a-number residual gives a
    not-a-number distance and the comparison is false. *)
Definition gate n m (thr : F) (P : 'M[F]_n) (H : 'M[F]_(m, n)) (R : 'M[F]_m)
           (r : option 'cV[F]_m) : bool :=
  if r is Some v then sqrt_gt ((v^T *m invmx (innov P H R) *m v) 0 0) thr else false.

(** [None]: the innovation covariance has no inverse (then the result of the code
    is infinities or not-a-numbers; not modelled further). *)
Definition abs_update n m (enable : bool) (thr : F) (P : 'M[F]_n) (H : 'M[F]_(m, n))
           (R : 'M[F]_m) (r : option 'cV[F]_m) : option (outcome n) :=
  if innov P H R \notin unitmx then None
  else if enable && gate thr P H R r then Some Rejected
  else Some (Applied (omap (mulmx (gain P H R)) r) (symm_inplace (joseph P H R))).

(** The same on a state with variables in [X]; [correct] is ApplyCorrection.  The
    boolean tells whether ApplyCorrection was reached. *)
Definition apply_abs n m (X : Type) (correct : option 'cV[F]_n -> X -> X) (enable : bool)
           (thr : F) (H : 'M[F]_(m, n)) (R : 'M[F]_m) (r : option 'cV[F]_m)
           (s : X * 'M[F]_n) : option (bool * (X * 'M[F]_n)) :=
  omap (fun o => match o with
                 | Rejected => (false, s)
                 | Applied c P => (true, (correct c s.1, P))
                 end) (abs_update enable thr s.2 H R r).

(** CalculateAndApplyCorrectionRelative, lines 128-198.  [Fa] is the accumulated
    transition matrix. *)
Definition joint_cov n (Pold Fa Pnew : 'M[F]_n) : 'M[F]_(n + n) :=
  block_mx Pold (Pold *m Fa^T) (Fa *m Pold) Pnew.

Definition rel_innov n m (Pold Fa Pnew : 'M[F]_n) (Hold Hnew : 'M[F]_(m, n)) (R : 'M[F]_m) :=
  innov (joint_cov Pold Fa Pnew) (row_mx Hold Hnew) R.

Definition rel_gain n m (Pold Fa Pnew : 'M[F]_n) (Hold Hnew : 'M[F]_(m, n)) (R : 'M[F]_m)
  : 'M[F]_(n, m) := dsubmx (gain (joint_cov Pold Fa Pnew) (row_mx Hold Hnew) R).

Definition rel_update n m (Pold Fa Pnew : 'M[F]_n) (Hold Hnew : 'M[F]_(m, n)) (R : 'M[F]_m)
           (r : option 'cV[F]_m) : option (option 'cV[F]_n * 'M[F]_n) :=
  if rel_innov Pold Fa Pnew Hold Hnew R \notin unitmx then None
  else let K := rel_gain Pold Fa Pnew Hold Hnew R in
       Some (omap (mulmx K) r,
             symm_inplace (Pnew - K *m rel_innov Pold Fa Pnew Hold Hnew R *m K^T)).

(** GetAccumulatedStateTransitionStochasticCloning, msf_core_inl.h lines 425-440:
    [l] are the Fd of the states from the old one up to (not including) the new one,
    oldest first. *)
Definition accumulate n (l : seq 'M[F]_n) : 'M[F]_n := foldl (fun A Fd => A *m Fd) 1%:M l.

(** Fd P Fd' + Qd, msf_core_inl.h line 538 *)
Definition propagate_cov n (Fd Qd P : 'M[F]_n) : 'M[F]_n := Fd *m P *m Fd^T + Qd.

(** ClearCrossCov, msf_state_inl.h lines 288-312, for the index range [a, a + l):
    save the diagonal block, zero the rows and columns, write the block back. *)
Definition in_range (a l i : nat) : bool := ((a <= i) && (i < a + l))%N.
Definition clear_cross n (a l : nat) (P : 'M[F]_n) : 'M[F]_n :=
  \matrix_(i, j) if in_range a l i && in_range a l j then P i j
                 else if in_range a l i || in_range a l j then 0 else P i j.

(** Integers in [F]. *)
Definition zf (z : Z) : F := (int_of_Z z)%:~R.

(** SetPCore, lines 58-90: the scaled identity with the symmetrised 15 x 15 block
    in the upper left corner ([sym] is the symmetrisation). *)
Definition core_block : 'M[F]_15 :=
  \matrix_(i, j) (zf (nth Z0 (nth [::] p_core i) j) / 10%:R ^+ 4).
Definition set_p_core (sym : 'M[F]_15 -> 'M[F]_15) k : 'M[F]_(15 + k) :=
  block_mx (sym core_block) 0 0 (10%:R ^- 4)%:M.
End Cov.
Arguments Rejected {F n}.
Arguments Applied {F n}.
