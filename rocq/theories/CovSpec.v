(** What it means to be a covariance matrix: the specification notions for the
    covariance properties. *)

From mathcomp Require Import all_ssreflect all_algebra.
Import GRing.Theory Num.Theory.

Set Implicit Arguments.
Unset Strict Implicit.
Unset Printing Implicit Defensive.
Local Open Scope ring_scope.

Section Spec.
Variable F : realFieldType.

(** Quadratic form, symmetry, semidefiniteness, definiteness. *)
Definition qf n (P : 'M[F]_n) (x : 'cV[F]_n) : F := (x^T *m P *m x) 0 0.
Definition sym n (P : 'M[F]_n) : Prop := P^T = P.
Definition psd n (P : 'M[F]_n) : Prop := forall x, 0 <= qf P x.
Definition pd n (P : 'M[F]_n) : Prop := forall x, x != 0 -> 0 < qf P x.
Definition cov_ok n (P : 'M[F]_n) : Prop := sym P /\ psd P.

(** Product of transition matrices, later steps on the left. *)
Fixpoint time_product n (l : seq 'M[F]_n) : 'M[F]_n :=
  if l is A :: r then time_product r *m A else 1%:M.

(** [d] is the Mahalanobis distance of the residual [v]. *)
Definition mahalanobis n m (P : 'M[F]_n) (H : 'M[F]_(m, n)) (R : 'M[F]_m) (v : 'cV[F]_m) (d : F) : Prop :=
  0 <= d /\ d ^+ 2 = (v^T *m invmx (H *m P *m H^T + R) *m v) 0 0.
End Spec.
