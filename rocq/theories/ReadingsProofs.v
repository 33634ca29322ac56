(** Definite block matrices and turned covariances. *)

From Coq Require Import Reals ZArith Lra.
From mathcomp Require Import all_ssreflect all_algebra.
From Verif Require Import Geom GeomProofs RField Sensors SensorsProofs Cov CovSpec CovProofs Filter Readings.
Import GRing.Theory Num.Theory.

Set Implicit Arguments.
Unset Strict Implicit.
Unset Printing Implicit Defensive.
Local Open Scope ring_scope.

Lemma diag_block_sym n m (A : 'M[R]_n) (D : 'M[R]_m) : sym A -> sym D -> sym (block_mx A 0 0 D).
Proof. by move=> hA hD; rewrite /sym tr_block_mx hA hD !trmx0. Qed.

Lemma diag_block_qf n m (A : 'M[R]_n) (D : 'M[R]_m) x : qf (block_mx A 0 0 D) x = qf A (usubmx x) + qf D (dsubmx x).
Proof.
rewrite /qf -{1 2}[x]vsubmxK tr_col_mx mul_row_block mul_row_col !mulmx0 addr0 add0r.
by rewrite mxE.
Qed.

Lemma diag_block_pd n m (A : 'M[R]_n) (D : 'M[R]_m) : pd A -> pd D -> pd (block_mx A 0 0 D).
Proof.
move=> hA hD x hx; rewrite diag_block_qf.
have [hu|hu] := eqVneq (usubmx x) 0.
  have hd : dsubmx x != 0.
    by apply: contraNneq hx => hd; rewrite -[x]vsubmxK hu hd col_mx0.
  by rewrite hu /qf trmx0 !mul0mx mxE add0r; apply: hD.
apply: ltr_paddr; last exact: hA.
exact: (pd_psd hD).
Qed.

Lemma diag_block_ul n m (A : 'M[R]_(n + m)) : pd A -> pd (ulsubmx A).
Proof.
move=> hA x hx.
have h : col_mx x (0 : 'cV_m) != 0.
  by apply: contraNneq hx => /eqP; rewrite col_mx_eq0 => /andP [].
have := hA _ h; rewrite /qf -{1}[A]submxK tr_col_mx mul_row_block mul_row_col trmx0 !mul0mx !mulmx0 !addr0.
by [].
Qed.
Lemma diag_block_dr n m (A : 'M[R]_(n + m)) : pd A -> pd (drsubmx A).
Proof.
move=> hA x hx.
have h : col_mx (0 : 'cV_n) x != 0.
  by apply: contraNneq hx => /eqP; rewrite col_mx_eq0 => /andP [].
have := hA _ h; rewrite /qf -{1}[A]submxK tr_col_mx mul_row_block mul_row_col trmx0 !mul0mx !mulmx0 !add0r.
by [].
Qed.

Lemma turned_sym n (B C : 'M[R]_n) : sym B -> sym (C^T *m B *m C).
Proof. by move=> h; rewrite /sym !trmx_mul trmxK h mulmxA. Qed.
Lemma turned_pd n (B C : 'M[R]_n) : C \in unitmx -> pd B -> pd (C^T *m B *m C).
Proof.
move=> hC hB x hx; rewrite /qf.
have -> : x^T *m (C^T *m B *m C) *m x = (C *m x)^T *m B *m (C *m x) by rewrite trmx_mul !mulmxA.
apply: hB; apply: contraNneq hx => h.
by rewrite -[x]mul1mx -(mulVmx hC) -mulmxA h mulmx0.
Qed.

Lemma iso_sym n s : sym (iso n s).
Proof. by apply/matrixP=> i j; rewrite !mxE eq_sym; case: ifP => // /eqP ->. Qed.
Lemma iso_scalar n s : iso n s = (s * s)%:M.
Proof. by apply/matrixP=> i j; rewrite !mxE; case: ifP. Qed.
Lemma iso_pd n s : s <> 0 -> pd (iso n s).
Proof.
move=> h; rewrite iso_scalar; apply: pd_scalar; rewrite -expr2 exprn_even_gt0 //=; exact/eqP.
Qed.

Lemma yaw_pos : 0 < yaw_noise.
Proof. by apply/RltE; rewrite /yaw_noise R0E; change R0 with (IZR 0); lra. Qed.

(** Rotation matrices. *)
Lemma mx3_mul A B : mx3 (m3mul A B) = mx3 A *m mx3 B.
Proof.
apply/matrixP=> i j; rewrite !mxE !big_ord_recr big_ord0 /= !mxE /= !RaddE !RmulE R0E.
change R0 with (IZR 0).
case: i j => [[|[|[|i]]] hi] [[|[|[|j]]] hj] //=; cbv [m3mul m3vec m3tr m3at v3at v3dot r1 r2 r3 v3x v3y v3z]; case: A B => [[? ? ?] [? ? ?] [? ? ?]] [[? ? ?] [? ? ?] [? ? ?]]; ring.
Qed.
Lemma mx3_eye : mx3 m3eye = 1%:M.
Proof. by apply/matrixP=> i j; rewrite !mxE; case: i j => [[|[|[|i]]] hi] [[|[|[|j]]] hj]. Qed.
Lemma rot_unit q : qnorm2 q = IZR 1 -> mx3 (qrot q) \in unitmx.
Proof.
move=> h; have e := qrot_orth q h.
by have /mulmx1_unit [] : mx3 (m3tr (qrot q)) *m mx3 (qrot q) = 1%:M by rewrite -mx3_mul e mx3_eye.
Qed.
Lemma block_unit q : qnorm2 q = IZR 1 ->
  (block_mx (mx3 (qrot q)) 0 0 (mx3 (qrot q)) : 'M[R]_(3 + 3)) \in unitmx.
Proof.
by move=> h; rewrite unitmxE det_ublock unitrM -!unitmxE rot_unit.
Qed.
