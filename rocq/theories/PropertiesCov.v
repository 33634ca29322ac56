(** C18-C20 and C23-C25: covariance algebra of updates and of the initial
    covariance, for every size and every real field. *)

From Coq Require Import ZArith.
From mathcomp Require Import all_ssreflect all_algebra.
From Verif Require Import PCore PCoreCert CovSpec Cov CovProofs.
Import GRing.Theory Num.Theory Order.TTheory.

Set Implicit Arguments.
Unset Strict Implicit.
Unset Printing Implicit Defensive.
Local Open Scope ring_scope.

Section Properties.
Variable F : realFieldType.

(** ** C18 *)

Theorem C18_update_keeps_covariance :
  forall n m enable thr (P : 'M[F]_n) (H : 'M[F]_(m, n)) (R : 'M[F]_m) r,
  cov_ok P -> sym R -> pd R ->
  exists o, abs_update enable thr P H R r = Some o /\
    forall c P', o = Applied c P' -> cov_ok P'.
Proof.
move=> n m en thr P H R r [sP pP] sR pR; rewrite /abs_update innov_unit //=.
case: (en && _); eexists; split; try reflexivity; first by [].
move=> c P' [_ <-].
have hs : sym (joseph P H R) by apply: joseph_sym.
split; first exact/symm_inplace_sym.
by rewrite symm_inplace_id //; apply: joseph_psd.
Qed.

(** ** C19 *)

Theorem C19_update_shrinks :
  forall n m enable thr (P : 'M[F]_n) (H : 'M[F]_(m, n)) (R : 'M[F]_m) r c P',
  cov_ok P -> sym R -> pd R ->
  abs_update enable thr P H R r = Some (Applied c P') ->
  P' = P - P *m H^T *m invmx (H *m P *m H^T + R) *m H *m P /\ psd (P - P').
Proof.
move=> n m en thr P H R r c P' [sP pP] sR pR; rewrite /abs_update innov_unit //=.
case: (en && _) => // -[_ <-].
have hs : sym (joseph P H R) by apply: joseph_sym.
rewrite symm_inplace_id //; split; first exact: joseph_short.
exact: joseph_le.
Qed.

(** ** C20 *)

Theorem C20_gate : forall n m X correct thr (H : 'M[F]_(m, n)) (R : 'M[F]_m) v (x : X) (P : 'M[F]_n) d,
  cov_ok P -> sym R -> pd R -> mahalanobis P H R v d ->
  (thr < d -> apply_abs correct true thr H R (Some v) (x, P) = Some (false, (x, P))) /\
  (d <= thr -> apply_abs correct true thr H R (Some v) (x, P) =
     Some (true, (correct (Some (P *m H^T *m invmx (H *m P *m H^T + R) *m v)) x,
                  P - P *m H^T *m invmx (H *m P *m H^T + R) *m H *m P))).
Proof.
move=> n m X correct thr H R v x P d [sP pP] sR pR [d0 hd].
rewrite /apply_abs /abs_update [(x, P).2]/= innov_unit //; split=> hthr.
- suff -> : gate thr P H R (Some v) by [].
  rewrite /gate /sqrt_gt -/(innov P H R) in hd *; rewrite -hd sqr_ge0 /=.
  case: (ltP thr 0) => //= h0.
  by rewrite ltr_pexpn2r // nnegrE.
- suff -> : gate thr P H R (Some v) = false.
    have hs : sym (joseph P H R) by apply: joseph_sym.
    by rewrite /= symm_inplace_id // joseph_short.
  rewrite /gate /sqrt_gt -/(innov P H R) in hd *; rewrite -hd sqr_ge0 /=.
  have h0 : 0 <= thr by apply: le_trans hthr.
  by rewrite ltNge h0 /= ltNge ler_pexpn2r ?nnegrE // hthr.
Qed.

(** The distance exists whenever a square root does; it is never negative. *)
Theorem C20_distance_defined : forall n m (P : 'M[F]_n) (H : 'M[F]_(m, n)) (R : 'M[F]_m) (v : 'cV[F]_m),
  cov_ok P -> sym R -> pd R -> 0 <= (v^T *m invmx (H *m P *m H^T + R) *m v) 0 0.
Proof.
move=> n m P H R v [sP pP] sR pR.
apply: (pd_psd (pd_inv _ _)); [exact: innov_sym|exact: innov_pd].
Qed.

(** Without rejection every numeric residual is used. *)
Theorem C20_disabled : forall n m X correct thr (H : 'M[F]_(m, n)) (R : 'M[F]_m) v (x : X) (P : 'M[F]_n),
  cov_ok P -> sym R -> pd R ->
  exists s, apply_abs correct false thr H R (Some v) (x, P) = Some (true, s).
Proof.
move=> n m X correct thr H R v x P [sP pP] sR pR.
rewrite /apply_abs /abs_update /= innov_unit //=.
by eexists.
Qed.

(** A residual that is not a number passes the gate and replaces the state. *)
Theorem C20_nan_accepted : forall n m X correct thr (H : 'M[F]_(m, n)) (R : 'M[F]_m) (x : X) (P : 'M[F]_n),
  cov_ok P -> sym R -> pd R ->
  exists P', apply_abs correct true thr H R None (x, P) = Some (true, (correct None x, P')).
Proof.
move=> n m X correct thr H R x P [sP pP] sR pR.
rewrite /apply_abs /abs_update /= innov_unit //=.
by eexists.
Qed.

Theorem C20_nan_refuted : exists (P R : 'M[F]_1) (H : 'M[F]_1) (s : option 'cV[F]_1 * 'M[F]_1),
  cov_ok P /\ sym R /\ pd R /\
  apply_abs (fun c _ => c) true 1 H R None (Some 0, P) = Some (true, s) /\ s.1 = None.
Proof.
exists 1%:M, 1%:M, 1%:M.
have [P' e] := @C20_nan_accepted 1 1 _ (fun c _ => c) 1 1%:M 1%:M (Some 0) 1%:M
  (conj (sym_scalar _ _) (psd_scalar ler01)) (sym_scalar _ _) (pd_scalar ltr01).
exists (None, P'); split; first by split; [exact: sym_scalar|exact: psd_scalar ler01].
by split; [exact: sym_scalar|split; [exact: pd_scalar ltr01|]].
Qed.

(** ** C23 *)

Theorem C23_relative_keeps_covariance :
  forall n m (Pold Fa Pnew : 'M[F]_n) (Hold Hnew : 'M[F]_(m, n)) (R : 'M[F]_m) r,
  cov_ok (block_mx Pold (Pold *m Fa^T) (Fa *m Pold) Pnew) -> sym R -> pd R ->
  exists c P', rel_update Pold Fa Pnew Hold Hnew R r = Some (c, P') /\ cov_ok P'.
Proof.
move=> n m Pold Fa Pnew Hold Hnew R r [sJ pJ] sR pR; rewrite /rel_update.
have -> : rel_innov Pold Fa Pnew Hold Hnew R \in unitmx by exact: innov_unit.
by do 2 eexists; split; [reflexivity|exact: rel_ok].
Qed.

(** The joint covariance the code assembles is one if the new covariance was
    predicted from the old one with the very matrix [Fa]. *)
Theorem C23_predicted_pair :
  forall n m (P Fa Q : 'M[F]_n) (Hold Hnew : 'M[F]_(m, n)) (R : 'M[F]_m) r,
  cov_ok P -> cov_ok Q -> sym R -> pd R ->
  exists c P', rel_update P Fa (Fa *m P *m Fa^T + Q) Hold Hnew R r = Some (c, P') /\ cov_ok P'.
Proof.
by move=> n m P Fa Q Hold Hnew R r hP hQ sR pR; apply: C23_relative_keeps_covariance => //; apply: joint_ok.
Qed.

(** ** C24 *)

Theorem C24_commuting_partial : forall n (l : seq 'M[F]_n),
  (forall A B, A \in l -> B \in l -> A *m B = B *m A) -> accumulate l = time_product l.
Proof.
move=> n l hl; rewrite /accumulate.
have gen : forall l (A : 'M[F]_n), foldl (fun A Fd => A *m Fd) A l = A *m foldl (fun A Fd => A *m Fd) 1%:M l.
  elim=> [|B r IH] A /=; first by rewrite mulmx1.
  by rewrite IH (IH (1%:M *m B)) mul1mx mulmxA.
elim: l hl => [//|A r IH] hl /=; rewrite mul1mx gen IH; last first.
  by move=> B C hB hC; apply: hl; rewrite inE ?hB ?hC orbT.
have {IH gen} : forall B, B \in r -> A *m B = B *m A.
  by move=> B hB; apply: hl; rewrite inE ?eqxx // hB orbT.
elim: r {hl} => [|B r IH] h /=; first by rewrite mulmx1 mul1mx.
have hr : forall B, B \in r -> A *m B = B *m A by move=> C hC; apply: h; rewrite inE hC orbT.
by rewrite mulmxA IH // -mulmxA h ?inE ?eqxx // mulmxA.
Qed.

(** In general it is the product with the later steps on the right. *)
Theorem C24_reversed : forall n (l : seq 'M[F]_n), accumulate l = time_product (rev l).
Proof.
move=> n; elim/last_ind => [//|l A IH].
by rewrite /accumulate -cats1 foldl_cat /= -/(accumulate l) IH rev_cat.
Qed.

(** Later steps on the right: two shears that do not commute. *)
Theorem C24_refuted : exists n (l : seq 'M[F]_n), accumulate l <> time_product l.
Proof.
exists 2%N, [:: m2 1 1 0 1; m2 1 0 1 1] => h.
have := congr1 (fun A : 'M_2 => A 0 0) h; rewrite /accumulate /= !mul1mx !m2M !mxE /=.
by move/eqP; rewrite !(mulr0, mulr1, addr0) -subr_eq0 addrK oner_eq0.
Qed.

(** Hence a relative measurement over two predictions can produce an indefinite
    covariance: exact prediction with two shears, old covariance diag(1, 0),
    measurement of the displacement of the first coordinate. *)
Theorem C23_two_predictions_refuted :
  exists (P F1 F2 : 'M[F]_2) (Hold Hnew : 'M[F]_(1, 2)) (R : 'M[F]_1) c P',
  cov_ok P /\ sym R /\ pd R /\
  rel_update P (accumulate [:: F1; F2]) (F2 *m (F1 *m P *m F1^T) *m F2^T) Hold Hnew R (Some 0)
    = Some (c, P') /\ ~ psd P'.
Proof.
pose P : 'M[F]_2 := m2 1 0 0 0.
pose Hn : 'M[F]_(1, 2) := (c2 1 0)^T; pose Ho : 'M[F]_(1, 2) := (c2 (-1) 0)^T.
have eN : m2 1 0 1 1 *m (m2 1 1 0 1 *m P *m (m2 1 1 0 1)^T) *m (m2 1 0 1 1)^T = m2 1 1 1 1.
  by rewrite /P !m2T !m2M !(mulr0, mul0r, mulr1, mul1r, addr0, add0r).
have eA : accumulate [:: m2 1 1 0 1; m2 1 0 1 1] = m2 2 1 1 1 :> 'M[F]_2.
  by rewrite /accumulate /= mul1mx m2M !(mulr0, mul0r, mulr1, mul1r, addr0, add0r).
have eS : rel_innov P (m2 2 1 1 1) (m2 1 1 1 1) Ho Hn 3%:M = 1%:M.
  rewrite rel_innovE /Ho /Hn /P !m2T !m2M !trmxK !r2m !r2c.
  rewrite !(mulr0, mul0r, mulr1, mul1r, addr0, add0r, mulN1r, mulrN1, opprK) -!raddfD /=.
  have h2 : 2 = 1 + 1 :> F by [].
  have h3 : 3 = 1 + 1 + 1 :> F by rewrite -addrA.
  by rewrite h2 h3 opprD !addrA subrr add0r !subrK addNr add0r.
have eK : rel_gain P (m2 2 1 1 1) (m2 1 1 1 1) Ho Hn 3%:M = c2 (-1) 0.
  rewrite rel_gainE eS invmx1 mulmx1 /Ho /Hn /P !trmxK !m2M !m2c c2D.
  rewrite !(mulr0, mul0r, mulr1, mul1r, addr0, add0r, mulrN1) addNr.
  by rewrite -[2]/(1 + 1) opprD subrK.
have eP : m2 1 1 1 1 - c2 (-1) 0 *m 1%:M *m (c2 (-1) 0)^T = m2 0 1 1 1 :> 'M[F]_2.
  by rewrite mulmx1 c2r m2B !(mulr0, mul0r, mulrN1, opprK, oppr0, addr0) subrr.
exists P, (m2 1 1 0 1), (m2 1 0 1 1), Ho, Hn, 3%:M; do 2 eexists.
split; [split; [by rewrite /sym /P m2T|]|].
  move=> x; rewrite (c2P x) qf2 !(mulr0, mul0r, mulr1, addr0, add0r) -expr2; exact: sqr_ge0.
split; [exact: sym_scalar|split; [by apply: pd_scalar; rewrite ltr0z|]].
rewrite eN eA /rel_update eS unitmx1 /=; split; first reflexivity.
rewrite eK eP symm_inplace_id; last by rewrite /sym m2T.
move/(_ (c2 1 (-1))); rewrite qf2 !(mulr0, mul0r, mulr1, mul1r, addr0, add0r, mulN1r, mulrN1).
by rewrite subrr oppr0 addr0 leNgt ltrN10.
Qed.

(** A relative update over a prediction during which an absolute measurement was
    fused (all matrices 1 x 1: unit covariance, no noise, absolute measurement with
    R = 1 makes the new covariance 1/2, then a relative measurement with R = 3/4)
    leaves a negative variance. *)
Theorem C23_absolute_between_refuted :
  exists (P Fa H Ra Hold Hnew R : 'M[F]_1) ca Pnew cr P',
  cov_ok P /\ sym Ra /\ pd Ra /\ sym R /\ pd R /\
  abs_update false 0 (Fa *m P *m Fa^T) H Ra (Some 0) = Some (Applied ca Pnew) /\
  rel_update P Fa Pnew Hold Hnew R (Some 0) = Some (cr, P') /\ ~ psd P'.
Proof.
pose h : F := 2^-1; pose q : F := h * h.
have h2 : 2 != 0 :> F by exact: two_neq0.
have hh : h + h = 1 by rewrite -[in RHS](mulfV h2) -[2]/(1 + 1) mulrDl mul1r.
have h0 : 0 < h by rewrite invr_gt0 ltr0z.
have qq : q + q = h by rewrite -mulrDl hh mul1r.
have q0 : 0 < q by rewrite mulr_gt0.
have qn : q != 0 by rewrite gt_eqF.
have eS : innov (1%:M *m 1%:M *m 1%:M^T) 1%:M 1%:M = 2%:M :> 'M[F]_1.
  by rewrite /innov !trmx1 !mulmx1 -raddfD.
have eK : gain (1%:M *m 1%:M *m 1%:M^T) 1%:M 1%:M = h%:M :> 'M[F]_1.
  by rewrite /gain eS !trmx1 !mulmx1 mul1mx invmx_scalar.
have eJ : joseph (1%:M *m 1%:M *m 1%:M^T) 1%:M 1%:M = h%:M :> 'M[F]_1.
  rewrite /joseph eK !trmx1 !mulmx1 -raddfB /= !tr_scalar_mx -!scalar_mxM -raddfD /=.
  by rewrite -{1 2}hh addrK qq.
have e1 : rel_innov (1%:M : 'M[F]_1) 1%:M h%:M (-1)%:M 1%:M (h + q)%:M = q%:M.
  rewrite rel_innovE !trmx1 !tr_scalar_mx !mulmx1 !mul1mx -!scalar_mxM -!raddfD /=.
  congr (_%:M); rewrite !(mulr1, mul1r, mulrN1, opprK) subrr add0r !addrA -(addrA (-1)) hh.
  by rewrite addNr add0r.
have e2 : rel_gain (1%:M : 'M[F]_1) 1%:M h%:M (-1)%:M 1%:M (h + q)%:M = (- h / q)%:M.
  rewrite rel_gainE e1 invmx_scalar !trmx1 !tr_scalar_mx !mulmx1 !mul1mx -!raddfD /=.
  by rewrite -scalar_mxM -hh opprD subrK.
have e3 : h%:M - (- h / q)%:M *m q%:M *m ((- h / q)%:M)^T = (- h)%:M :> 'M[F]_1.
  rewrite tr_scalar_mx -!scalar_mxM -raddfB /= mulfVK // mulrA mulrNN divff //.
  by rewrite -hh opprD addrA subrr add0r.
exists 1%:M, 1%:M, 1%:M, 1%:M, (-1)%:M, 1%:M, (h + q)%:M, (Some 0), h%:M; do 2 eexists.
split; [split; [exact: sym_scalar|by apply: psd_scalar; exact: ler01]|].
split; [exact: sym_scalar|split; [by apply: pd_scalar; exact: ltr01|]].
split; [exact: sym_scalar|split; [by apply: pd_scalar; rewrite addr_gt0|]].
split.
  rewrite /abs_update eS unitmxE det_scalar1 unitfE h2 /= mulmx0 eJ symm_inplace_id //.
  exact: sym_scalar.
rewrite /rel_update e1 unitmxE det_scalar1 unitfE qn /= e2 e3; split; first reflexivity.
rewrite symm_inplace_id; last exact: sym_scalar.
move/(_ 1%:M); rewrite qf1 !mxE eqxx expr1n mulr1 oppr_ge0 leNgt h0 //.
Qed.

(** ** C25 *)

(** With the symmetrisation as it reads, the claim holds up to the gyroscope biases;
    moreover the matrix is positive semidefinite. *)
Theorem C25_ideal_partial : forall k,
  let P := set_p_core (@symm_ideal F 15) k in
  cov_ok P /\
  (forall i : 'I_15, 0 < P (lshift k i) (lshift k i) <-> ~ (9 <= i < 12)%N) /\
  (forall i j : 'I_k, P (rshift 15 i) (rshift 15 j) = if i == j then 10%:R ^- 4 else 0) /\
  (forall (i : 'I_15) (j : 'I_k), P (lshift k i) (rshift 15 j) = 0 /\ P (rshift 15 j) (lshift k i) = 0).
Proof.
move=> k P; split; [|split; [|split]].
- split; first by rewrite /sym /P /set_p_core tr_block_mx !trmx0 tr_scalar_mx symm_ideal_sym.
  move=> x; rewrite /P qf_block addr_ge0 ?core_ideal_psd //.
  by apply: psd_scalar; rewrite invr_ge0 exprn_ge0 ?ler0n.
- move=> i; rewrite /P /set_p_core block_mxEul /symm_ideal !mxE half2 mulrC.
  rewrite pmulr_rgt0 ?invr_gt0 ?exprn_gt0 ?ltr0n // zf_gt0.
  suff -> : Z.ltb 0 (nth Z0 (nth [::] p_core i) i) = ~~ (9 <= i < 12)%N by split; [move/negP|move=> h; apply/negP].
  have /allP /(_ (i : nat)) : all (fun i => Z.ltb 0 (nth Z0 (nth [::] p_core i) i) == ~~ (9 <= i < 12)%N) (iota 0 15) by [].
  by rewrite mem_iota /= ltn_ord => /(_ isT) /eqP.
- by move=> i j; rewrite /P /set_p_core block_mxEdr mxE mulrb.
- by move=> i j; rewrite /P /set_p_core block_mxEur block_mxEdl !mxE.
Qed.

(** As evaluated, the quadratic form is still nonnegative and the auxiliary part is as
    above, *)
Theorem C25_actual_partial : forall k,
  let P := set_p_core (@symm_inplace F 15) k in
  psd P /\
  (forall i : 'I_15, 0 < P (lshift k i) (lshift k i) <-> ~ (9 <= i < 12)%N) /\
  (forall i j : 'I_k, P (rshift 15 i) (rshift 15 j) = if i == j then 10%:R ^- 4 else 0) /\
  (forall (i : 'I_15) (j : 'I_k), P (lshift k i) (rshift 15 j) = 0 /\ P (rshift 15 j) (lshift k i) = 0).
Proof.
move=> k P; split; [|split; [|split]].
- move=> x; rewrite /P qf_block addr_ge0 ?core_inplace_psd //.
  by apply: psd_scalar; rewrite invr_ge0 exprn_ge0 ?ler0n.
- move=> i; have [_ [h _]] := C25_ideal_partial k; rewrite -h /P /set_p_core !block_mxEul.
  by rewrite symm_inplaceE leqnn /symm_ideal !mxE.
- by move=> i j; rewrite /P /set_p_core block_mxEdr mxE mulrb.
- by move=> i j; rewrite /P /set_p_core block_mxEur block_mxEdl !mxE.
Qed.

(** but the matrix is not symmetric: the table is not, and averaging in place leaves
    the upper triangle three quarters original. *)
Theorem C25_never_symmetric : forall k, ~ sym (set_p_core (@symm_inplace F 15) k).
Proof.
move=> k h.
have hs : sym (symm_inplace (core_block F)).
  have := congr1 ulsubmx h; rewrite /set_p_core tr_block_mx !block_mxKul; exact.
move/symm_inplace_sym: hs => h'.
have := congr1 (fun A : 'M[F]_15 => A (inord 0) (inord 1)) h'.
have hn : (10%:R ^- 4 : F) != 0 by rewrite invr_eq0 expf_eq0 /= pnatr_eq0.
by rewrite !mxE !inordK // => /(mulIf hn) /zf_inj.
Qed.
Theorem C25_symmetric_refuted : exists k, ~ sym (set_p_core (@symm_inplace F 15) k).
Proof. by exists 0%N; exact: C25_never_symmetric. Qed.

(** Gyroscope biases start with variance zero. *)
Theorem C25_diagonal_refuted : exists k i, ~ 0 < set_p_core (@symm_inplace F 15) k i i.
Proof.
exists 0%N, (lshift 0 (inord 9)); have [_ [h _]] := C25_actual_partial 0.
by rewrite h inordK.
Qed.

(** ** Concrete instances of the hypotheses *)

(** Two states with correlated errors, the first measured: every hypothesis of
    C18-C20 and C23 holds and the update halves the first variance. *)
Definition exP : 'M[F]_2 := m2 1 1 1 2.
Definition exH : 'M[F]_(1, 2) := (c2 1 0)^T.

Lemma exP_ok : cov_ok exP.
Proof.
split; first by rewrite /sym m2T.
move=> x; rewrite (c2P x) qf2; set a := x 0 0; set b := x 1 0.
have -> : (a * 1 + b * 1) * a + (a * 1 + b * 2) * b = (a + b) * (a + b) + b * b.
  by rewrite !mulr1 -[2]/(1 + 1) (mulrDr b) mulr1 addrA (mulrDl _ b b) addrA -mulrDr.
by rewrite -!expr2 addr_ge0 ?sqr_ge0.
Qed.

Example C18_C19_example : cov_ok exP /\ sym (1%:M : 'M[F]_1) /\ pd (1%:M : 'M[F]_1) /\
  abs_update true 1 exP exH 1%:M (Some 1%:M) =
    Some (Applied (Some (c2 (2^-1) (2^-1))) (m2 (2^-1) (2^-1) (2^-1) (2 - 2^-1))).
Proof.
have hR := sym_scalar 1 (1 : F); have pR := pd_scalar (n := 1) (@ltr01 F).
split; [exact: exP_ok|split; [exact: hR|split; [exact: pR|]]].
have h1 : 1 - 2^-1 = 2^-1 :> F by rewrite -{1}(half2 (1 : F)) mulrDr mulr1 addrK.
have eS : innov exP exH 1%:M = 2%:M.
  by rewrite /innov trmxK r2m r2c !(mulr1, mul0r, mulr0, addr0) -raddfD.
have eK : gain exP exH 1%:M = c2 (2^-1) (2^-1).
  rewrite /gain eS invmx_scalar mul_mx_scalar trmxK m2c; apply/colP => -[[|[|//]] hi];
  by rewrite !mxE /= !(mulr1, mulr0, addr0).
have eJ : joseph exP exH 1%:M = m2 (2^-1) (2^-1) (2^-1) (2 - 2^-1).
  have [sP pP] := exP_ok; rewrite joseph_short // -/(innov _ _ _) eS invmx_scalar.
  rewrite trmxK m2c mul_mx_scalar.
  have -> : 2^-1 *: c2 (1 * 1 + 1 * 0) (1 * 1 + 2 * 0) = c2 (2^-1) (2^-1) :> 'cV[F]_2.
    by apply/colP => -[[|[|//]] hi]; rewrite !mxE /= !(mulr1, mulr0, addr0).
  by rewrite c2r m2M m2B !(mulr1, mulr0, mul0r, addr0) h1.
rewrite /abs_update /gate eS eK eJ unitmxE det_scalar1 unitfE two_neq0 /= invmx_scalar.
rewrite tr_scalar_mx -!scalar_mxM mxE eqxx !mul1r mulr1 /sqrt_gt ltr10 expr1n.
rewrite [1 < _]ltNge -{2}h1 ler_subl_addr ler_addl invr_ge0 ler0z andbF /= mulmx1.
by rewrite symm_inplace_id // /sym m2T.
Qed.

(** A residual of 1 was used above; one of 2 has squared distance 2 and is rejected
    at threshold 1. *)
Example C20_example : apply_abs (fun c _ => c) true 1 exH 1%:M (Some 2%:M) (None, exP)
  = Some (false, (None, exP)).
Proof.
have eS : innov exP exH 1%:M = 2%:M.
  by rewrite /innov trmxK r2m r2c !(mulr1, mul0r, mulr0, addr0) -raddfD.
rewrite /apply_abs /abs_update /gate eS unitmxE det_scalar1 unitfE two_neq0 /= invmx_scalar.
rewrite tr_scalar_mx -!scalar_mxM mxE eqxx mulfV ?two_neq0 // mul1r /sqrt_gt ltr10 expr1n.
by rewrite -[2]/(1 + 1) ltr_addl ltr01 addr_ge0 ?ler01.
Qed.

Example C23_example : cov_ok exP /\ cov_ok (1%:M : 'M[F]_2) /\
  m2 1 1 0 1 *m exP *m (m2 1 1 0 1)^T + 1%:M <> exP.
Proof.
split; [exact: exP_ok|split; [by split; [exact: sym_scalar|apply: psd_scalar; exact: ler01]|]].
rewrite m2T !m2M => /(congr1 (fun A : 'M[F]_2 => A 1 1)); rewrite !mxE /=.
by rewrite !(mulr1, mul0r, mul1r, add0r, mulr0, addr0) => /eqP; rewrite -subr_eq0 addrC addKr oner_eq0.
Qed.

Example C24_example : forall A : 'M[F]_2,
  accumulate [:: A; A *m A; A] = A *m A *m A *m A.
Proof. by move=> A; rewrite /accumulate /= mul1mx !mulmxA. Qed.
End Properties.
Print Assumptions C18_update_keeps_covariance.
Print Assumptions C19_update_shrinks.
Print Assumptions C20_gate.
Print Assumptions C20_distance_defined.
Print Assumptions C20_disabled.
Print Assumptions C20_nan_accepted.
Print Assumptions C20_nan_refuted.
Print Assumptions C23_relative_keeps_covariance.
Print Assumptions C23_predicted_pair.
Print Assumptions C24_commuting_partial.
Print Assumptions C24_reversed.
Print Assumptions C24_refuted.
Print Assumptions C23_two_predictions_refuted.
Print Assumptions C23_absolute_between_refuted.
Print Assumptions C25_ideal_partial.
Print Assumptions C25_actual_partial.
Print Assumptions C25_never_symmetric.
Print Assumptions C25_symmetric_refuted.
Print Assumptions C25_diagonal_refuted.
