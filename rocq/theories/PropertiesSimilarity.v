(** C59: the average similarity transform between two sets of poses. *)

From Coq Require Import Reals Lra.
From mathcomp Require Import all_ssreflect all_algebra.
From Verif Require Import Geom GeomProofs RField Messages Gps GpsProofs Sensors SensorsProofs Cov CovSpec CovProofs
  Similarity SimilaritySpec SimilarityProofs.
Import Order.Theory GRing.Theory Num.Theory.

Set Implicit Arguments.
Unset Strict Implicit.
Unset Printing Implicit Defensive.
Local Open Scope ring_scope.

Lemma sum_In (T : Type) (s : seq T) (f g : T -> R) : (forall x, List.In x s -> f x = g x) ->
  \sum_(x <- s) f x = \sum_(x <- s) g x.
Proof.
elim: s => [|x s IH] h; first by rewrite !big_nil.
by rewrite !big_cons h ?IH //=; [move=> y hy; apply: h; right|left].
Qed.

Lemma rows_misfit ms p s : units ms -> nrm2 (rows_A ms *m unknowns p s - rows_b ms) = misfit ms p s.
Proof.
move=> hu; rewrite rows_nrm2; apply: sum_In => pp /hu h; rewrite row_misfit_world //; congr v3norm2.
by case: (t2 pp) (t1 pp) (m3vec _ p) => [? ? ?] [? ? ?] [? ? ?]; rewrite /v3sub /v3add /v3scale /=; f_equal; ring.
Qed.

Lemma compute_some eig svd eps ms : (2 <= size ms)%N -> exists r,
  compute eig svd eps ms = Some r /\
  unknowns (s_position r) (s_scale r) =
    (svd (A_hat ms)).2 *m S_hat eps (svd (A_hat ms)).1.2 *m (svd (A_hat ms)).1.1^T *m b_hat ms /\
  coeff_mx (s_orientation r) = col (inord 3) (eig (outer_sum ms)).
Proof.
move=> h; rewrite /compute ltnNge h /=; case: (svd _) => [[U s] V] /=; eexists; split; first by [].
by rewrite /= -cV4_unknowns -cV4_coeff.
Qed.

(** ** Position and scale are the ones of least squares, as long as no singular value is cut
    off. *)
Theorem C59_least_squares eig svd eps ms : (2 <= size ms)%N -> units ms ->
  0 < eps -> svd_ok (A_hat ms) (svd (A_hat ms)) -> (forall i, eps <= (svd (A_hat ms)).1.2 0 i) ->
  exists r, compute eig svd eps ms = Some r /\
    forall p s, misfit ms (s_position r) (s_scale r) <= misfit ms p s.
Proof.
move=> hm hu he; have [r [hr [hx _]]] := compute_some eig svd eps hm.
move: hx; case E: (svd (A_hat ms)) => [[U sg] V] /= hx hsvd hs; exists r; split=> // p s.
rewrite -!rows_misfit //; apply: normal_least; rewrite hx.
have h1 := pseudo_inverse he hsvd hs; have h2 := mulmx1C h1.
by rewrite -/(A_hat ms) !mulmxA -(mulmxA (A_hat ms)) -(mulmxA (A_hat ms)) h2 mul1mx.
Qed.

(** ** The orientation is a unit quaternion that agrees best. *)
Theorem C59_orientation eig svd eps ms : (2 <= size ms)%N -> units ms ->
  eigen_ok (outer_sum ms) (eig (outer_sum ms)) ->
  exists r, compute eig svd eps ms = Some r /\ qnorm2 (s_orientation r) = IZR 1 /\
    forall q, qnorm2 q = IZR 1 -> agreement ms q <= agreement ms (s_orientation r).
Proof.
move=> hm hu he; have [r [hr [_ hq]]] := compute_some eig svd eps hm; exists r; split=> //.
have hn : nrm2 (coeff_mx (s_orientation r)) = 1 by rewrite hq; apply: eigen_unit he.
split; first by rewrite -coeff_nrm2 hn.
have ag q : agreement ms q = qf (outer_sum ms) (coeff_mx q).
  by rewrite outer_qf; apply: sum_In => pp /hu h; rewrite qinverse_unit.
by move=> q h; rewrite !ag hq; apply: eigen_max => //; rewrite coeff_nrm2 h.
Qed.

(** ** Exact poses give the exact transform (the orientation up to its sign). *)

Lemma qdot_max a b : qnorm2 a = IZR 1 -> qnorm2 b = IZR 1 -> Rle (IZR 1) (Rmult (qdot a b) (qdot a b)) ->
  b = a \/ b = qscale (IZR (-1)) a.
Proof.
move=> ha hb h.
have key k : Rmult k k = IZR 1 -> qdot a b = k -> b = qscale k a.
  move=> hk hd.
  have : qnorm2 (Quat (Rminus (qw b) (Rmult k (qw a))) (Rminus (qx b) (Rmult k (qx a)))
                      (Rminus (qy b) (Rmult k (qy a))) (Rminus (qz b) (Rmult k (qz a)))) = IZR 0.
    have -> : qnorm2 (Quat (Rminus (qw b) (Rmult k (qw a))) (Rminus (qx b) (Rmult k (qx a)))
                      (Rminus (qy b) (Rmult k (qy a))) (Rminus (qz b) (Rmult k (qz a)))) =
        Rplus (Rminus (qnorm2 b) (Rmult (Rmult (IZR 2) k) (qdot a b))) (Rmult (Rmult k k) (qnorm2 a)).
      by rewrite /qnorm2 /qdot /=; ring.
    by rewrite ha hb hd Rmult_assoc hk; ring.
  rewrite /qnorm2 /= => h0.
  have sq x y z w : Rplus (Rplus (Rplus (Rmult x x) (Rmult y y)) (Rmult z z)) (Rmult w w) = IZR 0 ->
      [/\ x = IZR 0, y = IZR 0, z = IZR 0 & w = IZR 0].
    by move=> e; split; nra.
  have [e1 e2 e3 e4] := sq _ _ _ _ h0.
  by case: b {hb hd h h0} e1 e2 e3 e4 => ? ? ? ? /= *; rewrite /qscale; f_equal; lra.
have cs : Rle (Rmult (qdot a b) (qdot a b)) (IZR 1).
  have : Rle (Rmult (qdot a b) (qdot a b)) (Rmult (qnorm2 a) (qnorm2 b)).
    rewrite /qdot /qnorm2; case: a {ha h key} => a0 a1 a2 a3; case: b {hb} => b0 b1 b2 b3 /=.
    have s1 := Rle_0_sqr (Rminus (Rmult a0 b1) (Rmult a1 b0)); have s2 := Rle_0_sqr (Rminus (Rmult a0 b2) (Rmult a2 b0)).
    have s3 := Rle_0_sqr (Rminus (Rmult a0 b3) (Rmult a3 b0)); have s4 := Rle_0_sqr (Rminus (Rmult a1 b2) (Rmult a2 b1)).
    have s5 := Rle_0_sqr (Rminus (Rmult a1 b3) (Rmult a3 b1)); have s6 := Rle_0_sqr (Rminus (Rmult a2 b3) (Rmult a3 b2)).
    rewrite /Rsqr in s1 s2 s3 s4 s5 s6; lra.
  by rewrite ha hb Rmult_1_l.
have : Rmult (Rminus (qdot a b) (IZR 1)) (Rplus (qdot a b) (IZR 1)) = IZR 0 by lra.
case/Rmult_integral => e; [left|right].
  rewrite (key (IZR 1)); [|lra|lra].
  by case: a {ha hb h key cs e} => ? ? ? ?; rewrite /qscale /=; f_equal; ring.
by rewrite (key (IZR (-1))) //; lra.
Qed.

Lemma relative_orientation p q s pp : rigged p q s pp ->
  qmul (qconj (q1 pp)) (q2 pp) = q \/ qmul (qconj (q1 pp)) (q2 pp) = qscale (IZR (-1)) q.
Proof.
case=> h [_ h2].
have e : qmul (qconj (q1 pp)) (qmul (q1 pp) q) = qscale (qnorm2 (q1 pp)) q.
  by case: (q1 pp) q {h h2} => ? ? ? ? [? ? ? ?]; rewrite /qmul /qconj /qscale /qnorm2 /=; f_equal; ring.
have e1 : qscale (IZR 1) q = q by case: q {h2 e} => ? ? ? ?; rewrite /qscale /=; f_equal; ring.
case: h2 => ->; [left|right]; first by rewrite e h.
have -> : qmul (qconj (q1 pp)) (qscale (IZR (-1)) (qmul (q1 pp) q)) = qscale (IZR (-1)) (qmul (qconj (q1 pp)) (qmul (q1 pp) q)).
  by case: (q1 pp) q {h e e1} => ? ? ? ? [? ? ? ?]; rewrite /qmul /qconj /qscale /=; f_equal; ring.
by rewrite e h e1.
Qed.

Theorem C59_exact_partial eig svd eps ms p q s : (2 <= size ms)%N -> qnorm2 q = IZR 1 ->
  (forall pp, List.In pp ms -> rigged p q s pp) ->
  eigen_ok (outer_sum ms) (eig (outer_sum ms)) ->
  0 < eps -> svd_ok (A_hat ms) (svd (A_hat ms)) -> (forall i, eps <= (svd (A_hat ms)).1.2 0 i) ->
  exists r, compute eig svd eps ms = Some r /\ s_position r = p /\ s_scale r = s /\
    (s_orientation r = q \/ s_orientation r = qscale (IZR (-1)) q).
Proof.
move=> hm hq hr he heps hsvd hs.
have hu : units ms by move=> pp /hr [].
have [r [hc [hn hmax]]] := C59_orientation svd eps hm hu he; exists r; split=> //.
have [r' [hc' [hx _]]] := compute_some eig svd eps hm.
move: hc'; rewrite hc => -[e]; rewrite -{r'}e in hx.
have sol : unknowns (s_position r) (s_scale r) = unknowns p s.
  have hz : rows_A ms *m unknowns p s = rows_b ms.
    apply/eqP; rewrite -subr_eq0; apply/eqP; apply: nrm2_eq0; rewrite rows_misfit // /misfit.
    rewrite (sum_In (g := fun _ => 0)) ?big1 // => pp /hr [_ [-> _]].
    by rewrite v3sub_self /v3norm2 /v3dot /=; Rring.
  move: hx hsvd hs; case E: (svd (A_hat ms)) => [[U sg] V] /= -> hsvd hs.
  by rewrite /b_hat -hz [_^T *m (_ *m _)]mulmxA -/(A_hat ms) mulmxA (pseudo_inverse heps hsvd hs) mul1mx.
have [u0 u1 u2 u3] := unknowns_at p s; have [y0 y1 y2 y3] := unknowns_at (s_position r) (s_scale r).
have v3E (a b : v3) : v3x a = v3x b -> v3y a = v3y b -> v3z a = v3z b -> a = b by apply: v3_eq.
split; first by apply: v3E; rewrite -?y0 -?y1 -?y2 sol ?u0 ?u1 ?u2.
split; first by rewrite -y3 sol u3.
have val q' : agreement ms q' = (size ms)%:R * (qdot q q' * qdot q q').
  rewrite /agreement (sum_In (g := fun _ => qdot q q' * qdot q q')).
    by rewrite big_const_seq count_predT iter_addr_0 mulr_natl.
  move=> pp /hr h; case: (relative_orientation h) => -> //.
  have -> : qdot (qscale (IZR (-1)) q) q' = - qdot q q' by rewrite /qdot /qscale /=; Rring.
  by rewrite mulrNN.
have := hmax q hq; rewrite !val ler_pmul2l ?ltr0n; last by apply: leq_trans hm.
have -> : qdot q q = IZR 1 by rewrite -hq.
rewrite !RmulE Rmult_1_l => /RleE hd.
by apply: qdot_max.
Qed.

(** Missing in [C59_exact_partial]: data whose smallest singular value lies below [eps]. *)
Definition C59_full : Prop := forall eig svd eps ms p q s, (2 <= size ms)%N -> qnorm2 q = IZR 1 ->
  (forall pp, List.In pp ms -> rigged p q s pp) ->
  eigen_ok (outer_sum ms) (eig (outer_sum ms)) -> 0 < eps -> svd_ok (A_hat ms) (svd (A_hat ms)) ->
  exists r, compute eig svd eps ms = Some r /\ s_position r = p /\ s_scale r = s.

(** The singular values are positive if the second sensor, seen from the first, is at two
    different places; and only then. *)
Theorem C59_enough_motion ms U s V : units ms -> svd_ok (A_hat ms) (U, s, V) -> ms <> [::] ->
  (forall i, 0 < s 0 i) <-> exists a b, List.In a ms /\ List.In b ms /\ seen a <> seen b.
Proof.
move=> hu hsvd hne.
have sE pp : List.In pp ms -> qtransform (qinverse (q1 pp)) (t2 pp) = seen pp.
  by move=> /hu h; rewrite qinverse_unit // qtransform_all /seen qrot_tr_conj.
have kerE (x : 'cV[R]_4) : A_hat ms *m x = 0 <-> rows_A ms *m x = 0.
  split=> [h|h]; last by rewrite /A_hat -mulmxA h mulmx0.
  by apply: nrm2_eq0; rewrite /nrm2 trmx_mul -mulmxA [(rows_A ms)^T *m _]mulmxA -/(A_hat ms) h mulmx0 mxE.
split.
- move=> hs.
  case: ms hne hu hsvd sE kerE => [//|m0 ms] _ hu hsvd sE kerE.
  have dec a : {seen a = seen m0} + {seen a <> seen m0}.
    case: (seen a) (seen m0) => [a1 a2 a3] [b1 b2 b3].
    case: (Req_EM_T a1 b1) => [->|n]; last by right=> -[].
    case: (Req_EM_T a2 b2) => [->|n]; last by right=> -[].
    by case: (Req_EM_T a3 b3) => [->|n]; [left|right=> -[]].
  case: (List.Forall_Exists_dec (fun a => seen a = seen m0) dec (m0 :: ms)) => h; last first.
    move/List.Exists_exists: h => [a [ha hd]]; exists a, m0; split=> //; split=> //; exact: List.in_eq.
  exfalso; move/List.Forall_forall: h => h.
  have k0 : A_hat (m0 :: ms) *m unknowns (seen m0) (IZR 1) = 0.
    apply/kerE; apply/rows_kernel => pp hp; rewrite sE // h //.
    by case: (seen m0) => ? ? ?; rewrite /v3scale /=; f_equal; ring.
  have z0 : unknowns (seen m0) (IZR 1) = 0.
    case: hsvd k0 => hU hV -> _ k0.
    have : diag_mx s *m (V^T *m unknowns (seen m0) (IZR 1)) = 0.
      by rewrite -[LHS]mul1mx -hU -!mulmxA [U *m _]mulmxA [U *m _ *m _]mulmxA k0 mulmx0.
    set y := V^T *m _ => hy.
    have y0 : y = 0.
      apply/matrixP => i j; rewrite [RHS]mxE (ord1 j).
      have /matrixP /(_ i 0) := hy; rewrite mul_diag_mx !mxE => /eqP.
      by rewrite mulf_eq0 (gt_eqF (hs i)) /= => /eqP.
    by rewrite -[LHS]mul1mx -(mulmx1C hV) -mulmxA -/y y0 mulmx0.
  by have [_ _ _] := unknowns_at (seen m0) (IZR 1); rewrite z0 mxE => /eqP; rewrite eq_sym oner_eq0.
- move=> [a [b [ha [hb hd]]]] i.
  rewrite lt_def; have [_ _ _ [h0 _]] := hsvd; rewrite h0 andbT; apply/eqP => hz; apply: hd.
  have [x hx hk] := svd_kernel hsvd hz.
  move: hx hk; rewrite [x]cV4_unknowns; set p := V3 _ _ _; set k := x _ _ => hx /kerE /rows_kernel hk.
  have k0 : k != 0.
    apply: contraNneq hx => k0; apply/eqP.
    have hp := hk a ha; rewrite k0 /v3scale !Rmult_0_l in hp.
    apply/matrixP => r c; rewrite !mxE -hp k0 /=.
    by case: (val r) => [|[|[|]]].
  have solve pp : List.In pp ms -> seen pp = v3scale (Rinv k) p.
    move=> hp; rewrite -(hk pp hp) sE //; case: (seen pp) => ? ? ?; rewrite /v3scale /=.
    by f_equal; field; apply/eqP.
  by rewrite (solve a ha) (solve b hb).
Qed.

(** ** Cut off singular values *)

(** Two pairs with parallel axes, the second sensor at +d and -d. *)
Definition two_pairs (d : R) (q : quat) (p : v3) (s : R) : seq pose_pair :=
  [:: PosePair (v3sub (V3 (Rmult s d) (IZR 0) (IZR 0)) p) qone (V3 d (IZR 0) (IZR 0)) q;
      PosePair (v3sub (V3 (Ropp (Rmult s d)) (IZR 0) (IZR 0)) p) qone (V3 (Ropp d) (IZR 0) (IZR 0)) q].
Definition two_values (d : R) : 'rV[R]_4 := \row_i if (i < 3)%N then IZR 2 else Rmult (IZR 2) (Rmult d d).

Lemma two_rigged d q p s pp : List.In pp (two_pairs d q p s) -> rigged p q s pp.
Proof.
have q1q : qmul qone q = q by case: q => ? ? ? ?; rewrite /qmul /qone /=; f_equal; ring.
have n1 : qnorm2 qone = IZR 1 by rewrite /qnorm2 /qone /=; ring.
case=> [<-|[<-|[]]] /=; split=> //=; rewrite q1q qrot_one m3eye_vec; split; try by left.
- by case: p => ? ? ?; rewrite /v3scale /v3add /v3sub /=; f_equal; ring.
- by case: p => ? ? ?; rewrite /v3scale /v3add /v3sub /=; f_equal; ring.
Qed.

Lemma inverse_one : qinverse qone = qone.
Proof. by rewrite qinverse_unit /qnorm2 /qone /=; [rewrite /qconj /=; f_equal; ring|ring]. Qed.
Lemma transform_one x : qtransform qone x = x.
Proof. by rewrite qtransform_all qrot_one m3eye_vec. Qed.

Lemma two_A d q p s : A_hat (two_pairs d q p s) = diag_mx (two_values d).
Proof.
apply/matrixP => i j; rewrite !mxE.
pose f (r : nat) := rows_A (two_pairs d q p s) (inord r) i * rows_A (two_pairs d q p s) (inord r) j.
rewrite (eq_bigr (fun r : 'I_6 => f r)); last by move=> r _; rewrite /f !mxE inord_val.
rewrite -[6%N]/(2 * 3)%N sum3 !big_ord_recl big_ord0 /f /= {f}.
by case: i => [[|[|[|[|]]]] hi] //=; case: j => [[|[|[|[|]]]] hj] //=;
  rewrite !mxE /= !inordK //= ?inverse_one ?transform_one /= ?mulr0n ?mulr1n; Rring.
Qed.

Lemma two_svd d : Rle (Rmult d d) (IZR 1) -> svd_ok (diag_mx (two_values d)) (1%:M, two_values d, 1%:M).
Proof.
move=> h; split; rewrite ?trmx1 ?mulmx1 ?mul1mx //; split=> [i|i j hij]; rewrite !mxE.
  by case: ifP => _; apply/RleE; match goal with |- Rle _ ?b => change (Rle (IZR 0) b) end; nra.
case: (ltnP j 3) => hj; first by rewrite (leq_ltn_trans hij hj).
by case: ifP => _; apply/RleE; lra.
Qed.

Definition unit_col (k : nat) : 'cV[R]_4 := \col_i if val i == k then 1 else 0.
(** The identity with columns 2 and 3 exchanged. *)
Definition swapped : 'M[R]_4 := \matrix_(i, j)
  match val i, val j with 0%N, 0%N | 1%N, 1%N | 2%N, 3%N | 3%N, 2%N => 1 | _, _ => 0 end.
Definition half_turn : quat := Quat (IZR 0) (IZR 0) (IZR 0) (IZR 1).

Lemma two_M d p s : eigen_ok (outer_sum (two_pairs d half_turn p s)) swapped.
Proof.
have e : qmul qone half_turn = half_turn by rewrite /qmul /qone /half_turn /=; f_equal; ring.
have M2 : outer_sum (two_pairs d half_turn p s) = \matrix_(i, j) if (val i == 2%N) && (val j == 2%N) then IZR 2 else 0.
  rewrite /outer_sum /two_pairs !big_cons big_nil /= !inverse_one e.
  apply/matrixP => i j; rewrite !mxE !big_ord1 !mxE /=.
  by case: i => [[|[|[|[|]]]] hi] //=; case: j => [[|[|[|[|]]]] hj] //=; Rring.
exists (\row_i if val i == 3%N then IZR 2 else 0); split.
- apply/matrixP => i j; rewrite !mxE big4 !mxE /= !inordK //=.
  by case: i => [[|[|[|[|]]]] hi] //=; case: j => [[|[|[|[|]]]] hj] //=; rewrite ?mulr0n ?mulr1n; Rring.
- rewrite M2; apply/matrixP => i j; rewrite !mxE !big4 !mxE /= !inordK //= -!val_eqE /= !inordK //=.
  by case: i => [[|[|[|[|]]]] hi] //=; case: j => [[|[|[|[|]]]] hj] //=; rewrite ?mulr0n ?mulr1n; Rring.
- move=> i j hij; rewrite !mxE; case: eqP => hi; case: eqP => hj //.
  + by move: hij; rewrite hi -ltnS => h; case: hj; apply/eqP; rewrite eqn_leq -ltnS ltn_ord -ltnS.
  + by apply/RleE; match goal with |- Rle _ ?b => change (Rle (IZR 0) b) end; lra.
Qed.

(** Decompositions that are right on the matrices of the examples. *)
Definition ex_eig (M : 'M[R]_4) : 'M[R]_4 := swapped.
Definition ex_svd (d : R) (A : 'M[R]_4) : 'M[R]_4 * 'rV[R]_4 * 'M[R]_4 := (1%:M, two_values d, 1%:M).

Lemma two_scale d eps p s eig : Rlt (Rmult (IZR 2) (Rmult d d)) eps -> exists r,
  compute eig (ex_svd d) eps (two_pairs d half_turn p s) = Some r /\ s_scale r = IZR 0.
Proof.
move=> h; have [r [hr [hx _]]] := compute_some eig (ex_svd d) eps (isT : (2 <= size (two_pairs d half_turn p s))%N).
exists r; split=> //; have [_ _ _ <-] := unknowns_at (s_position r) (s_scale r).
rewrite hx /= trmx1 mulmx1 mul1mx mxE big4.
have z k : S_hat eps (two_values d) (inord 3) k = 0.
  rewrite mxE; case: eqP => // _; rewrite mxE inordK //=.
  by case: ifP => // /negP []; apply/RltE.
by rewrite !z !mul0r !addr0.
Qed.

(** For every threshold there are exact pairs, with motion, whose scale comes out as zero. *)
Theorem C59_small_motion_refuted eps : 0 < eps -> exists eig svd ms p q s,
  (2 <= size ms)%N /\ qnorm2 q = IZR 1 /\ (forall pp, List.In pp ms -> rigged p q s pp) /\
  (exists a b, List.In a ms /\ List.In b ms /\ seen a <> seen b) /\
  eigen_ok (outer_sum ms) (eig (outer_sum ms)) /\ svd_ok (A_hat ms) (svd (A_hat ms)) /\
  s = IZR 1 /\ exists r, compute eig svd eps ms = Some r /\ s_scale r = IZR 0.
Proof.
move=> /RltE; match goal with |- Rlt _ ?b -> _ => change (Rlt (IZR 0) b -> exists eig svd ms p q s,
  (2 <= size ms)%N /\ qnorm2 q = IZR 1 /\ (forall pp, List.In pp ms -> rigged p q s pp) /\
  (exists a b, List.In a ms /\ List.In b ms /\ seen a <> seen b) /\
  eigen_ok (outer_sum ms) (eig (outer_sum ms)) /\ svd_ok (A_hat ms) (svd (A_hat ms)) /\
  s = IZR 1 /\ exists r, compute eig svd b ms = Some r /\ s_scale r = IZR 0) end => he.
set d := Rmin (IZR 1) (Rdiv eps (IZR 4)).
have d1 : Rle d (IZR 1) by apply: Rmin_l.
have d2 : Rle d (Rdiv eps (IZR 4)) by apply: Rmin_r.
have d0 : Rlt (IZR 0) d by apply: Rmin_glb_lt; lra.
exists ex_eig, (ex_svd d), (two_pairs d half_turn v3zero (IZR 1)), v3zero, half_turn, (IZR 1).
split=> //; split; first by rewrite /qnorm2 /half_turn /=; ring.
split; first by move=> pp; apply: two_rigged.
split.
  exists (nth no_pair (two_pairs d half_turn v3zero (IZR 1)) 0), (nth no_pair (two_pairs d half_turn v3zero (IZR 1)) 1).
  split; first by left.
  split; first by right; left.
  rewrite /seen /= qrot_one /m3vec /m3tr /m3eye /v3dot /= => -[] e _ _; lra.
split; first exact: two_M.
split; first by rewrite two_A; apply: two_svd; nra.
split=> //; apply: two_scale; nra.
Qed.

(** Without motion the scale is zero too, and success is reported. *)
Theorem C59_no_motion_refuted eps : 0 < eps -> exists eig svd ms p q,
  (2 <= size ms)%N /\ qnorm2 q = IZR 1 /\ (forall s, forall pp, List.In pp ms -> rigged p q s pp) /\
  eigen_ok (outer_sum ms) (eig (outer_sum ms)) /\ svd_ok (A_hat ms) (svd (A_hat ms)) /\
  exists r, compute eig svd eps ms = Some r /\ s_scale r = IZR 0.
Proof.
move=> /RltE he.
have he' : Rlt (IZR 0) eps by exact: he.
exists ex_eig, (ex_svd (IZR 0)), (two_pairs (IZR 0) half_turn v3zero (IZR 0)), v3zero, half_turn.
split=> //; split; first by rewrite /qnorm2 /half_turn /=; ring.
split.
  move=> s pp h; apply: (@two_rigged (IZR 0)); move: h; rewrite /two_pairs; congr (List.In _ _).
  by congr [:: PosePair _ _ _ _; PosePair _ _ _ _]; rewrite /v3sub /=; f_equal; ring.
split; first exact: two_M.
split; first by rewrite two_A; apply: two_svd; lra.
apply: two_scale; lra.
Qed.

Theorem C59_full_refuted : ~ C59_full.
Proof.
move=> h; have [eig [svd [ms [p [q [s [hm [hq [hr [_ [he [hs [s1 [r [hc h0]]]]]]]]]]]]]]] := C59_small_motion_refuted (ltr01 : 0 < 1 :> R).
have [r' [hc' [_ h1]]] := h eig svd 1 ms p q s hm hq hr he ltr01 hs.
move: hc'; rewrite hc => -[e]; move: h1; rewrite -e h0 s1 => e'; lra.
Qed.

(** ** The condition number: how much more the matrix of the normal equations stretches one
    direction than another, at most.  None is given exactly if the poses do not determine the
    transform. *)
Lemma svd_nrm2 A U (s : 'rV[R]_4) V x : svd_ok A (U, s, V) ->
  nrm2 (A *m x) = \sum_i (s 0 i * s 0 i) * ((V^T *m x) i 0 * (V^T *m x) i 0) /\
  nrm2 x = \sum_i (V^T *m x) i 0 * (V^T *m x) i 0.
Proof.
move=> [hU hV -> _]; split.
- rewrite /nrm2 -!mulmxA trmx_mul -!mulmxA (mulmxA U^T) hU mul1mx -/(nrm2 _) nrm2E; apply: eq_bigr => i _.
  by rewrite mul_diag_mx mxE mulrACA.
- rewrite -nrm2E /nrm2 trmx_mul trmxK -mulmxA (mulmxA V).
  by rewrite (mulmx1C hV) mul1mx.
Qed.
Lemma svd_col A U (s : 'rV[R]_4) V i : svd_ok A (U, s, V) ->
  nrm2 (A *m col i V) = s 0 i * s 0 i /\ nrm2 (col i V) = 1.
Proof.
move=> h; have [-> ->] := svd_nrm2 (col i V) h; have [_ hV _ _] := h.
have e k : (V^T *m col i V) k 0 = (k == i)%:R by rewrite colE mulmxA hV mul1mx !mxE eqxx andbT.
split; rewrite (bigD1 i) //= !e eqxx !mulr1 big1 ?addr0 // => k /negbTE hk; by rewrite !e hk ?mulr0.
Qed.
Theorem C59_condition eig svd eps ms : (2 <= size ms)%N -> units ms ->
  svd_ok (A_hat ms) (svd (A_hat ms)) ->
  exists r, compute eig svd eps ms = Some r /\
    (s_cond r = None <-> ~ exists a b, List.In a ms /\ List.In b ms /\ seen a <> seen b) /\
    forall c, s_cond r = Some c ->
      [/\ 1 <= c,
          forall x y, nrm2 (A_hat ms *m x) * nrm2 y <= c * c * (nrm2 (A_hat ms *m y) * nrm2 x) &
          exists x y, [/\ nrm2 x = 1, nrm2 y = 1, 0 < nrm2 (A_hat ms *m y) & nrm2 (A_hat ms *m x) = c * c * nrm2 (A_hat ms *m y)]].
Proof.
move=> hm hu; case E: (svd (A_hat ms)) => [[U s] V] hs.
have hne : ms <> [::] by move=> e; rewrite e in hm.
have hmot := C59_enough_motion hu hs hne; have [_ _ _ [h0 hd]] := hs.
have last i : s 0 (inord 3) <= s 0 i by apply: hd; exact: last_ord.
have first i : s 0 i <= s 0 (inord 0) by apply: hd; rewrite inordK.
rewrite /compute ltnNge hm /= E; eexists; split; first reflexivity; rewrite /=; split.
- have hz : s 0 (inord 3) = 0 <-> ~ (forall i, 0 < s 0 i).
    split=> [e /(_ (inord 3))|h]; first by rewrite e ltxx.
    apply/eqP; rewrite eq_le h0 andbT leNgt; apply/negP => h'; apply: h => i; exact: lt_le_trans h' (last i).
  case: eqP => [e|e]; split=> //.
  + by move=> _ /hmot; apply/hz.
  + by move=> h; case: e; apply/hz => /hmot.
- move=> c; case: eqP => // /eqP hn [<-].
  have p3 : 0 < s 0 (inord 3) by rewrite lt_def hn h0.
  have ec : s 0 (inord 0) / s 0 (inord 3) * (s 0 (inord 0) / s 0 (inord 3)) * (s 0 (inord 3) * s 0 (inord 3)) = s 0 (inord 0) * s 0 (inord 0).
    by rewrite mulrACA !divfK.
  split.
  + by rewrite ler_pdivl_mulr // mul1r.
  + move=> x y; have [-> ->] := svd_nrm2 x hs; have [-> ->] := svd_nrm2 y hs.
    set X := fun i => (V^T *m x) i 0; set Y := fun i => (V^T *m y) i 0.
    have sq (z : R) : 0 <= z * z by rewrite -expr2 sqr_ge0.
    set n := s 0 (inord 0); set m := s 0 (inord 3).
    have b1 : \sum_i s 0 i * s 0 i * (X i * X i) <= n * n * \sum_i X i * X i.
      by rewrite mulr_sumr; apply: ler_sum => i _; apply: ler_wpmul2r => //; apply: ler_pmul.
    have b2 : m * m * (\sum_i Y i * Y i) <= \sum_i s 0 i * s 0 i * (Y i * Y i).
      by rewrite mulr_sumr; apply: ler_sum => i _; apply: ler_wpmul2r; [exact: sq|apply: ler_pmul; [exact: h0|exact: h0|exact: last|exact: last]].
    have pX : 0 <= \sum_i X i * X i by apply: sumr_ge0 => i _; exact: sq.
    have pY : 0 <= \sum_i Y i * Y i by apply: sumr_ge0 => i _; exact: sq.
    apply: (@le_trans _ _ (n * n * (\sum_i X i * X i) * (\sum_i Y i * Y i))); first exact: ler_wpmul2r.
    rewrite -/(X _) -ec -/n -/m.
    have -> : n / m * (n / m) * (m * m) * (\sum_i X i * X i) * (\sum_i Y i * Y i) =
      n / m * (n / m) * (m * m * (\sum_i Y i * Y i) * (\sum_i X i * X i)).
      by rewrite -!mulrA; congr (_ * (_ * (_ * (_ * (_ * (_ * _)))))); rewrite mulrC.
    by apply: ler_wpmul2l => //; apply: ler_wpmul2r.
  + exists (col (inord 0) V), (col (inord 3) V); have [-> ->] := svd_col (inord 0) hs; have [-> ->] := svd_col (inord 3) hs.
    by split=> //; rewrite mulr_gt0.
Qed.
Print Assumptions C59_condition.

(** One pair is not enough. *)
Theorem C59_two_needed eig svd eps ms : compute eig svd eps ms = None <-> (size ms < 2)%N.
Proof. by rewrite /compute; case: ifP => // _; case: (svd _) => [[? ?] ?]; split. Qed.

Print Assumptions C59_least_squares.
Print Assumptions C59_orientation.
Print Assumptions C59_exact_partial.
Print Assumptions C59_enough_motion.
Print Assumptions C59_small_motion_refuted.
Print Assumptions C59_no_motion_refuted.
Print Assumptions C59_full_refuted.
Print Assumptions C59_two_needed.

(** The second sensor one metre above the first, turned by half a turn, measuring in
    units of 2 m; it moves by two of these. *)
Example C59_ex : let p := V3 (IZR 0) (IZR 0) (IZR 1) in let ms := two_pairs (IZR 1) half_turn p (IZR 2) in
  (2 <= size ms)%N /\ units ms /\ qnorm2 half_turn = IZR 1 /\ (forall pp, List.In pp ms -> rigged p half_turn (IZR 2) pp) /\
  eigen_ok (outer_sum ms) (ex_eig (outer_sum ms)) /\ svd_ok (A_hat ms) (ex_svd (IZR 1) (A_hat ms)) /\
  (forall i, 1 <= (ex_svd (IZR 1) (A_hat ms)).1.2 0 i) /\
  exists r, compute ex_eig (ex_svd (IZR 1)) 1 ms = Some r /\ s_position r = p /\ s_scale r = IZR 2 /\
    (s_orientation r = half_turn \/ s_orientation r = qscale (IZR (-1)) half_turn).
Proof.
move=> p ms.
have hr pp : List.In pp ms -> rigged p half_turn (IZR 2) pp by apply: two_rigged.
have hq : qnorm2 half_turn = IZR 1 by rewrite /qnorm2 /half_turn /=; ring.
have hM : eigen_ok (outer_sum ms) (ex_eig (outer_sum ms)) by apply: two_M.
have hA : svd_ok (A_hat ms) (ex_svd (IZR 1) (A_hat ms)) by rewrite two_A; apply: two_svd; lra.
have hs i : 1 <= (ex_svd (IZR 1) (A_hat ms)).1.2 0 i.
  by rewrite /= mxE; case: ifP => _; apply/RleE; match goal with |- Rle _ ?b => change (Rle (IZR 1) b) end; lra.
split=> //; split; first by move=> pp /hr [].
do 5![split=> //].
exact: (C59_exact_partial _ hq hr hM ltr01 hA hs).
Qed.
