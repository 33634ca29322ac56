(** Least squares, averaged quaternions and the rows of the similarity problem. *)

From Coq Require Import Reals Lra.
From mathcomp Require Import all_ssreflect all_algebra.
From Verif Require Import Geom GeomProofs RField Messages Gps GpsProofs Sensors SensorsProofs Cov CovSpec CovProofs Similarity SimilaritySpec.
Import Order.Theory GRing.Theory Num.Theory.

Set Implicit Arguments.
Unset Strict Implicit.
Unset Printing Implicit Defensive.
Local Open Scope ring_scope.

Ltac Rring := rewrite ?RoppE ?RmulE ?RaddE ?R1E ?R0E; match goal with |- @eq _ ?a ?b => change (@eq R a b) end; ring.

(** ** Sums over rows *)

Lemma sum3 (f : nat -> R) m : \sum_(r < m * 3) f r = \sum_(i < m) (f (i * 3)%N + f (i * 3 + 1)%N + f (i * 3 + 2)%N).
Proof.
elim: m => [|m IH]; first by rewrite !big_ord0.
rewrite [RHS]big_ord_recr /= -IH.
have -> : (m.+1 * 3)%N = (m * 3).+3 by rewrite mulSn addnC addn3.
by rewrite !big_ord_recr /= addn1 addn2 !addrA.
Qed.

Lemma sum_nth (T : Type) (d : T) (s : seq T) (f : T -> R) : \sum_(i < size s) f (nth d s i) = \sum_(x <- s) f x.
Proof. by rewrite (big_nth d) big_mkord. Qed.

(** ** Vectors as columns *)

Definition nrm2 n (x : 'cV[R]_n) : R := (x^T *m x) 0 0.
Lemma nrm2E n (x : 'cV[R]_n) : nrm2 x = \sum_i x i 0 * x i 0.
Proof. by rewrite /nrm2 mxE; apply: eq_bigr => i _; rewrite !mxE. Qed.
Lemma nrm2_ge0 n (x : 'cV[R]_n) : 0 <= nrm2 x.
Proof. by rewrite nrm2E; apply: sumr_ge0 => i _; rewrite -expr2 sqr_ge0. Qed.
Lemma nrm2_eq0 n (x : 'cV[R]_n) : nrm2 x = 0 -> x = 0.
Proof.
rewrite nrm2E => /eqP; rewrite psumr_eq0; last by move=> i _; rewrite -expr2 sqr_ge0.
move=> /allP h; apply/matrixP => i j; rewrite mxE (ord1 j).
by have := h i (mem_index_enum _); rewrite /= mulf_eq0 orbb => /eqP.
Qed.

(** A solution of the normal equations has the least residual. *)
Lemma normal_least m n (A : 'M[R]_(m, n)) b x y : A^T *m A *m x = A^T *m b ->
  nrm2 (A *m x - b) <= nrm2 (A *m y - b).
Proof.
move=> h.
have -> : A *m y - b = (A *m x - b) + A *m (y - x) by rewrite mulmxBr [RHS]addrC addrA subrK.
set u := A *m x - b; set v := A *m (y - x).
have h1 : v^T *m u = 0 by rewrite /u /v trmx_mul -mulmxA mulmxBr mulmxA h subrr mulmx0.
have h2 : u^T *m v = 0 by rewrite -[LHS]trmxK trmx_mul trmxK h1 trmx0.
move: u v h1 h2 => u v h1 h2.
have -> : nrm2 (u + v) = ((u^T + v^T) *m (u + v)) 0 0 by rewrite /nrm2 [(u + v)^T]linearD.
rewrite mulmxDl !mulmxDr h1 h2 addr0 add0r mxE ler_addl.
exact: nrm2_ge0.
Qed.

(** ** The pseudo-inverse *)

Lemma S_hat_inv eps (s : 'rV[R]_4) : 0 < eps -> (forall i, eps <= s 0 i) -> S_hat eps s *m diag_mx s = 1%:M.
Proof.
move=> he hs; apply/matrixP => i j; rewrite mxE (bigD1 i) //= !mxE eqxx.
rewrite big1 ?addr0 => [|k hk]; last by rewrite mxE eq_sym (negbTE hk) mul0r.
rewrite ltNge hs /=; have [->|ne] := eqVneq i j; last by rewrite !mulr0n mulr0.
by rewrite !mulr1n mulVf //; apply: lt0r_neq0; apply: lt_le_trans he (hs _).
Qed.

Lemma pseudo_inverse eps A U (s : 'rV[R]_4) V : 0 < eps -> svd_ok A (U, s, V) -> (forall i, eps <= s 0 i) ->
  V *m S_hat eps s *m U^T *m A = 1%:M.
Proof.
move=> he [hU hV -> _] hs.
rewrite !mulmxA -(mulmxA _ U^T U) hU mulmx1 -(mulmxA V) S_hat_inv // mulmx1.
exact: mulmx1C.
Qed.

Lemma svd_kernel A U (s : 'rV[R]_4) V i : svd_ok A (U, s, V) -> s 0 i = 0 -> exists2 x : 'cV_4, x != 0 & A *m x = 0.
Proof.
move=> [hU hV -> _] h0; exists (col i V).
  apply/negP => /eqP h; have : (V^T *m V) i i = 0.
    rewrite mxE big1 // => k _.
    by have /matrixP /(_ k 0) := h; rewrite !mxE => ->; rewrite mulr0.
  by rewrite hV mxE eqxx => /eqP; rewrite oner_eq0.
rewrite -!mulmxA colE (mulmxA V^T) hV mul1mx.
have -> : diag_mx s *m delta_mx i 0 = 0 :> 'cV_4; last by rewrite mulmx0.
apply/matrixP => k l; rewrite mul_diag_mx !mxE; have [->|ne] := eqVneq k i; last by rewrite mulr0.
by rewrite h0 mul0r.
Qed.

(** ** The largest eigenvector *)

Lemma last_ord (i : 'I_4) : (i <= (inord 3 : 'I_4))%N.
Proof. by rewrite inordK // -ltnS ltn_ord. Qed.

Lemma eigen_unit M E : eigen_ok M E -> nrm2 (col (inord 3) E) = 1.
Proof.
move=> [l [h _ _]]; rewrite nrm2E.
have : (E^T *m E) (inord 3) (inord 3) = 1 by rewrite h mxE eqxx.
by rewrite mxE => <-; apply: eq_bigr => i _; rewrite !mxE.
Qed.

Lemma qfE n (M : 'M[R]_n) x : qf M x = (x^T *m (M *m x)) 0 0.
Proof. by rewrite /qf mulmxA. Qed.

Lemma eigen_max M E v : eigen_ok M E -> nrm2 v = 1 -> qf M v <= qf M (col (inord 3) E).
Proof.
move=> [l [hE hM hl]] hv.
have hE' : E *m E^T = 1%:M by apply: mulmx1C.
have hM' : M = E *m diag_mx l *m E^T by rewrite -hM -mulmxA hE' mulmx1.
have qE (x : 'cV[R]_4) : qf M x = \sum_i l 0 i * ((E^T *m x) i 0 * (E^T *m x) i 0).
  rewrite /qf hM' -!mulmxA (mulmxA x^T) -{1}(trmxK E) -trmx_mul mxE.
  by apply: eq_bigr => i _; rewrite mul_diag_mx [(_ ^T) 0 i]mxE [(\matrix_(_, _) _) i 0]mxE mulrCA.
have nE (x : 'cV[R]_4) : \sum_i (E^T *m x) i 0 * (E^T *m x) i 0 = nrm2 x.
  by rewrite -nrm2E /nrm2 trmx_mul trmxK -mulmxA (mulmxA E) hE' mul1mx.
have -> : qf M (col (inord 3) E) = l 0 (inord 3).
  rewrite qE (bigD1 (inord 3)) //= big1 => [|i hi].
    by rewrite addr0 colE mulmxA hE mul1mx mxE !eqxx mulr1 mulr1.
  by rewrite colE mulmxA hE mul1mx mxE (negbTE hi) mul0r mulr0.
rewrite qE -[l 0 (inord 3)]mulr1 -hv -nE mulr_sumr; apply: ler_sum => i _.
by rewrite ler_wpmul2r ?hl ?last_ord // -expr2 sqr_ge0.
Qed.

(** ** Quaternions *)

Lemma qtransform_all q x : qtransform q x = m3vec (qrot q) x.
Proof. by case: q x => w a b c [x y z]; rewrite /qtransform /m3vec /qrot /v3dot /v3add /v3scale /v3cross /qvec /=; f_equal; ring. Qed.

Lemma qinverse_unit q : qnorm2 q = IZR 1 -> qinverse q = qconj q.
Proof.
move=> h; rewrite /qinverse /qinv h; case: Rlt_dec => [_|]; last by move=> /(_ Rlt_0_1).
by case: q {h} => w x y z; rewrite /qscale /qconj /=; f_equal; field.
Qed.

Lemma big4 (f : 'I_4 -> R) : \sum_i f i = f (inord 0) + f (inord 1) + f (inord 2) + f (inord 3).
Proof.
rewrite !big_ord_recl big_ord0 addr0 !addrA.
by congr (f _ + f _ + f _ + f _); apply/val_inj; rewrite /= inordK.
Qed.

Lemma coeff_at q : [/\ coeff_mx q (inord 0) 0 = qx q, coeff_mx q (inord 1) 0 = qy q,
  coeff_mx q (inord 2) 0 = qz q & coeff_mx q (inord 3) 0 = qw q].
Proof. by split; rewrite mxE /= inordK. Qed.

Lemma coeff_dot a b : ((coeff_mx a)^T *m coeff_mx b) 0 0 = qdot a b.
Proof.
rewrite mxE (eq_bigr (fun i => coeff_mx a i 0 * coeff_mx b i 0)) => [|i _]; last by rewrite [(_^T) _ _]mxE.
rewrite big4; have [-> -> -> ->] := coeff_at a; have [-> -> -> ->] := coeff_at b.
by rewrite /qdot; Rring.
Qed.
Lemma coeff_nrm2 a : nrm2 (coeff_mx a) = qnorm2 a.
Proof. by rewrite /nrm2 coeff_dot. Qed.

Lemma cV4_coeff (v : 'cV[R]_4) : v = coeff_mx (Quat (v (inord 3) 0) (v (inord 0) 0) (v (inord 1) 0) (v (inord 2) 0)).
Proof.
apply/matrixP => i j; rewrite (ord1 j) !mxE /=.
by case: i => [[|[|[|[|]]]] h] //=; congr (v _ _); apply/val_inj; rewrite /= inordK.
Qed.

Lemma outer_qf ms v : qf (outer_sum ms) (coeff_mx v) =
  \sum_(pp <- ms) qdot (qmul (qinverse (q1 pp)) (q2 pp)) v * qdot (qmul (qinverse (q1 pp)) (q2 pp)) v.
Proof.
rewrite /outer_sum /qf mulmx_sumr mulmx_suml summxE; apply: eq_bigr => pp _.
set c := coeff_mx (qmul _ _).
have -> : (coeff_mx v)^T *m (c *m c^T) *m coeff_mx v = (c^T *m coeff_mx v)^T *m (c^T *m coeff_mx v).
  by rewrite trmx_mul trmxK !mulmxA.
by rewrite mxE big_ord1 mxE coeff_dot.
Qed.

(** ** The rows *)

Definition unknowns (p : v3) (s : R) : 'cV[R]_4 :=
  \col_i match val i with 0%N => v3x p | 1%N => v3y p | 2%N => v3z p | _ => s end.
Lemma unknowns_at p s : [/\ unknowns p s (inord 0) 0 = v3x p, unknowns p s (inord 1) 0 = v3y p,
  unknowns p s (inord 2) 0 = v3z p & unknowns p s (inord 3) 0 = s].
Proof. by split; rewrite mxE /= inordK. Qed.
Lemma cV4_unknowns (x : 'cV[R]_4) :
  x = unknowns (V3 (x (inord 0) 0) (x (inord 1) 0) (x (inord 2) 0)) (x (inord 3) 0).
Proof.
apply/matrixP => i j; rewrite (ord1 j) !mxE /=.
by case: i => [[|[|[|[|]]]] h] //=; congr (x _ _); apply/val_inj; rewrite /= inordK.
Qed.

(** What the rows of a pair say about position [p] and scale [s]. *)
Definition row_misfit (p : v3) (s : R) (pp : pose_pair) : v3 :=
  v3sub (v3sub (v3scale s (qtransform (qinverse (q1 pp)) (t2 pp))) p) (qtransform (qinverse (q1 pp)) (t1 pp)).

Lemma rows_at ms p s r : (rows_A ms *m unknowns p s - rows_b ms) r 0 =
  v3at (row_misfit p s (nth no_pair ms (r %/ 3)%N)) (r %% 3)%N.
Proof.
rewrite !mxE big4 !mxE /= !inordK //=.
have : (r %% 3 < 3)%N by rewrite ltn_mod.
case: (r %% 3)%N => [|[|[|]]] //= _;
  rewrite /row_misfit /v3sub /v3scale /= ?mul0r ?addr0 ?add0r; Rring.
Qed.

Lemma rows_nrm2 ms p s : nrm2 (rows_A ms *m unknowns p s - rows_b ms) = \sum_(pp <- ms) v3norm2 (row_misfit p s pp).
Proof.
rewrite nrm2E.
pose f (r : nat) := let x := v3at (row_misfit p s (nth no_pair ms (r %/ 3)%N)) (r %% 3)%N in x * x.
rewrite (eq_bigr (fun r : 'I_(size ms * 3) => f r)); last by move=> r _; rewrite rows_at.
rewrite sum3 -(sum_nth no_pair); apply: eq_bigr => i _.
by rewrite /f !divnMDl // !modnMDl mulnK // modnMl /= !addn0.
Qed.

(** The same without the right hand side. *)
Definition row_lin (p : v3) (s : R) (pp : pose_pair) : v3 :=
  v3sub (v3scale s (qtransform (qinverse (q1 pp)) (t2 pp))) p.
Lemma rowsA_nrm2 ms p s : nrm2 (rows_A ms *m unknowns p s) = \sum_(pp <- ms) v3norm2 (row_lin p s pp).
Proof.
rewrite nrm2E.
pose f (r : nat) := let x := v3at (row_lin p s (nth no_pair ms (r %/ 3)%N)) (r %% 3)%N in x * x.
rewrite (eq_bigr (fun r : 'I_(size ms * 3) => f r)).
  rewrite sum3 -(sum_nth no_pair); apply: eq_bigr => i _.
  by rewrite /f !divnMDl // !modnMDl mulnK // modnMl /= !addn0.
move=> r _; have -> : (rows_A ms *m unknowns p s) r 0 = v3at (row_lin p s (nth no_pair ms (r %/ 3)%N)) (r %% 3)%N; last by [].
rewrite !mxE big4 !mxE /= !inordK //=.
have : (r %% 3 < 3)%N by rewrite ltn_mod.
case: (r %% 3)%N => [|[|[|]]] //= _; rewrite /row_lin /v3sub /v3scale /= ?mul0r ?addr0 ?add0r; Rring.
Qed.

Lemma sum_zero (T : Type) (s : seq T) (f : T -> R) : (forall x, 0 <= f x) ->
  \sum_(x <- s) f x = 0 <-> (forall x, List.In x s -> f x = 0).
Proof.
move=> h; elim: s => [|x s IH]; first by rewrite big_nil; split.
have hs : 0 <= \sum_(y <- s) f y by elim: (s) => [|z u Iu]; rewrite ?big_nil ?big_cons // addr_ge0.
rewrite big_cons; split.
  move=> /eqP; rewrite paddr_eq0 // => /andP [/eqP h1 /eqP h2] y /= [<-|hy] //.
  by move: y hy; apply/IH.
move=> h'; rewrite h' /=; last by left.
by rewrite add0r; apply/IH => y hy; apply: h' => /=; right.
Qed.

Lemma v3norm2_ge0 a : 0 <= v3norm2 a.
Proof. apply/RleE; exact: v3norm2_nonneg. Qed.
Lemma v3norm2_sub0 a b : v3norm2 (v3sub a b) = 0 <-> a = b.
Proof.
split; last by move=> ->; rewrite v3sub_self /v3norm2 /v3dot /=; Rring.
case: a b => [a1 a2 a3] [b1 b2 b3]; rewrite /v3norm2 /v3dot /v3sub /= => h.
have {}h : Rplus (Rplus (Rmult (Rminus a1 b1) (Rminus a1 b1)) (Rmult (Rminus a2 b2) (Rminus a2 b2))) (Rmult (Rminus a3 b3) (Rminus a3 b3)) = IZR 0 by [].
have [e1 [e2 e3]] : Rminus a1 b1 = IZR 0 /\ Rminus a2 b2 = IZR 0 /\ Rminus a3 b3 = IZR 0.
  by move: (Rminus a1 b1) (Rminus a2 b2) (Rminus a3 b3) h => x y z h; split; [|split]; nra.
by f_equal; lra.
Qed.

Lemma rows_kernel ms p s : rows_A ms *m unknowns p s = 0 <->
  (forall pp, List.In pp ms -> v3scale s (qtransform (qinverse (q1 pp)) (t2 pp)) = p).
Proof.
have -> : rows_A ms *m unknowns p s = 0 <-> nrm2 (rows_A ms *m unknowns p s) = 0.
  by split=> [->|]; [rewrite /nrm2 mulmx0 mxE|exact: nrm2_eq0].
rewrite rowsA_nrm2; apply: (iff_trans (sum_zero _ _)) => [x|]; first exact: v3norm2_ge0.
by split=> h pp hp; apply/v3norm2_sub0; apply: h.
Qed.

(** In the frame of the first poses. *)
Lemma row_misfit_world p s pp : qnorm2 (q1 pp) = IZR 1 ->
  v3norm2 (row_misfit p s pp) =
  v3norm2 (v3sub (v3sub (v3scale s (t2 pp)) (m3vec (qrot (q1 pp)) p)) (t1 pp)).
Proof.
move=> h; have h' : qnorm2 (qconj (q1 pp)) = IZR 1 by rewrite qnorm2_conj.
rewrite /row_misfit qinverse_unit // !qtransform_all.
have e y : m3vec (qrot (qconj (q1 pp))) (m3vec (qrot (q1 pp)) y) = y.
  by have := qrot_conj_vec (qconj (q1 pp)) y h'; rewrite qconj_conj.
rewrite -[X in v3sub (v3sub _ X)](e p).
have lin a b c d k : v3sub (v3sub (v3scale k (m3vec a b)) (m3vec a c)) (m3vec a d) =
    m3vec a (v3sub (v3sub (v3scale k b) c) d).
  by case: a b c d => [[? ? ?] [? ? ?] [? ? ?]] [? ? ?] [? ? ?] [? ? ?];
    rewrite /m3vec /v3sub /v3scale /v3dot /=; f_equal; ring.
by rewrite lin rotation_norm //; apply: qrot_rotation.
Qed.
