(** Lemmas on the covariance algebra. *)

From Coq Require Import ZArith.
From mathcomp Require Import all_ssreflect all_algebra.
From mathcomp Require Import ssrZ.
From Verif Require Import PCore PCoreCert CovSpec Cov.
Import GRing.Theory Num.Theory Order.TTheory.

Set Implicit Arguments.
Unset Strict Implicit.
Unset Printing Implicit Defensive.
Local Open Scope ring_scope.

Section Forms.
Variable F : realFieldType.

Lemma qfD n (P Q : 'M[F]_n) x : qf (P + Q) x = qf P x + qf Q x.
Proof. by rewrite /qf mulmxDr mulmxDl mxE. Qed.
Lemma qfN n (P : 'M[F]_n) x : qf (- P) x = - qf P x.
Proof. by rewrite /qf mulmxN mulNmx mxE. Qed.
Lemma qfZ n a (P : 'M[F]_n) x : qf (a *: P) x = a * qf P x.
Proof. by rewrite /qf -scalemxAr -scalemxAl mxE. Qed.
Lemma qf_congr n m (A : 'M[F]_(m, n)) (P : 'M[F]_n) x : qf (A *m P *m A^T) x = qf P (A^T *m x).
Proof. by rewrite /qf trmx_mul trmxK !mulmxA. Qed.
Lemma qfT n (P : 'M[F]_n) x : qf P^T x = qf P x.
Proof.
rewrite /qf; have -> : x^T *m P^T *m x = (x^T *m P *m x)^T by rewrite !trmx_mul trmxK mulmxA.
by rewrite mxE.
Qed.
Lemma qf0 n (P : 'M[F]_n) : qf P 0 = 0.
Proof. by rewrite /qf mulmx0 mxE. Qed.

Lemma psdD n (P Q : 'M[F]_n) : psd P -> psd Q -> psd (P + Q).
Proof. by move=> h1 h2 x; rewrite qfD addr_ge0. Qed.
Lemma psd_congr n m (A : 'M[F]_(m, n)) (P : 'M[F]_n) : psd P -> psd (A *m P *m A^T).
Proof. by move=> h x; rewrite qf_congr. Qed.
Lemma psdZ n a (P : 'M[F]_n) : 0 <= a -> psd P -> psd (a *: P).
Proof. by move=> h1 h2 x; rewrite qfZ mulr_ge0. Qed.
Lemma psd0 n : psd (0 : 'M[F]_n).
Proof. by move=> x; rewrite /qf mulmx0 mul0mx mxE. Qed.
Lemma pd_psd n (P : 'M[F]_n) : pd P -> psd P.
Proof.
move=> h x; have [->|/h/ltW //] := eqVneq x 0.
by rewrite qf0.
Qed.
Lemma pdD n (P Q : 'M[F]_n) : psd P -> pd Q -> pd (P + Q).
Proof. by move=> h1 h2 x hx; rewrite qfD; apply: ltr_paddl => //; apply: h2. Qed.

Lemma symD n (P Q : 'M[F]_n) : sym P -> sym Q -> sym (P + Q).
Proof. by rewrite /sym raddfD /= => -> ->. Qed.
Lemma symB n (P Q : 'M[F]_n) : sym P -> sym Q -> sym (P - Q).
Proof. by rewrite /sym linearB /= => -> ->. Qed.
Lemma sym_congr n m (A : 'M[F]_(m, n)) (P : 'M[F]_n) : sym P -> sym (A *m P *m A^T).
Proof. by rewrite /sym => h; rewrite !trmx_mul trmxK h mulmxA. Qed.
Lemma sym0 n : sym (0 : 'M[F]_n).
Proof. by rewrite /sym trmx0. Qed.

(** A definite matrix is invertible. *)
Lemma pd_unit n (P : 'M[F]_n) : pd P -> P \in unitmx.
Proof.
move=> h; rewrite -row_free_unit -kermx_eq0; apply/eqP/row_matrixP => i.
rewrite row0; set v := row i _.
have hv : v *m P = 0 by rewrite /v -row_mul mulmx_ker row0.
have [hz|hz] := eqVneq v^T 0; first by apply: trmx_inj; rewrite hz trmx0.
by have := h _ hz; rewrite /qf trmxK hv mul0mx mxE ltxx.
Qed.

Lemma sym_inv n (P : 'M[F]_n) : sym P -> sym (invmx P).
Proof. by rewrite /sym => h; rewrite trmx_inv h. Qed.

Lemma pd_inv n (P : 'M[F]_n) : sym P -> pd P -> pd (invmx P).
Proof.
move=> hs hp x hx.
have hu := pd_unit hp.
have -> : qf (invmx P) x = qf P (invmx P *m x).
  by rewrite /qf trmx_mul (sym_inv hs) !mulmxA mulmxKV.
apply: hp; apply: contra hx => /eqP h0.
by rewrite -[x](mulKVmx hu) h0 mulmx0.
Qed.

Section Update.
Variables (n m : nat) (P : 'M[F]_n) (H : 'M[F]_(m, n)) (R : 'M[F]_m).
Hypotheses (sP : sym P) (pP : psd P) (sR : sym R) (pR : pd R).
Notation S := (innov P H R).
Notation K := (gain P H R).

Lemma innov_sym : sym S.
Proof. exact: symD (sym_congr _ sP) sR. Qed.
Lemma innov_pd : pd S.
Proof. exact: pdD (psd_congr _ pP) pR. Qed.
Lemma innov_unit : S \in unitmx.
Proof. exact: pd_unit innov_pd. Qed.

Lemma joseph_sym : sym (joseph P H R).
Proof. exact: symD (sym_congr _ sP) (sym_congr _ sR). Qed.
Lemma joseph_psd : psd (joseph P H R).
Proof. exact: psdD (psd_congr _ pP) (psd_congr _ (pd_psd pR)). Qed.

Lemma joseph_short : joseph P H R = P - P *m H^T *m invmx S *m H *m P.
Proof.
have KS : K *m S = P *m H^T by rewrite /gain mulmxKV // innov_unit.
rewrite /joseph; set A := K in KS *.
have -> : (1%:M - A *m H) *m P *m (1%:M - A *m H)^T + A *m R *m A^T
          = P - A *m H *m P - P *m H^T *m A^T + A *m S *m A^T.
  rewrite linearB /= trmx1 trmx_mul mulmxBl mul1mx mulmxBr mulmx1 mulmxBl /innov.
  rewrite mulmxDr mulmxDl !mulmxA opprB !addrA.
  by rewrite [LHS](ACl (1*2*4*3*5)).
rewrite KS subrK.
by [].
Qed.

Lemma joseph_le : psd (P - joseph P H R).
Proof.
rewrite joseph_short opprB addrC subrK.
have -> : P *m H^T *m invmx S *m H *m P = (P *m H^T) *m invmx S *m (P *m H^T)^T.
  by rewrite trmx_mul trmxK sP !mulmxA.
apply: psd_congr; apply: pd_psd; apply: pd_inv; [exact: innov_sym|exact: innov_pd].
Qed.
End Update.

(** ** Symmetrisation *)

Lemma foldl_symm n (s : seq ('I_n * 'I_n)) (P : 'M[F]_n) : uniq s -> forall k l,
  foldl (@symm_step F n) P s k l =
  if (k, l) \in s then
    if ((l, k) \in s) && (index (l, k) s < index (k, l) s)%N
    then 2^-1 * (P k l + 2^-1 * (P l k + P k l))
    else 2^-1 * (P k l + P l k)
  else P k l.
Proof.
elim/last_ind: s => [//|s x IH]; rewrite rcons_uniq => /andP[xs us] k l.
have {}IH := IH us.
rewrite foldl_rcons mxE mem_rcons inE -!cats1 !index_cat /= !mem_cat !inE.
have [ex|nx] := eqVneq (k, l) x.
- subst x; rewrite !IH (negbTE xs) /= addn0.
  case: (boolP ((l, k) \in s)) => lk /=; first by rewrite index_mem lk.
  by case: eqVneq => [e|ne] /=; rewrite ?addn0 ?ltnn.
- rewrite IH /=.
  case: (boolP ((k, l) \in s)) => kl //=.
  case: (boolP ((l, k) \in s)) => lk //=.
  have hs : (index (k, l) s < size s)%N by rewrite index_mem.
  case: ifP => // /andP[_]; rewrite ltnNge ltnW //.
  exact: leq_trans hs (leq_addr _ _).
Qed.

Lemma traversal_uniq n : uniq (traversal n).
Proof.
apply: allpairs_uniq; [exact: enum_uniq|exact: enum_uniq|].
by move=> [a b] [c d] _ _ /= [-> ->].
Qed.

Lemma mem_traversal n i j : (i, j) \in traversal n.
Proof. by apply/allpairsP; exists (j, i); rewrite /= !mem_enum. Qed.

Lemma index_traversal n (i j : 'I_n) : index (i, j) (traversal n) = (n * j + i)%N.
Proof.
set ss := [seq [seq (i0, j0) | i0 <- enum 'I_n] | j0 <- enum 'I_n].
have e : traversal n = flatten ss by [].
have sh : shape ss = nseq n n.
  have -> : shape ss = [seq n | _ <- enum 'I_n].
    by rewrite /shape -map_comp; apply: eq_map => k /=; rewrite size_map size_enum_ord.
  have hm : forall l : seq 'I_n, [seq n | _ <- l] = nseq (size l) n by elim=> //= a l ->.
  by rewrite hm size_enum_ord.
have fi : flatten_index (shape ss) j i = (n * j + i)%N.
  rewrite /flatten_index sh take_nseq ?sumn_nseq //. exact: ltnW.
have hj : (j < size ss)%N by rewrite size_map size_enum_ord.
have hi : (i < nth 0 (shape ss) j)%N by rewrite sh nth_nseq ltn_ord.
have <- : nth (i, j) (traversal n) (n * j + i) = (i, j).
  rewrite e nth_flatten -fi flatten_indexKl // flatten_indexKr //.
  rewrite (nth_map j) ?size_enum_ord // (nth_map i) ?size_enum_ord //.
  by rewrite !nth_ord_enum.
rewrite index_uniq ?traversal_uniq //.
rewrite e size_flatten sh sumn_nseq.
apply: (@leq_trans (n * j.+1)%N); last by rewrite leq_mul2l ltn_ord orbT.
by rewrite mulnS addnC ltn_add2r ltn_ord.
Qed.

(** What the in-place evaluation computes. *)
Lemma symm_inplaceE n (P : 'M[F]_n) i j : symm_inplace P i j =
  if (j <= i)%N then 2^-1 * (P i j + P j i) else 2^-1 * (P i j + 2^-1 * (P j i + P i j)).
Proof.
rewrite /symm_inplace foldl_symm ?traversal_uniq // !mem_traversal /= !index_traversal.
suff -> : (n * i + j < n * j + i)%N = ~~ (j <= i)%N by case: leqP.
rewrite -ltnNge; case: (ltngtP i j) => h.
- apply: (@leq_trans (n * i.+1)%N); last by apply: leq_trans (leq_addr _ _); rewrite leq_mul2l h orbT.
  by rewrite mulnS addnC ltn_add2r ltn_ord.
- apply/negbTE; rewrite -leqNgt; apply: (@leq_trans (n * j.+1)%N); last by apply: leq_trans (leq_addr _ _); rewrite leq_mul2l h orbT.
  by rewrite mulnS addnC leq_add2r ltnW // ltn_ord.
- by rewrite h ltnn.
Qed.

Lemma two_neq0 : (2 : F) != 0. Proof. by rewrite pnatr_eq0. Qed.
Lemma half2 (x : F) : 2^-1 * (x + x) = x.
Proof. by rewrite -mulr2n -mulr_natl mulKf // two_neq0. Qed.

Lemma symm_inplace_id n (P : 'M[F]_n) : sym P -> symm_inplace P = P.
Proof.
move=> h; apply/matrixP => i j; rewrite symm_inplaceE.
have -> : P j i = P i j by rewrite -{1}h mxE.
by rewrite !half2; case: ifP.
Qed.

Lemma symm_ideal_sym n (P : 'M[F]_n) : sym (symm_ideal P).
Proof. by rewrite /sym /symm_ideal linearZ /= linearD /= trmxK addrC. Qed.

(** It symmetrises only what is symmetric already. *)
Lemma symm_inplace_sym n (P : 'M[F]_n) : sym (symm_inplace P) <-> sym P.
Proof.
split=> [h|h]; last by rewrite symm_inplace_id.
have key : forall i j : 'I_n, (j < i)%N -> P i j = P j i.
  move=> i j ji; have := congr1 (fun A : 'M_n => A i j) h.
  rewrite mxE !symm_inplaceE leqNgt ji /= (ltnW ji).
  have h2 := two_neq0; have h2' : (2^-1 : F) != 0 by rewrite invr_eq0.
  move/(mulfI h2'); rewrite [P i j + P j i]addrC => /addrI.
  by rewrite -{2}(half2 (P i j)) => /(mulfI h2') /addIr.
rewrite /sym; apply/matrixP => i j; rewrite mxE.
by case: (ltngtP i j) => [/key|/key|/ord_inj] // ->.
Qed.

(** ** Relative updates *)

Lemma qf_dr n m (J : 'M[F]_(n + m)) x : qf (drsubmx J) x = qf J (col_mx 0 x).
Proof.
rewrite /qf -[in RHS](submxK J) tr_col_mx mul_row_block mul_row_col.
by rewrite trmx0 !mul0mx !add0r mulmx0 add0r.
Qed.
Lemma psd_dr n m (J : 'M[F]_(n + m)) : psd J -> psd (drsubmx J).
Proof. by move=> h x; rewrite qf_dr. Qed.
Lemma sym_dr n m (J : 'M[F]_(n + m)) : sym J -> sym (drsubmx J).
Proof. by rewrite /sym => h; rewrite trmx_drsub h. Qed.

Lemma rel_innovE n m (Pold Fa Pnew : 'M[F]_n) (Hold Hnew : 'M[F]_(m, n)) (R : 'M[F]_m) :
  rel_innov Pold Fa Pnew Hold Hnew R =
  Hold *m Pold *m Hold^T + Hnew *m (Fa *m Pold) *m Hold^T
  + (Hold *m (Pold *m Fa^T) *m Hnew^T + Hnew *m Pnew *m Hnew^T) + R.
Proof.
by rewrite /rel_innov /innov /joint_cov mul_row_block tr_row_mx mul_row_col !mulmxDl.
Qed.

Lemma rel_gainE n m (Pold Fa Pnew : 'M[F]_n) (Hold Hnew : 'M[F]_(m, n)) (R : 'M[F]_m) :
  rel_gain Pold Fa Pnew Hold Hnew R =
  (Fa *m Pold *m Hold^T + Pnew *m Hnew^T) *m invmx (rel_innov Pold Fa Pnew Hold Hnew R).
Proof.
rewrite /rel_gain /gain -mul_dsub_mx /joint_cov tr_row_mx mul_block_col col_mxKd.
by rewrite /rel_innov.
Qed.

Section Relative.
Variables (n m : nat) (Pold Fa Pnew : 'M[F]_n) (Hold Hnew : 'M[F]_(m, n)) (R : 'M[F]_m).
Notation J := (joint_cov Pold Fa Pnew).
Notation H := (row_mx Hold Hnew).
Hypotheses (sJ : sym J) (pJ : psd J) (sR : sym R) (pR : pd R).
Notation S := (rel_innov Pold Fa Pnew Hold Hnew R).
Notation K := (rel_gain Pold Fa Pnew Hold Hnew R).

Lemma rel_cov : Pnew - K *m S *m K^T = drsubmx (joseph J H R).
Proof.
have hu : innov J H R \in unitmx by apply: innov_unit.
rewrite (joseph_short _ pJ pR) /drsubmx !linearB /= -[rsubmx (dsubmx J)]/(drsubmx J) block_mxKdr; congr (_ - _).
rewrite /rel_gain /rel_innov trmx_dsub mul_dsub_mx mulmx_rsub mul_dsub_mx.
congr (rsubmx (dsubmx _)).
rewrite /gain mulmxKV // !trmx_mul trmxK sJ.
by rewrite (sym_inv (innov_sym _ sJ sR)) !mulmxA.
Qed.

Lemma rel_ok : cov_ok (symm_inplace (Pnew - K *m S *m K^T)).
Proof.
have hs : sym (Pnew - K *m S *m K^T) by rewrite rel_cov; apply: sym_dr; apply: joseph_sym.
split; first by apply/symm_inplace_sym.
rewrite symm_inplace_id // rel_cov; apply: psd_dr; exact: joseph_psd.
Qed.
End Relative.

Lemma qf_block n m (A : 'M[F]_n) (D : 'M[F]_m) x :
  qf (block_mx A 0 0 D) x = qf A (usubmx x) + qf D (dsubmx x).
Proof.
rewrite /qf -[in LHS](vsubmxK x) tr_col_mx mul_row_block mul_row_col.
by rewrite !mulmx0 addr0 add0r mxE.
Qed.

Lemma joint_ok n (P Fa Q : 'M[F]_n) : cov_ok P -> cov_ok Q ->
  cov_ok (joint_cov P Fa (propagate_cov Fa Q P)).
Proof.
move=> [sP pP] [sQ pQ].
have -> : joint_cov P Fa (propagate_cov Fa Q P) =
  col_mx 1%:M Fa *m P *m (col_mx 1%:M Fa)^T + block_mx 0 0 0 Q.
  rewrite /joint_cov /propagate_cov tr_col_mx trmx1 mul_col_mx mul_col_row.
  by rewrite mul1mx !mulmx1 add_block_mx !addr0.
split.
- apply: symD; first exact: sym_congr.
  by rewrite /sym tr_block_mx !trmx0 sQ.
- apply: psdD; first exact: psd_congr.
  by move=> x; rewrite qf_block addr_ge0 //; apply: psd0.
Qed.

Lemma propagate_ok n (Fd Q P : 'M[F]_n) : cov_ok P -> cov_ok Q -> cov_ok (propagate_cov Fd Q P).
Proof.
move=> [sP pP] [sQ pQ]; split.
- by apply: symD => //; apply: sym_congr.
- by apply: psdD => //; apply: psd_congr.
Qed.

(** ** Clearing cross covariances *)

Definition mask n (p : nat -> bool) (x : 'cV[F]_n) : 'cV[F]_n := \col_i if p i then x i 0 else 0.

Lemma qfE n (P : 'M[F]_n) x : qf P x = \sum_i \sum_j x i 0 * P i j * x j 0.
Proof.
rewrite /qf mxE exchange_big /=; apply: eq_bigr => j _; rewrite !mxE mulr_suml.
by apply: eq_bigr => i _; rewrite !mxE.
Qed.

Lemma qf_clear n a l (P : 'M[F]_n) x :
  qf (clear_cross a l P) x =
  qf P (mask (in_range a l) x) + qf P (mask (fun i => ~~ in_range a l i) x).
Proof.
rewrite !qfE -big_split; apply: eq_bigr => i _; rewrite -big_split; apply: eq_bigr => j _ /=.
rewrite !mxE; case: (in_range a l i); case: (in_range a l j) => /=;
  by rewrite ?(mulr0, mul0r, addr0, add0r).
Qed.

Lemma clear_ok n a l (P : 'M[F]_n) : cov_ok P -> cov_ok (clear_cross a l P).
Proof.
move=> [sP pP]; split; last by move=> x; rewrite qf_clear addr_ge0.
apply/matrixP => i j; rewrite !mxE.
have -> : P j i = P i j by rewrite -{1}sP mxE.
by rewrite andbC orbC.
Qed.

(** A state whose cross covariances are cleared and whose columns of the
    measurement matrix are zero gets no correction. *)
Lemma gain_fixed n m (P : 'M[F]_n) (H : 'M[F]_(m, n)) (R : 'M[F]_m) (i : 'I_n) :
  (forall j, (exists k, H k j != 0) -> P i j = 0) -> forall k, gain P H R i k = 0.
Proof.
move=> h k; rewrite /gain mxE big1 // => l _.
rewrite mxE big1 ?mul0r // => j _; rewrite mxE.
have [->|hn] := eqVneq (H l j) 0; first by rewrite mulr0.
by rewrite h ?mul0r //; exists l.
Qed.

(** ** Two by two matrices, for witnesses *)

Definition m2 (a b c d : F) : 'M[F]_2 :=
  \matrix_(i, j) if i == 0 then if j == 0 then a else b else if j == 0 then c else d.
Definition c2 (x y : F) : 'cV[F]_2 := \col_i if i == 0 then x else y.

Ltac m2_tac := apply/matrixP => -[[|[|//]] hi] [[|[|//]] hj];
  rewrite !mxE ?big_ord_recl ?big_ord0 ?mxE /= ?addr0 //.

Lemma m2M a b c d a' b' c' d' : m2 a b c d *m m2 a' b' c' d' =
  m2 (a * a' + b * c') (a * b' + b * d') (c * a' + d * c') (c * b' + d * d').
Proof. by m2_tac. Qed.
Lemma m2T a b c d : (m2 a b c d)^T = m2 a c b d.
Proof. by m2_tac. Qed.
Lemma m2B a b c d a' b' c' d' : m2 a b c d - m2 a' b' c' d' = m2 (a - a') (b - b') (c - c') (d - d').
Proof. by m2_tac. Qed.
Lemma m2c a b c d x y : m2 a b c d *m c2 x y = c2 (a * x + b * y) (c * x + d * y).
Proof. by apply/colP => -[[|[|//]] hi]; rewrite !mxE !big_ord_recl big_ord0 !mxE /= addr0. Qed.
Lemma r2m a b c d x y : (c2 x y)^T *m m2 a b c d = (c2 (x * a + y * c) (x * b + y * d))^T.
Proof. by apply/rowP => -[[|[|//]] hi]; rewrite !mxE !big_ord_recl big_ord0 !mxE /= addr0. Qed.
Lemma r2c x y x' y' : (c2 x y)^T *m c2 x' y' = (x * x' + y * y')%:M.
Proof. by apply/matrixP => i j; rewrite !ord1 !mxE !big_ord_recl big_ord0 !mxE /= addr0. Qed.
Lemma c2r x y x' y' : c2 x y *m (c2 x' y')^T = m2 (x * x') (x * y') (y * x') (y * y').
Proof. by apply/matrixP => -[[|[|//]] hi] [[|[|//]] hj]; rewrite !mxE big_ord_recl big_ord0 !mxE /= addr0. Qed.
Lemma c2D x y x' y' : c2 x y + c2 x' y' = c2 (x + x') (y + y').
Proof. by apply/colP => -[[|[|//]] hi]; rewrite !mxE. Qed.
Lemma c2N x y : - c2 x y = c2 (- x) (- y).
Proof. by apply/colP => -[[|[|//]] hi]; rewrite !mxE. Qed.
Lemma qf2 a b c d x y : qf (m2 a b c d) (c2 x y) = (x * a + y * c) * x + (x * b + y * d) * y.
Proof. by rewrite /qf r2m r2c mxE. Qed.
Lemma c2P (x : 'cV[F]_2) : x = c2 (x 0 0) (x 1 0).
Proof.
by apply/colP => -[[|[|//]] hi]; rewrite !mxE /=; congr (x _ _); apply: val_inj.
Qed.

Lemma qf1 a x : qf (a%:M : 'M[F]_1) x = a * x 0 0 ^+ 2.
Proof.
by rewrite /qf mul_mx_scalar -scalemxAl !mxE big_ord_recl big_ord0 addr0 !mxE expr2.
Qed.
Lemma pd1 (a : F) : 0 < a -> pd (a%:M : 'M[F]_1).
Proof.
move=> h x hx; rewrite qf1 pmulr_rgt0 // lt_def sqr_ge0 andbT sqrf_eq0.
by apply: contra hx => /eqP e; apply/eqP/colP => i; rewrite ord1 e mxE.
Qed.
Lemma sym_scalar n (a : F) : sym (a%:M : 'M[F]_n).
Proof. exact: tr_scalar_mx. Qed.
Lemma psd_scalar n (a : F) : 0 <= a -> psd (a%:M : 'M[F]_n).
Proof.
move=> h x; rewrite /qf mul_mx_scalar -scalemxAl !mxE mulr_ge0 //.
by apply: sumr_ge0 => i _; rewrite !mxE -expr2 sqr_ge0.
Qed.
Lemma pd_scalar n (a : F) : 0 < a -> pd (a%:M : 'M[F]_n).
Proof.
move=> h x hx; rewrite lt_def psd_scalar ?ltW // andbT.
rewrite /qf mul_mx_scalar -scalemxAl mxE; apply: mulf_neq0; first by rewrite gt_eqF.
apply/eqP; rewrite mxE => e; move/eqP: hx; case; apply/colP => i.
have h0 j : true -> 0 <= x^T 0 j * x j 0 by rewrite !mxE -expr2 sqr_ge0.
have := psumr_eq0P h0 e (isT : true) (i := i); rewrite !mxE -expr2.
by move/eqP; rewrite sqrf_eq0 => /eqP.
Qed.

(** ** Initial covariance *)

Definition l2m n (s : seq (seq Z)) : 'M[F]_n := \matrix_(i, j) zf F (nth Z0 (nth [::] s i) j).

Lemma zfD (a b : Z) : zf F (Z.add a b) = zf F a + zf F b.
Proof. by rewrite /zf -intrD -raddfD. Qed.
Lemma zfM (a b : Z) : zf F (Z.mul a b) = zf F a * zf F b.
Proof. by rewrite /zf -intrM -rmorphM. Qed.
Lemma zf_ge0 (a : Z) : Z.leb 0 a -> 0 <= zf F a.
Proof. by case: a => [|p|p] //= _; rewrite /zf /= ler0n. Qed.

Lemma zf_gt0 (a : Z) : (0 < zf F a) = Z.ltb 0 a.
Proof.
case: a => [|p|p] /=; rewrite /zf /=; first by rewrite ltxx.
  by rewrite ltr0n; apply/ssrnat.ltP/Pos2Nat.is_pos.
by rewrite ltNge NegzE mulrNz oppr_le0 ler0n.
Qed.

Lemma zf_inj : injective (zf F).
Proof. by move=> a b /(@intr_inj F) /(can_inj int_of_ZK). Qed.

Fixpoint sosum (c : seq (Z * seq Z)) (i j : nat) : Z :=
  if c is (d, v) :: r then Z.add (Z.mul d (Z.mul (nth Z0 v i) (nth Z0 v j))) (sosum r i j) else Z0.

Definition sos_check (n : nat) (N : Z) (s : seq (seq Z)) (c : seq (Z * seq Z)) : bool :=
  [&& Z.ltb 0 N, all (fun e => Z.leb 0 e.1) c
    & all (fun i => all (fun j => Z.eqb (Z.mul N (nth Z0 (nth [::] s i) j)) (sosum c i j)) (iota 0 n)) (iota 0 n)].

Lemma sos_psd n N s c : sos_check n N s c -> psd (l2m n s).
Proof.
case/and3P => hN hd heq.
have key : psd (\matrix_(i, j) zf F (sosum c i j) : 'M[F]_n).
  elim: c hd {heq} => [|[d v] r IH] /=.
    by move=> _ x; rewrite qfE big1 // => i _; rewrite big1 // => j _; rewrite mxE mulr0 mul0r.
  case/andP => hd /IH hr.
  have -> : (\matrix_(i, j) zf F (sosum ((d, v) :: r) i j) : 'M[F]_n) =
    zf F d *: ((\col_i zf F (nth Z0 v i)) *m 1%:M *m (\col_i zf F (nth Z0 v i))^T)
      + \matrix_(i, j) zf F (sosum r i j).
    apply/matrixP => i j; rewrite mulmx1 !mxE /= zfD !zfM; congr (_ * _ + _).
    by rewrite big_ord_recl big_ord0 addr0 !mxE.
  apply: psdD hr; apply: psdZ; first exact: zf_ge0.
  apply: psd_congr => x; rewrite /qf mulmx1 mxE big_ord_recl big_ord0 addr0 mxE.
  exact: sqr_ge0.
have hz : 0 < zf F N.
  by move: hN; case: N {heq} => [|p|p] //= _; rewrite /zf /= ltr0n; apply/ssrnat.ltP/Pos2Nat.is_pos.
move=> x; rewrite -(pmulr_rge0 _ hz) -qfZ.
suff -> : zf F N *: l2m n s = \matrix_(i, j) zf F (sosum c i j) by [].
apply/matrixP => i j; rewrite !mxE -zfM; congr zf.
move/allP: heq => /(_ i); rewrite mem_iota ltn_ord => /(_ isT) /allP /(_ j).
by rewrite mem_iota ltn_ord => /(_ isT) /Z.eqb_eq.
Qed.

Lemma psd_sum n (P : 'M[F]_n) : psd (P + P^T) -> psd P.
Proof.
move=> h x; have := h x; rewrite qfD qfT -mulr2n pmulrn_lge0 //.
Qed.

Definition tab (f : Z -> Z -> Z) (g : Z -> Z -> Z) (s : seq (seq Z)) : seq (seq Z) :=
  mkseq (fun i => mkseq (fun j => let a := nth Z0 (nth [::] s i) j in
    let b := nth Z0 (nth [::] s j) i in if (j <= i)%N then f a b else g a b) 15) 15.

Definition e3_5 a b := Z.add (Z.add a (Z.add a a)) (Z.add (Z.add b b) (Z.add b (Z.add b b))).

Lemma tabE f g s : l2m 15 (tab f g s) = \matrix_(i, j)
  (let a := nth Z0 (nth [::] s i) j in let b := nth Z0 (nth [::] s j) i in
   zf F (if (j <= i)%N then f a b else g a b)).
Proof.
by apply/matrixP => i j; rewrite !mxE (nth_mkseq _ _ (ltn_ord i)) (nth_mkseq _ _ (ltn_ord j)).
Qed.

Lemma core_ideal_psd : psd (symm_ideal (core_block F)).
Proof.
have h : psd (l2m 15 (tab Z.add Z.add p_core)) by apply: (@sos_psd _ n_ideal _ cert_ideal); vm_compute.
have e : symm_ideal (core_block F) = (2^-1 * 10%:R ^- 4) *: l2m 15 (tab Z.add Z.add p_core).
  apply/matrixP => i j; rewrite tabE /symm_ideal !mxE /= if_same zfD -mulrDl mulrA.
  by rewrite mulrAC.
rewrite e; apply: psdZ h; apply: mulr_ge0; rewrite invr_ge0 ?exprn_ge0 ?ler0n ?ler0z //.
Qed.

Lemma half_half : 2^-1 = 2^-1 * 2^-1 + 2^-1 * 2^-1 :> F.
Proof. by rewrite -mulrDr half2. Qed.

Lemma core_inplace_psd : psd (symm_inplace (core_block F)).
Proof.
apply: psd_sum.
have h : psd (l2m 15 (tab e3_5 (fun a b => e3_5 b a) p_core))
  by apply: (@sos_psd _ n_inplace _ cert_inplace); vm_compute.
pose q : F := 2^-1 * 2^-1.
have key (a b : F) : 2^-1 * (a + b) + 2^-1 * (b + 2^-1 * (a + b)) =
    q * (a + (a + a) + (b + b + (b + (b + b)))).
  rewrite (mulrDr _ b) (mulrA _ _ (a + b)) -/q half_half -/q.
  rewrite !mulrDl !mulrDr; set x := q * a; set y := q * b.
  by rewrite !addrA [LHS](ACl (1*3*7*2*4*5*6*8)).
have e : symm_inplace (core_block F) + (symm_inplace (core_block F))^T =
    (q * 10%:R ^- 4) *: l2m 15 (tab e3_5 (fun a b => e3_5 b a) p_core).
  apply/matrixP => i j; rewrite tabE 2!mxE !symm_inplaceE !mxE /=.
  case: (ltngtP i j) => ij; rewrite /e3_5 !zfD.
  - by rewrite addrC key -!mulrDl mulrA mulrAC.
  - by rewrite key -!mulrDl mulrA mulrAC.
  - have -> : j = i by apply: val_inj.
    set x := zf F _; have := key (x / 10%:R ^+ 4) (x / 10%:R ^+ 4); rewrite !half2 => ->.
    by rewrite -!mulrDl mulrA mulrAC.
rewrite e; apply: psdZ h.
by rewrite !mulr_ge0 ?invr_ge0 ?exprn_ge0 ?ler0n ?ler0z.
Qed.
End Forms.
