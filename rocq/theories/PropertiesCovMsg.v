(** C44: covariances in messages. *)

From mathcomp Require Import all_ssreflect all_algebra.
From Verif Require Import CovSpec CovProofs CovMsg.
Import GRing.Theory Num.Theory Order.TTheory.

Set Implicit Arguments.
Unset Strict Implicit.
Unset Printing Implicit Defensive.
Local Open Scope ring_scope.

Section C44.
Variable F : realFieldType.

(** Entry (r,c) of a 36 element message array, as ROS documents it: row-major. *)
Definition ros (a : nat -> F) (r c : nat) : F := a (6 * r + c)%N.
(** Reading a filter covariance by numbers. *)
Definition num n (P : 'M[F]_n.+1) (i j : nat) : F := P (inord i) (inord j).
(** Position (or velocity) first, then attitude. *)
Definition slot (i1 i2 k : nat) : nat := if (k < 3)%N then (i1 + k)%N else (i2 + (k - 3))%N.

Lemma cell_div r c : (r < 6)%N -> (cell r c %/ 6 = c)%N.
Proof. by move=> h; rewrite /cell addnC mulnC divnMDl // divn_small // addn0. Qed.
Lemma cell_mod r c : (r < 6)%N -> (cell r c %% 6 = r)%N.
Proof. by move=> h; rewrite /cell addnC mulnC modnMDl modn_small. Qed.
Lemma cell_lt r c : (r < 6)%N -> (c < 6)%N -> (cell r c < 36)%N.
Proof.
move=> hr hc; rewrite /cell.
have h : (6 * c <= 30)%N by rewrite -[30%N]/(6 * 5)%N leq_mul2l.
by apply: leq_trans (_ : (6 + 30 <= 36)%N) => //; rewrite -addSn leq_add.
Qed.

Lemma write_cell (a : nat -> F) r0 c0 B r c : (r < 6)%N -> (c < 6)%N ->
  write_block3 a r0 c0 B (cell r c) =
  if (r0 <= r < r0 + 3)%N && (c0 <= c < c0 + 3)%N then B (r - r0)%N (c - c0)%N else a (cell r c).
Proof. by move=> hr hc; rewrite /write_block3 cell_mod // cell_div // cell_lt. Qed.

Lemma rosE a r c : ros a r c = a (cell c r).
Proof. by rewrite /ros /cell addnC. Qed.

Lemma pose_cell P ip iq a r c : (r < 6)%N -> (c < 6)%N ->
  @pose_covariance F P ip iq a (cell r c) = P (slot ip iq r) (slot ip iq c).
Proof.
move=> hr hc; rewrite /pose_covariance !write_cell // /block3 /slot.
have e r' : (r' < 6)%N -> ((3 <= r' < 3 + 3) = ~~ (r' < 3))%N by move=> h; rewrite h andbT -leqNgt.
have e0 r' : ((0 <= r' < 0 + 3) = (r' < 3))%N by [].
by rewrite !e // !e0 !subn0; case: (ltnP r 3) => h1; case: (ltnP c 3).
Qed.

(** The pose covariance of a message, entry by entry. *)
Theorem C44_pose_layout n (P : 'M[F]_n.+1) ip iq a r c : sym P -> (r < 6)%N -> (c < 6)%N ->
  ros (pose_covariance (num P) ip iq a) r c = num P (slot ip iq r) (slot ip iq c).
Proof. by move=> hs hr hc; rewrite rosE pose_cell // /num -[in LHS]hs mxE. Qed.

(** It is symmetric if the filter's covariance is, *)
Theorem C44_pose_symmetric n (P : 'M[F]_n.+1) ip iq a r c : sym P -> (r < 6)%N -> (c < 6)%N ->
  ros (pose_covariance (num P) ip iq a) r c = ros (pose_covariance (num P) ip iq a) c r.
Proof. by move=> hs hr hc; rewrite !C44_pose_layout // /num -[in LHS]hs mxE. Qed.

(** Picking rows and columns keeps a covariance a covariance. *)
Lemma pick_ok n m (P : 'M[F]_n) (f : 'I_m -> 'I_n) : cov_ok P -> cov_ok (\matrix_(i, j) P (f i) (f j)).
Proof.
move=> [hs hp]; pose S : 'M[F]_(m, n) := \matrix_(i, k) (k == f i)%:R.
have -> : \matrix_(i, j) P (f i) (f j) = S *m P *m S^T.
  apply/matrixP => i j; rewrite !mxE (bigD1 (f j)) //= !mxE eqxx mulr1 [X in _ + X]big1.
    rewrite addr0 (bigD1 (f i)) //= !mxE eqxx mul1r big1 ?addr0 // => k hk.
    by rewrite !mxE (negbTE hk) mul0r.
  by move=> k hk; rewrite !mxE (negbTE hk) mulr0.
by split; [apply: sym_congr|apply: psd_congr].
Qed.

(** and positive semidefinite if the filter's covariance is. *)
Definition message_matrix (a : nat -> F) : 'M[F]_6 := \matrix_(i, j) ros a i j.
Theorem C44_pose_covariance n (P : 'M[F]_n.+1) ip iq a : cov_ok P ->
  cov_ok (message_matrix (pose_covariance (num P) ip iq a)).
Proof.
move=> hP; have [hs _] := hP.
have -> : message_matrix (pose_covariance (num P) ip iq a) =
   \matrix_(i, j) P (inord (slot ip iq i)) (inord (slot ip iq j)).
  by apply/matrixP => i j; rewrite !mxE C44_pose_layout.
exact: pick_ok.
Qed.

(** An asymmetric covariance comes out transposed. *)
Theorem C44_pose_transposed n (P : 'M[F]_n.+1) ip iq a r c : (r < 6)%N -> (c < 6)%N ->
  ros (pose_covariance (num P) ip iq a) r c = num P (slot ip iq c) (slot ip iq r).
Proof. by move=> hr hc; rewrite rosE pose_cell. Qed.

Theorem C44_pose_refuted : exists n (P : 'M[F]_n.+1) ip iq a r c, (r < 6)%N /\ (c < 6)%N /\
  ros (pose_covariance (num P) ip iq a) r c <> num P (slot ip iq r) (slot ip iq c).
Proof.
exists 5%N, (\matrix_(i, j) (i : nat)%:R), 0%N, 3%N, (fun _ => 0), 0%N, 1%N; do 2!split=> //.
rewrite C44_pose_transposed // /num /slot /= !mxE !inordK // => /eqP.
by rewrite eqr_nat.
Qed.

(** ** The twist *)

(** Rotated velocity covariance, angular rate covariance, and what was there before. *)
Lemma twist_cell P iv iq ibw RT SV ng a r c : (r < 6)%N -> (c < 6)%N ->
  @twist_covariance F P iv iq ibw RT SV ng a (cell r c) =
  if (r < 3)%N && (c < 3)%N then entry (velocity_cov P iv iq RT SV) r c
  else if ~~ (r < 3)%N && ~~ (c < 3)%N
  then P (ibw + (r - 3))%N (ibw + (c - 3))%N + (if (r - 3 == c - 3)%N then ng (r - 3)%N * ng (r - 3)%N else 0)
  else a (cell r c).
Proof.
move=> hr hc; rewrite /twist_covariance !write_cell //.
have e r' : (r' < 6)%N -> ((3 <= r' < 3 + 3) = ~~ (r' < 3))%N by move=> h; rewrite h andbT -leqNgt.
have e0 r' : ((0 <= r' < 0 + 3) = (r' < 3))%N by [].
by rewrite !e // !e0 !subn0; case: (ltnP r 3) => h1; case: (ltnP c 3).
Qed.

Lemma vel_att_pick n (P : 'M[F]_n.+1) iv iq : vel_att (num P) iv iq =
  \matrix_(i, j) P (inord (slot iv iq i)) (inord (slot iv iq j)).
Proof.
by apply/matrixP => i j; rewrite !mxE; case: splitP => i' ->; rewrite !mxE;
  case: splitP => j' ->; rewrite !mxE /num /slot ?ltn_ord ?(ltnNge _ 3) ?leq_addr /= ?addKn.
Qed.

Lemma velocity_ok n (P : 'M[F]_n.+1) iv iq RT SV : cov_ok P -> cov_ok (velocity_cov (num P) iv iq RT SV).
Proof.
move=> hP; rewrite /velocity_cov vel_att_pick.
have [h1 h2] := pick_ok (fun i : 'I_(3 + 3) => inord (slot iv iq i) : 'I_n.+1) hP.
by split; [apply: sym_congr|apply: psd_congr].
Qed.

(** What the twist covariance should be: the covariance of the velocity in the body frame,
    where the body velocity depends on velocity and attitude through (R', [v]x), next to
    that of the bias free rate, without cross terms. *)
Definition rate_cov n (P : 'M[F]_n.+1) ibw (ng : nat -> F) : 'M[F]_3 :=
  \matrix_(i, j) (num P (ibw + i) (ibw + j) + (if i == j then ng i ^+ 2 else 0)).
Definition twist_spec n (P : 'M[F]_n.+1) iv iq ibw (RT SV : 'M[F]_3) ng : 'M[F]_6 :=
  let V := \matrix_(i < 6, j < 6) num P (slot iv iq i) (slot iv iq j) in
  let J := row_mx RT SV : 'M[F]_(3, 3 + 3) in
  block_mx (J *m V *m J^T) 0 0 (rate_cov P ibw ng) : 'M[F]_(3 + 3).

Theorem C44_twist n (P : 'M[F]_n.+1) iv iq ibw (RT SV : 'M[F]_3) ng : cov_ok P ->
  message_matrix (twist_covariance (num P) iv iq ibw RT SV ng (fun _ => 0)) =
  twist_spec P iv iq ibw RT SV ng.
Proof.
move=> hP; have [hs _] := velocity_ok iv iq RT SV hP; have [hsP _] := hP.
apply/matrixP => i j; rewrite mxE rosE twist_cell // /twist_spec.
rewrite [RHS]mxE; case: splitP => i' hi; rewrite !mxE; case: splitP => j' hj; rewrite hi hj !mxE.
- have -> : (j' < 3)%N && (i' < 3)%N by rewrite !ltn_ord.
  rewrite -[in LHS]hs /entry mxE !inord_val /velocity_cov vel_att_pick.
  by rewrite mxE.
- by rewrite !ltn_ord (ltnNge _ 3) leq_addr /=.
- by rewrite !ltn_ord (ltnNge _ 3) leq_addr /=.
- rewrite !(ltnNge _ 3) !leq_addr /= !addKn /num -[in LHS]hsP mxE.
  congr (_ + _); rewrite -(inj_eq val_inj) /= eq_sym; case: eqP => [h|//]; by rewrite -h expr2.
Qed.

(** It is a covariance. *)
Lemma rate_ok n (P : 'M[F]_n.+1) ibw ng : cov_ok P -> cov_ok (rate_cov P ibw ng).
Proof.
move=> hP; have [h1 h2] := pick_ok (fun i : 'I_3 => inord (ibw + i) : 'I_n.+1) hP.
have -> : rate_cov P ibw ng = \matrix_(i, j) P (inord (ibw + i)) (inord (ibw + j))
    + diag_mx (\row_(i < 3) ng i ^+ 2).
  by apply/matrixP => i j; rewrite !mxE /num; case: eqP => [->|_]; rewrite ?mulr1n ?mulr0n.
split; first by apply: symD => //; rewrite /sym tr_diag_mx.
apply: psdD => // x; rewrite /qf mul_mx_diag mxE sumr_ge0 // => k _.
by rewrite !mxE mulrAC -expr2 mulr_ge0 // sqr_ge0.
Qed.

Theorem C44_twist_covariance n (P : 'M[F]_n.+1) iv iq ibw (RT SV : 'M[F]_3) ng : cov_ok P ->
  cov_ok (message_matrix (twist_covariance (num P) iv iq ibw RT SV ng (fun _ => 0))).
Proof.
move=> hP; rewrite C44_twist //; have [h1 h2] := rate_ok ibw ng hP.
have [h3 h4] := velocity_ok iv iq RT SV hP; rewrite /twist_spec.
have e : row_mx RT SV *m (\matrix_(i < 6, j < 6) num P (slot iv iq i) (slot iv iq j)) *m (row_mx RT SV)^T
         = velocity_cov (num P) iv iq RT SV by rewrite /velocity_cov vel_att_pick.
rewrite e; split; first by rewrite /sym (@tr_block_mx F 3 3 3 3) !trmx0 h1 h3.
by move=> x; rewrite (@qf_block F 3 3) addr_ge0.
Qed.

(** ** Blocks *)

(** Writing a block and reading it back gives the block; the mirrored block is its
    transpose; the rest of the array is not touched. *)
Definition mx3 (B : nat -> nat -> F) : 'M[F]_3 := \matrix_(i, j) B i j.
Definition start (k : nat) : bool := (k == 0)%N || (k == 3)%N.

Theorem C44_roundtrip a B r0 c0 : start r0 -> start c0 ->
  let a' := eigen_to_cov_block a B r0 c0 in
  mx3 (cov_block_to_eigen a' r0 c0) = mx3 B /\
  (r0 <> c0 -> mx3 (cov_block_to_eigen a' c0 r0) = (mx3 B)^T) /\
  (forall r1 c1, start r1 -> start c1 -> (r1, c1) <> (r0, c0) -> (r1, c1) <> (c0, r0) ->
    mx3 (cov_block_to_eigen a' r1 c1) = mx3 (cov_block_to_eigen a r1 c1)).
Proof.
have w (a0 : nat -> F) B0 r0' c0' r1 c1 (i j : 'I_3) : start r0' -> start c0' -> start r1 -> start c1 ->
  read_block3 (write_block3 a0 r0' c0' B0) r1 c1 i j =
  if (r0' == r1)%N && (c0' == c1)%N then B0 i j else read_block3 a0 r1 c1 i j.
  have s6 k (l : 'I_3) : start k -> (k + l < 6)%N.
    by case/orP => /eqP ->; rewrite ?add0n -?[6%N]/(3 + 3)%N ?ltn_add2l ?(leq_trans (ltn_ord l)).
  have e k k' (l : 'I_3) : start k -> start k' -> (k <= k' + l < k + 3)%N = (k == k')%N.
    case/orP => /eqP -> /orP[] /eqP -> //=; rewrite ?add0n ?ltn_ord // ?leq_addr ?ltn_add2l ?ltn_ord //.
    by rewrite leqNgt ltn_ord.
  move=> h0 h1 h2 h3; rewrite /read_block3.
rewrite write_cell ?s6 // !e //.
  by case: ifP => // /andP[/eqP -> /eqP ->]; rewrite !addKn.
move=> hr hc; rewrite /eigen_to_cov_block /cov_block_to_eigen; split; [|split].
- apply/matrixP => i j; rewrite !mxE; case: ifP => h; rewrite !w // ?eqxx //.
  by rewrite (eq_sym c0) (negbTE h).
- move=> ne; have h : r0 != c0 by apply/eqP.
  by apply/matrixP => i j; rewrite !mxE h !w // !eqxx.
- move=> r1 c1 h1 h2 ne ne'; apply/matrixP => i j; rewrite !mxE.
  have n1 : (r0 == r1) && (c0 == c1) = false.
    by apply/negP => /andP[/eqP e1 /eqP e2]; apply: ne; rewrite e1 e2.
  have n2 : (c0 == r1) && (r0 == c1) = false.
    by apply/negP => /andP[/eqP e1 /eqP e2]; apply: ne'; rewrite e1 e2.
  by case: ifP => _; rewrite !w // ?n1 ?n2.
Qed.

Definition symmetric_array (a : nat -> F) : Prop :=
  forall r c, (r < 6)%N -> (c < 6)%N -> ros a r c = ros a c r.

(** Writing a block keeps the array symmetric (a diagonal one has to be symmetric itself). *)
Theorem C44_write_symmetric a B r0 c0 : start r0 -> start c0 -> symmetric_array a ->
  (r0 = c0 -> mx3 B = (mx3 B)^T) -> symmetric_array (eigen_to_cov_block a B r0 c0).
Proof.
move=> hr hc ha hB r c h1 h2; rewrite !rosE /eigen_to_cov_block.
have ha' : a (cell c r) = a (cell r c) by have := ha _ _ h1 h2; rewrite !rosE.
have lt k l : (k <= l < k + 3)%N -> (l - k < 3)%N by move=> /andP[h h']; rewrite ltn_subLR.
case: (eqVneq r0 c0) => [e|ne] /=.
  rewrite -e !write_cell // [X in _ = (if X then _ else _)]andbC; case: ifP => // /andP[h h'].
  by move: (hB e) => /matrixP/(_ (Ordinal (lt _ _ h)) (Ordinal (lt _ _ h'))); rewrite !mxE.
rewrite !write_cell // [in RHS](andbC (c0 <= r < _)%N) [in RHS](andbC (r0 <= r < _)%N).
case: (boolP ((c0 <= c < c0 + 3) && (r0 <= r < r0 + 3))%N) => h;
case: (boolP ((r0 <= c < r0 + 3) && (c0 <= r < c0 + 3))%N) => h' //.
case/andP: h => /andP[u1 u2] _; case/andP: h' => /andP[v1 v2] _; move: ne u1 u2 v1 v2.
case/orP: hr => /eqP ->; case/orP: hc => /eqP -> //= _ u1 u2 v1 v2.
  by have := leq_trans v2 u1; rewrite ltnn.
by have := leq_trans u2 v1; rewrite ltnn.
Qed.

(** In terms of the documented layout the block read is the transposed one, which is the
    right one on the diagonal of a symmetric array *)
Definition ros_block (a : nat -> F) (r0 c0 : nat) : 'M[F]_3 := \matrix_(i, j) ros a (r0 + i) (c0 + j).

Theorem C44_read_transposed a r0 c0 :
  mx3 (cov_block_to_eigen a r0 c0) = (ros_block a c0 r0)^T.
Proof. by apply/matrixP => i j; rewrite !mxE rosE. Qed.

Theorem C44_read a r0 c0 : start r0 -> start c0 -> symmetric_array a ->
  mx3 (cov_block_to_eigen a r0 c0) = ros_block a r0 c0.
Proof.
have s6 k (l : 'I_3) : start k -> (k + l < 6)%N.
  by case/orP => /eqP ->; rewrite ?add0n -?[6%N]/(3 + 3)%N ?ltn_add2l ?(leq_trans (ltn_ord l)).
by move=> hr hc hs; rewrite C44_read_transposed; apply/matrixP => i j; rewrite !mxE hs ?s6.
Qed.

(** but not otherwise. *)
Theorem C44_read_refuted : exists (a : nat -> F) (r0 c0 : nat),
  start r0 /\ start c0 /\ mx3 (cov_block_to_eigen a r0 c0) <> ros_block a r0 c0.
Proof.
exists (fun k => k%:R), 0%N, 3%N; do 2!split => //.
move/matrixP/(_ ord0 ord0); rewrite !mxE /ros /= => /eqP.
by rewrite eqr_nat.
Qed.

(** ** The covariance parts of the extended state message *)
Theorem C44_submatrix (P : nat -> nat -> F) r0 r1 c0 c1 i j d : (i < r1 - r0)%N -> (j < c1 - c0)%N ->
  let '(h, w, l) := submatrix P r0 r1 c0 c1 in
  h = (r1 - r0)%N /\ w = (c1 - c0)%N /\ size l = (h * w)%N /\ nth d l (w * i + j) = P (r0 + i)%N (c0 + j)%N.
Proof.
move=> hi hj; rewrite /submatrix; do 3!split=> //; first by rewrite size_allpairs !size_iota.
move: (r1 - r0)%N hi => h; elim: h r0 i => [//|h IH] r0 [|i] hi /=.
  by rewrite muln0 add0n addn0 nth_cat size_map size_iota hj (nth_map 0%N) ?size_iota // nth_iota.
rewrite nth_cat size_map size_iota mulnS -addnA ltnNge leq_addr /= addKn IH //.
by rewrite addSnnS.
Qed.

(** The three parts together determine the whole (symmetric) covariance. *)
Definition part_entry (m : nat * nat * seq F) (i j : nat) : F := nth 0 m.2 (m.1.2 * i + j).
Definition reassembled (n_core : nat) (core aux core_aux : nat * nat * seq F) (r c : nat) : F :=
  match (r < n_core)%N, (c < n_core)%N with
  | true, true => part_entry core r c
  | true, false => part_entry core_aux r (c - n_core)
  | false, true => part_entry core_aux c (r - n_core)
  | false, false => part_entry aux (r - n_core) (c - n_core)
  end.

Theorem C44_parts (P : nat -> nat -> F) n_core n : (n_core <= n)%N -> (forall r c, P r c = P c r) ->
  (core_covariance P n_core).1 = (n_core, n_core) /\
  (aux_covariance P n_core n).1 = (n - n_core, n - n_core)%N /\
  (core_aux_covariance P n_core n).1 = (n_core, n - n_core)%N /\
  forall r c, (r < n)%N -> (c < n)%N ->
    reassembled n_core (core_covariance P n_core) (aux_covariance P n_core n) (core_aux_covariance P n_core n) r c = P r c.
Proof.
move=> hn hs; split; first by rewrite /core_covariance /submatrix /= subn0.
split=> //; split; first by rewrite /core_aux_covariance /submatrix /= subn0.
have e r0 r1 c0 c1 i j : (i < r1 - r0)%N -> (j < c1 - c0)%N ->
    part_entry (submatrix P r0 r1 c0 c1) i j = P (r0 + i)%N (c0 + j)%N.
  by move=> hi hj; have [_ [_ [_]]] := C44_submatrix P 0 hi hj; rewrite /part_entry.
have sub k : (k < n)%N -> (k < n_core)%N = false -> (k - n_core < n - n_core)%N /\ (n_core + (k - n_core))%N = k.
  by move=> h /negbT; rewrite -leqNgt => h'; rewrite ltn_sub2r ?subnKC //; apply: leq_ltn_trans h' h.
move=> r c hr hc; rewrite /reassembled /core_covariance /aux_covariance /core_aux_covariance.
case er: (r < n_core)%N; case ec: (c < n_core)%N; rewrite e ?subn0 ?add0n //.
- by have [_ ->] := sub _ hc ec.
- by have [] := sub _ hc ec.
- by have [_ ->] := sub _ hr er; rewrite hs.
- by have [] := sub _ hr er.
- by have [_ ->] := sub _ hr er; have [_ ->] := sub _ hc ec.
- by have [] := sub _ hr er.
- by have [] := sub _ hc ec.
Qed.
End C44.

Print Assumptions C44_pose_layout.
Print Assumptions C44_pose_symmetric.
Print Assumptions C44_pose_covariance.
Print Assumptions C44_pose_transposed.
Print Assumptions C44_pose_refuted.
Print Assumptions C44_twist.
Print Assumptions C44_twist_covariance.
Print Assumptions C44_roundtrip.
Print Assumptions C44_write_symmetric.
Print Assumptions C44_read_transposed.
Print Assumptions C44_read.
Print Assumptions C44_read_refuted.
Print Assumptions C44_submatrix.
Print Assumptions C44_parts.

(** ** Examples *)

(** A covariance with nonzero cross terms, and the message made from it: position at 0,
    attitude at 6. *)
Definition ex_P : 'M[rat]_9 := const_mx 1 + 1%:M.
Example ex_P_ok : cov_ok ex_P.
Proof.
split; first by rewrite /sym /ex_P linearD /= trmx1 trmx_const.
apply: psdD; last by have := @psd_scalar rat_realFieldType 9 1; apply.
have -> : const_mx 1 = const_mx 1 *m (const_mx 1 : 'M[rat]_(1, 9)) :> 'M[rat]_9.
  by apply/matrixP => i j; rewrite !mxE big_ord1 !mxE mulr1.
move=> x; rewrite /qf; set u : 'M[rat]_(1, 9) := const_mx 1.
have -> : const_mx 1 = u^T by rewrite trmx_const.
rewrite mulmxA -mulmxA -[x^T *m u^T]trmx_mul mxE big_ord1 mxE -expr2 sqr_ge0 //.
Qed.
Example C44_example :
  ros (pose_covariance (num ex_P) 0 6 (fun _ => 0)) 0 4 = 1 /\
  ros (pose_covariance (num ex_P) 0 6 (fun _ => 0)) 4 4 = 2 /\
  cov_ok (message_matrix (pose_covariance (num ex_P) 0 6 (fun _ => 0))) /\
  ros (twist_covariance (num ex_P) 3 6 0 1%:M 1%:M (fun i => 3) (fun _ => 0)) 3 3 = 11 /\
  ros (twist_covariance (num ex_P) 3 6 0 1%:M 1%:M (fun i => 3) (fun _ => 0)) 3 4 = 1 /\
  start 0 /\ start 3.
Proof.
split; first by rewrite (C44_pose_layout _ _ _ (proj1 ex_P_ok)) // /num /slot /= !mxE -val_eqE /= !inordK // addr0.
split; first by rewrite (C44_pose_layout _ _ _ (proj1 ex_P_ok)) // /num /slot /= !mxE eqxx.
split; first exact: C44_pose_covariance ex_P_ok.
split; first by rewrite rosE twist_cell //= /num !mxE eqxx.
by split=> //; rewrite rosE twist_cell //= /num !mxE -val_eqE /= !inordK // !addr0.
Qed.
