(** The core process noise against the integral of the noise spread by the transition matrix. *)

From Coq Require Import Reals ZArith List Bool Lia Lra.
From Coquelicot Require Import Coquelicot.
From Verif Require Import Outcome Geom StateList Propagate QCore ProcNoise ProcNoiseProofs QdProofs
  TransitionSpec TransitionProofs NoiseSpec.
Import ListNotations.
Open Scope R_scope.

Lemma total_ext : forall n f g, (forall k, (k < n)%nat -> f k = g k) -> total n f = total n g.
Proof. induction n as [|n IH]; intros f g H; cbn; [reflexivity|]. rewrite (H n) by lia. f_equal. apply IH. intros k Hk. apply H. lia. Qed.
Lemma total_add : forall n f g, total n (fun k => f k + g k) = total n f + total n g.
Proof. induction n as [|n IH]; intros f g; cbn; [ring|]. rewrite IH. ring. Qed.
Lemma total_scale : forall n a f, total n (fun k => a * f k) = a * total n f.
Proof. induction n as [|n IH]; intros a f; cbn; [ring|]. rewrite IH. ring. Qed.
Lemma total_rsum : forall f, total 15 f = rsum 15 f.
Proof. intros f. cbn. ring. Qed.

Lemma m3at_scale_mul : forall k A B r c, m3at (m3mul (m3scale k A) B) r c = k * m3at (m3mul A B) r c.
Proof. intros k A B r c. rewrite !m3at_mul, !m3at_scale. ring. Qed.

(** ** The noise seen through the transition matrix, in powers of the step length *)
Section Split.
Variables (C : m3) (a w : v3).
Let W := skew w.
Let WW := m3mul W W.
Let Ca := m3mul C (skew a).

Definition b0 (k s : nat) : m3 :=
  match k, s with 1%nat, 0%nat => m3neg C | 3%nat, 2%nat | 4%nat, 3%nat => m3eye | _, _ => m3zero end.
Definition b1 (k s : nat) : m3 :=
  match k, s with 0%nat, 0%nat | 1%nat, 3%nat => m3neg C | 2%nat, 2%nat => m3neg m3eye | _, _ => m3zero end.
Definition b2 (t : R) (k s : nat) : m3 :=
  match k, s with
  | 0%nat, 3%nat => m3scale (- (1/2)) C
  | 0%nat, 2%nat => m3mul Ca (m3add (m3sub (m3scale (t / 6) m3eye) (m3scale (t * t / 24) W)) (m3scale (t * t * t / 120) WW))
  | 1%nat, 2%nat => m3neg (m3mul Ca (m3sub (m3add (m3scale (- (1/2)) m3eye) (m3scale (t / 6) W)) (m3scale (t * t / 24) WW)))
  | 2%nat, 2%nat => m3sub (m3scale (1/2) W) (m3scale (t / 6) WW)
  | _, _ => m3zero
  end.
Definition e0 : nat -> nat -> R := of_blocks b0.
Definition e1 : nat -> nat -> R := of_blocks b1.
Definition e2 (t : R) : nat -> nat -> R := of_blocks (b2 t).

Lemma spread_block : forall t k s r c, (k < 5)%nat -> (s < 4)%nat -> s <> 1%nat ->
  rsum 5 (fun h => m3at (m3mul (fd_block C a w t k h) (inject_block C h s)) r c) =
  m3at (b0 k s) r c + t * m3at (b1 k s) r c + t * t * m3at (b2 t k s) r c.
Proof.
  intros t k s r c Hk Hs Hn. cbn [rsum].
  all_cases 5%nat Hk; try (exfalso; lia); all_cases 4%nat Hs; try (exfalso; lia);
  cbn [fd_block inject_block b0 b1 b2]; unfold eA, eB, eE, eF; fold W WW Ca; autorewrite with m3at; rewrite ?m3at_scale_mul;
  autorewrite with m3at; field.
Qed.
End Split.

Lemma Fd_spread : forall q ew ea t i k, (i < 15)%nat -> (k < 12)%nat -> (k / 3 <> 1)%nat ->
  spread (Fd_of q ew ea t) (qrot q) i k =
  e0 (qrot q) i k + t * e1 (qrot q) i k + t * t * e2 (qrot q) ea ew t i k.
Proof.
  intros q ew ea t i k Hi Hk Hs. unfold spread.
  rewrite (total_ext 15 _ (fun l => of_blocks (fd_block (qrot q) ea ew t) i l * of_blocks (inject_block (qrot q)) l k)).
  2:{ intros l Hl. now rewrite Fd_blocks. }
  rewrite total_rsum, of_blocks_mul by lia. unfold e0, e1, e2, of_blocks.
  apply spread_block; [apply Nat.div_lt_upper_bound; lia|apply Nat.div_lt_upper_bound; lia|exact Hs].
Qed.

(** The attitude matrix in the homogeneous form. *)
Definition hM (q : quat) : m3 :=
  M3 (V3 (hrot q 0 0) (hrot q 0 1) (hrot q 0 2)) (V3 (hrot q 1 0) (hrot q 1 1) (hrot q 1 2)) (V3 (hrot q 2 0) (hrot q 2 1) (hrot q 2 2)).
Lemma hM_unit : forall q, qnorm2 q = 1 -> hM q = qrot q.
Proof.
  intros [w x y z] H. unfold qnorm2 in H. cbn [qw qx qy qz] in H. unfold hM, qrot, hrot. cbn [qw qx qy qz].
  f_equal; (f_equal; cbv zeta; solve [ring | rewrite <- H; ring]).
Qed.

(** Coefficients of the growth rate. *)
Section Coefs.
Variables (C : m3) (na nba nbw : R).
Definition A0 i j := total 12 (fun k => density na 0 nbw nba k * e0 C i k * e0 C j k).
Definition A1 i j := total 12 (fun k => density na 0 nbw nba k * (e0 C i k * e1 C j k + e1 C i k * e0 C j k)).
End Coefs.

Ltac cells :=
  match goal with |- context[calc_q_core _ _ _ _ _ _ _ (Z.of_nat ?x) (Z.of_nat ?y)] =>
    let a := constr:(Z.of_nat x) in let b := constr:(Z.of_nat y) in
    let va := eval vm_compute in a in let vb := eval vm_compute in b in change a with va; try change b with vb end.
Ltac coefs :=
  lazy beta iota zeta delta [A0 A1 total density e0 e1 of_blocks b0 b1 Nat.div Nat.modulo Nat.divmod Nat.sub fst snd m3at
    m3neg m3eye m3zero v3neg v3zero r1 r2 r3 hM v3x v3y v3z].
Ltac noise_cells :=
  unfold calc_q_core, qd_writes;
  cbv beta iota zeta delta [fold_left put xp xv xq xbw xba std_ix Z.add Z.eqb Pos.eqb Pos.add Pos.succ andb
         qw qx qy qz v3x v3y v3z n_acc n_accbias n_gyr n_gyrbias qone zzero hrot]; unf_t.

Lemma q_to_third : forall t q ew ea na nba nbw i j, (i < 15)%nat -> (j < 15)%nat ->
  let Q t := calc_q_core std_ix t q ew ea (Noise na nba 0 nbw) zzero (Z.of_nat i) (Z.of_nat j) in
  Q t = t * A0 (hM q) na nba nbw i j + t * t / 2 * A1 (hM q) na nba nbw i j +
        t * t * t * (Q 1 - A0 (hM q) na nba nbw i j - A1 (hM q) na nba nbw i j / 2).
Proof.
  intros t [q1 q2 q3 q4] [w1 w2 w3] [a1 a2 a3] na nba nbw i j Hi Hj Q. subst Q. cbv beta.
  all_cases 15%nat Hi; try (exfalso; lia); all_cases 15%nat Hj; try (exfalso; lia); cells.
  all: coefs. 
  all: noise_cells.
  all: field.
Qed.
