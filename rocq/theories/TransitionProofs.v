(** The transition matrix as a function of the time step. *)

From Coq Require Import Reals ZArith List Bool Lia Lra Psatz.
From Coquelicot Require Import Coquelicot.
From Verif Require Import Outcome Geom StateList Propagate QCore ProcNoise ProcNoiseProofs TransitionSpec.
Import ListNotations.
Open Scope R_scope.

Definition Fd_of (q : quat) (ew ea : v3) (t : R) (i j : nat) : R :=
  calc_fd std_ix t q ew ea zeye (Z.of_nat i) (Z.of_nat j).

Section Blocks.
Variables (C : m3) (a w : v3).
Let W := skew w.
Let WW := m3mul W W.
Let Ca := m3mul C (skew a).
Definition eE (t : R) : m3 := m3add (m3sub m3eye (m3scale t W)) (m3scale (t * t * (1/2)) WW).
Definition eF (t : R) : m3 :=
  m3sub (m3add (m3scale (- t) m3eye) (m3scale (t * t * (1/2)) W)) (m3scale (t * t * (1/2) * t / 3) WW).
Definition eA (t : R) : m3 :=
  m3mul Ca (m3sub (m3add (m3scale (- (t * t * (1/2))) m3eye) (m3scale (t * t * (1/2) * t / 3) W))
                  (m3scale (t * t * (1/2) * t / 3 * t * (1/4)) WW)).
Definition eB (t : R) : m3 :=
  m3mul Ca (m3add (m3sub (m3scale (t * t * (1/2) * t / 3) m3eye) (m3scale (t * t * (1/2) * t / 3 * t * (1/4)) W))
                  (m3scale (t * t * (1/2) * t / 3 * t * (1/4) * t * (1/5)) WW)).
Definition fd_block (t : R) (k l : nat) : m3 :=
  match k, l with
  | 0%nat, 0%nat | 1%nat, 1%nat | 3%nat, 3%nat | 4%nat, 4%nat => m3eye
  | 0%nat, 1%nat => m3scale t m3eye
  | 0%nat, 2%nat => eA t
  | 0%nat, 3%nat => eB t
  | 0%nat, 4%nat => m3scale (t * t * (1/2)) (m3neg C)
  | 1%nat, 2%nat => m3mul Ca (eF t)
  | 1%nat, 3%nat => m3neg (eA t)
  | 1%nat, 4%nat => m3scale t (m3neg C)
  | 2%nat, 2%nat => eE t
  | 2%nat, 3%nat => eF t
  | _, _ => m3zero
  end.
End Blocks.

Lemma blocks_at : forall P1 P2 P3 P4 P5 P6 P7 P8 P9 i j, (i < 15)%nat -> (j < 15)%nat ->
  put_block (put_block (put_block (put_block (put_block (put_block (put_block (put_block (put_block zeye
    0 3 P1) 0 6 P2) 0 9 P3) 0 12 P4) 3 6 P5) 3 9 P6) 3 12 P7) 6 6 P8) 6 9 P9 (Z.of_nat i) (Z.of_nat j) =
  of_blocks (fun k l => match k, l with
    | 0%nat, 0%nat | 1%nat, 1%nat | 3%nat, 3%nat | 4%nat, 4%nat => m3eye
    | 0%nat, 1%nat => P1 | 0%nat, 2%nat => P2 | 0%nat, 3%nat => P3 | 0%nat, 4%nat => P4
    | 1%nat, 2%nat => P5 | 1%nat, 3%nat => P6 | 1%nat, 4%nat => P7
    | 2%nat, 2%nat => P8 | 2%nat, 3%nat => P9 | _, _ => m3zero end) i j.
Proof.
  intros P1 P2 P3 P4 P5 P6 P7 P8 P9 i j Hi Hj.
  all_cases 15%nat Hi; all_cases 15%nat Hj; try reflexivity; lia.
Qed.

Lemma Fd_blocks : forall q ew ea t i j, (i < 15)%nat -> (j < 15)%nat ->
  Fd_of q ew ea t i j = of_blocks (fd_block (qrot q) ea ew t) i j.
Proof.
  intros q ew ea t i j Hi Hj. unfold Fd_of, calc_fd. cbn [std_ix xp xv xq xbw xba].
  rewrite blocks_at by assumption. reflexivity.
Qed.

(** Product of block matrices. *)
Lemma of_blocks_mul : forall A B i j, (i < 15)%nat -> (j < 15)%nat ->
  rsum 15 (fun k => of_blocks A i k * of_blocks B k j) =
  rsum 5 (fun k => m3at (m3mul (A (i / 3)%nat k) (B k (j / 3)%nat)) (i mod 3) (j mod 3)).
Proof.
  intros A B i j _ _. unfold of_blocks.
  pose proof (Nat.mod_upper_bound i 3 ltac:(lia)) as Hr. pose proof (Nat.mod_upper_bound j 3 ltac:(lia)) as Hc.
  revert Hr Hc. generalize (i / 3)%nat (i mod 3)%nat (j / 3)%nat (j mod 3)%nat. intros x r y c Hr Hc.
  cbn [rsum].
  change (0/3)%nat with 0%nat; change (1/3)%nat with 0%nat; change (2/3)%nat with 0%nat;
  change (3/3)%nat with 1%nat; change (4/3)%nat with 1%nat; change (5/3)%nat with 1%nat;
  change (6/3)%nat with 2%nat; change (7/3)%nat with 2%nat; change (8/3)%nat with 2%nat;
  change (9/3)%nat with 3%nat; change (10/3)%nat with 3%nat; change (11/3)%nat with 3%nat;
  change (12/3)%nat with 4%nat; change (13/3)%nat with 4%nat; change (14/3)%nat with 4%nat.
  change (0 mod 3)%nat with 0%nat; change (1 mod 3)%nat with 1%nat; change (2 mod 3)%nat with 2%nat;
  change (3 mod 3)%nat with 0%nat; change (4 mod 3)%nat with 1%nat; change (5 mod 3)%nat with 2%nat;
  change (6 mod 3)%nat with 0%nat; change (7 mod 3)%nat with 1%nat; change (8 mod 3)%nat with 2%nat;
  change (9 mod 3)%nat with 0%nat; change (10 mod 3)%nat with 1%nat; change (11 mod 3)%nat with 2%nat;
  change (12 mod 3)%nat with 0%nat; change (13 mod 3)%nat with 1%nat; change (14 mod 3)%nat with 2%nat.
  generalize (A x 0%nat) (A x 1%nat) (A x 2%nat) (A x 3%nat) (A x 4%nat)
             (B 0%nat y) (B 1%nat y) (B 2%nat y) (B 3%nat y) (B 4%nat y).
  intros. unfold m3at, m3mul, m3tr, v3dot.
  all_cases 3%nat Hr; try (exfalso; lia); all_cases 3%nat Hc; try (exfalso; lia); cbn [r1 r2 r3 v3x v3y v3z]; ring.
Qed.

Ltac m3_entries := lazy beta iota zeta delta [m3at m3sub m3add m3neg m3scale m3mul m3tr m3eye m3zero skew v3zero
  v3add v3neg v3scale v3dot r1 r2 r3 v3x v3y v3z].

Ltac m3_split r c := destruct r as [|[|r]]; destruct c as [|[|c]]; m3_entries.

(** ** Derivatives of matrices *)
Definition m3deriv (X : R -> m3) (t : R) (X' : m3) : Prop :=
  forall r c, is_derive (fun t => m3at (X t) r c) t (m3at X' r c).
Definition m3eqv (A B : m3) : Prop := forall r c, m3at A r c = m3at B r c.

Lemma m3at_mul : forall A B r c,
  m3at (m3mul A B) r c = m3at A r 0 * m3at B 0 c + m3at A r 1 * m3at B 1 c + m3at A r 2 * m3at B 2 c.
Proof. intros A B r c. m3_split r c; reflexivity. Qed.
Lemma m3at_neg : forall A r c, m3at (m3neg A) r c = - m3at A r c.
Proof. intros A r c. m3_split r c; reflexivity. Qed.
Lemma m3at_scale : forall k A r c, m3at (m3scale k A) r c = k * m3at A r c.
Proof. intros k A r c. m3_split r c; reflexivity. Qed.
Lemma m3at_zero : forall r c, m3at m3zero r c = 0.
Proof. intros r c. m3_split r c; reflexivity. Qed.
Lemma m3at_add : forall A B r c, m3at (m3add A B) r c = m3at A r c + m3at B r c.
Proof. intros A B r c. m3_split r c; reflexivity. Qed.
Lemma m3at_sub : forall A B r c, m3at (m3sub A B) r c = m3at A r c - m3at B r c.
Proof. intros A B r c. m3_split r c; reflexivity. Qed.
Lemma m3at_eye_mul : forall A r c, m3at (m3mul m3eye A) r c = m3at A r c.
Proof. intros A r c. m3_split r c; ring. Qed.
Lemma m3at_mul_eye : forall A r c, m3at (m3mul A m3eye) r c = m3at A r c.
Proof. intros A r c. m3_split r c; ring. Qed.
Lemma m3at_zero_mul : forall A r c, m3at (m3mul m3zero A) r c = 0.
Proof. intros A r c. m3_split r c; ring. Qed.
Lemma m3at_mul_zero : forall A r c, m3at (m3mul A m3zero) r c = 0.
Proof. intros A r c. m3_split r c; ring. Qed.
Lemma m3at_neg_mul : forall A B r c, m3at (m3mul (m3neg A) B) r c = - m3at (m3mul A B) r c.
Proof. intros A B r c. m3_split r c; ring. Qed.
Lemma m3at_mul_add : forall A B D r c, m3at (m3mul A (m3add B D)) r c = m3at (m3mul A B) r c + m3at (m3mul A D) r c.
Proof. intros A B D r c. rewrite !m3at_mul, !m3at_add. ring. Qed.
Lemma m3at_mul_sub : forall A B D r c, m3at (m3mul A (m3sub B D)) r c = m3at (m3mul A B) r c - m3at (m3mul A D) r c.
Proof. intros A B D r c. rewrite !m3at_mul, !m3at_sub. ring. Qed.
Lemma m3at_mul_scale : forall k A B r c, m3at (m3mul A (m3scale k B)) r c = k * m3at (m3mul A B) r c.
Proof. intros k A B r c. rewrite !m3at_mul, !m3at_scale. ring. Qed.
Lemma m3at_mul_neg : forall A B r c, m3at (m3mul A (m3neg B)) r c = - m3at (m3mul A B) r c.
Proof. intros A B r c. rewrite !m3at_mul, !m3at_neg. ring. Qed.
Hint Rewrite m3at_mul_add m3at_mul_sub m3at_mul_scale m3at_mul_neg m3at_add m3at_sub : m3at.
Hint Rewrite m3at_neg_mul m3at_eye_mul m3at_mul_eye m3at_zero_mul m3at_mul_zero m3at_neg m3at_scale m3at_zero : m3at.

Lemma deriv_const : forall A t, m3deriv (fun _ => A) t m3zero.
Proof. intros A t r c. rewrite m3at_zero. apply (@is_derive_const R_AbsRing R_NormedModule). Qed.
Lemma deriv_mul_const : forall A X t X', m3deriv X t X' -> m3deriv (fun t => m3mul A (X t)) t (m3mul A X').
Proof.
  intros A X t X' H r c.
  apply (is_derive_ext (fun t => m3at A r 0 * m3at (X t) 0 c + m3at A r 1 * m3at (X t) 1 c + m3at A r 2 * m3at (X t) 2 c)).
  - intros u. now rewrite m3at_mul.
  - rewrite m3at_mul.
    apply @is_derive_plus; [apply @is_derive_plus|]; apply is_derive_scal; apply H.
Qed.
Lemma deriv_neg : forall X t X', m3deriv X t X' -> m3deriv (fun t => m3neg (X t)) t (m3neg X').
Proof.
  intros X t X' H r c. rewrite m3at_neg.
  apply (is_derive_ext (fun t => - m3at (X t) r c)); [intros u; now rewrite m3at_neg|].
  apply @is_derive_opp, H.
Qed.
Lemma deriv_scale_const : forall f A t f', is_derive f t f' -> m3deriv (fun t => m3scale (f t) A) t (m3scale f' A).
Proof.
  intros f A t f' H r c. rewrite m3at_scale.
  apply (is_derive_ext (fun t => m3at A r c * f t)); [intros u; rewrite m3at_scale; apply Rmult_comm|].
  rewrite Rmult_comm. apply is_derive_scal, H.
Qed.
Lemma deriv_eqv : forall X t X' Y', m3deriv X t X' -> m3eqv X' Y' -> m3deriv X t Y'.
Proof. intros X t X' Y' H E r c. rewrite <- E. apply H. Qed.

Section Pieces.
Variables (C : m3) (a w : v3) (t : R).
Let W := skew w.
Let Ca := m3mul C (skew a).
Lemma deriv_comb : forall (f g h : R -> R) f' g' h' X Y Z,
  is_derive f t f' -> is_derive g t g' -> is_derive h t h' ->
  m3deriv (fun t => m3add (m3add (m3scale (f t) X) (m3scale (g t) Y)) (m3scale (h t) Z)) t
          (m3add (m3add (m3scale f' X) (m3scale g' Y)) (m3scale h' Z)).
Proof.
  intros f g h f' g' h' X Y Z Hf Hg Hh r c.
  apply (is_derive_ext (fun t => m3at X r c * f t + m3at Y r c * g t + m3at Z r c * h t)).
  - intros u. rewrite !m3at_add, !m3at_scale, !(Rmult_comm (m3at _ _ _)). reflexivity.
  - rewrite !m3at_add, !m3at_scale, !(Rmult_comm _ (m3at _ _ _)).
    apply @is_derive_plus; [apply @is_derive_plus|]; apply is_derive_scal; assumption.
Qed.
Lemma deriv_ext : forall X Y u X', (forall s, m3eqv (X s) (Y s)) -> m3deriv X u X' -> m3deriv Y u X'.
Proof. intros X Y u X' E H r c. apply (is_derive_ext (fun s => m3at (X s) r c)); [intros s; apply E|apply H]. Qed.
Ltac poly f g h f' g' h' :=
  eapply deriv_ext; [|eapply deriv_eqv; [apply (deriv_comb f g h f' g' h' m3eye W (m3mul W W)); (auto_derive; [exact I|field])|]].
Lemma deriv_E : m3deriv (eE w) t (m3add (m3neg (m3mul W (eE w t))) (m3scale (t * t / 2) (m3mul W (m3mul W W)))).
Proof.
  poly (fun _ : R => 1) (fun s => - s) (fun s => s * s * (1/2)) 0 (- (1)) t; intros; intros r c; unfold eE; fold W;
  autorewrite with m3at; field.
Qed.
Lemma deriv_F : m3deriv (eF w) t (m3neg (eE w t)).
Proof.
  poly (fun s => - s) (fun s => s * s * (1/2)) (fun s => - (s * s * s / 6)) (- (1)) t (- (t * t / 2)); intros; intros r c;
  unfold eE, eF; fold W; autorewrite with m3at; field.
Qed.
Lemma E_of_F : m3eqv (eE w t) (m3add (m3add (m3mul W (eF w t)) m3eye) (m3scale (t * t * t / 6) (m3mul W (m3mul W W)))).
Proof. intros r c. unfold eF, eE. fold W. autorewrite with m3at. field. Qed.
Lemma deriv_A : m3deriv (eA C a w) t (m3mul Ca (eF w t)).
Proof.
  apply deriv_mul_const.
  poly (fun s => - (s * s / 2)) (fun s => s * s * s / 6) (fun s => - (s * s * s * s / 24)) (- t) (t * t / 2) (- (t * t * t / 6));
  intros; intros r c; unfold eF; fold W; autorewrite with m3at; field.
Qed.
Lemma deriv_B : m3deriv (eB C a w) t (m3neg (eA C a w t)).
Proof.
  eapply deriv_eqv.
  - apply deriv_mul_const.
    poly (fun s => s * s * s / 6) (fun s => - (s * s * s * s / 24)) (fun s => s * s * s * s * s / 120)
         (t * t / 2) (- (t * t * t / 6)) (t * t * t * t / 24).
    + intros s r c. fold W. autorewrite with m3at. field.
    + intros r c. reflexivity.
  - intros r c. unfold eA. fold Ca. fold W. autorewrite with m3at. field.
Qed.
End Pieces.

Lemma fd_zero : forall C a w k l r c, (k < 5)%nat -> (l < 5)%nat ->
  m3at (fd_block C a w 0 k l) r c = m3at (if Nat.eqb k l then m3eye else m3zero) r c.
Proof.
  intros C a w k l r c Hk Hl.
  all_cases 5%nat Hk; try (exfalso; lia); all_cases 5%nat Hl; try (exfalso; lia); cbn [fd_block Nat.eqb]; try reflexivity;
  unfold eA, eB, eE, eF; autorewrite with m3at; rewrite ?m3at_mul, ?m3at_sub, ?m3at_add, ?m3at_scale, ?m3at_sub, ?m3at_add, ?m3at_scale, ?m3at_zero; field.
Qed.

Lemma fd_flow : forall C a w k l t, (k < 5)%nat -> (l < 5)%nat ->
  forall r c, is_derive (fun t => m3at (fd_block C a w t k l) r c) t
    (rsum 5 (fun h => m3at (m3mul (dynamics_block C a w k h) (fd_block C a w t h l)) r c)
     + m3at (dropped_block w t k l) r c).
Proof.
  intros C a w k l t Hk Hl r c.
  assert (G : forall X X' v, m3deriv X t X' -> v = m3at X' r c -> is_derive (fun t => m3at (X t) r c) t v)
    by (intros X X' v H ->; apply H).
  all_cases 5%nat Hk; try (exfalso; lia); all_cases 5%nat Hl; try (exfalso; lia);
  cbn [fd_block dynamics_block dropped_block rsum]; autorewrite with m3at.
  all: try match goal with |- is_derive (fun _ => ?v) _ ?d =>
    replace d with 0 by ring; apply (@is_derive_const R_AbsRing R_NormedModule v t) end.
  - apply (G (fun t => m3scale t m3eye) (m3scale 1 m3eye)); [apply deriv_scale_const; auto_derive; trivial|rewrite m3at_scale; ring].
  - apply (G (eA C a w) _ _ (deriv_A C a w t)). ring.
  - apply (G (eB C a w) _ _ (deriv_B C a w t)). rewrite m3at_neg. ring.
  - apply (G (fun t => m3scale (t * t * (1/2)) (m3neg C)) (m3scale t (m3neg C))); [apply deriv_scale_const; auto_derive; [trivial|field]|autorewrite with m3at; ring].
  - apply (G (fun t => m3mul (m3mul C (skew a)) (eF w t)) _ _ (deriv_mul_const _ _ _ _ (deriv_F w t))).
    rewrite !m3at_mul, !m3at_neg. ring.
  - apply (G (fun t => m3neg (eA C a w t)) _ _ (deriv_neg _ _ _ (deriv_A C a w t))). rewrite m3at_neg. ring.
  - apply (G (fun t => m3scale t (m3neg C)) (m3scale 1 (m3neg C))); [apply deriv_scale_const; auto_derive; trivial|autorewrite with m3at; ring].
  - apply (G (eE w) _ _ (deriv_E w t)). rewrite m3at_add, m3at_neg, m3at_scale. ring.
  - apply (G (eF w) _ _ (deriv_F w t)). rewrite m3at_neg, (E_of_F w t r c), !m3at_add, m3at_scale. ring.
Qed.
