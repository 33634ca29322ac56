(** C48, C49: the transition matrix and the process noise as functions of their inputs. *)

From Coq Require Import Reals ZArith List Bool Lia Lra.
From Coquelicot Require Import Coquelicot.
From Verif Require Import Outcome Geom StateList Propagate QCore ProcNoise ProcNoiseProofs QdProofs
  TransitionSpec TransitionProofs UnitsProofs.
Import ListNotations.
Open Scope R_scope.

(** ** C48 *)

Lemma eye_entry : forall i j, (i < 15)%nat -> (j < 15)%nat ->
  of_blocks (fun k l => if Nat.eqb k l then m3eye else m3zero) i j = if Nat.eqb i j then 1 else 0.
Proof. intros i j Hi Hj. all_cases 15%nat Hi; try (exfalso; lia); all_cases 15%nat Hj; try (exfalso; lia); reflexivity. Qed.

Lemma block_lt : forall i, (i < 15)%nat -> (i / 3 < 5)%nat.
Proof. intros i Hi. apply Nat.div_lt_upper_bound; lia. Qed.

(** Starting from the identity, the transition matrix (calc_fd on a fresh state) follows the
    error dynamics: the position, velocity and bias rows exactly, the attitude rows up to the
    cube of the rate. *)
Theorem C48_transition_flow : forall q ew ea i j, (i < 15)%nat -> (j < 15)%nat ->
  Fd_of q ew ea 0 i j = (if Nat.eqb i j then 1 else 0) /\
  forall t, derivable_pt_lim (fun t => Fd_of q ew ea t i j) t
    (rsum 15 (fun k => dynamics (qrot q) ea ew i k * Fd_of q ew ea t k j) + dropped ew t i j).
Proof.
  intros q ew ea i j Hi Hj. split.
  - rewrite Fd_blocks by assumption. rewrite <- (eye_entry i j Hi Hj).
    unfold of_blocks. apply fd_zero; now apply block_lt.
  - intros t. apply is_derive_Reals.
    apply (is_derive_ext (fun t => of_blocks (fd_block (qrot q) ea ew t) i j)).
    { intros u. symmetry. now apply Fd_blocks. }
    replace (rsum 15 (fun k => dynamics (qrot q) ea ew i k * Fd_of q ew ea t k j)) with
      (rsum 15 (fun k => of_blocks (dynamics_block (qrot q) ea ew) i k * of_blocks (fd_block (qrot q) ea ew t) k j)).
    2:{ unfold dynamics. cbn [rsum]. rewrite !Fd_blocks by lia. reflexivity. }
    rewrite of_blocks_mul by assumption.
    apply (fd_flow (qrot q) ea ew _ _ t (block_lt i Hi) (block_lt j Hj) (i mod 3) (j mod 3)).
Qed.
Print Assumptions C48_transition_flow.

(** Lift-off at 10 m/s^2 with the body turning at 3 rad/s about the vertical: attitude error
    tilts into position after two seconds, and the dropped term is not zero. *)
Example C48_flow_ex :
  Fd_of qone (V3 0 0 3) (V3 0 0 10) 2 0 7 = -40 /\ Fd_of qone (V3 0 0 0) (V3 0 0 10) 2 0 7 = 20 /\
  dropped (V3 0 0 3) 2 6 7 = 54.
Proof.
  repeat split.
  all: try (rewrite Fd_blocks by lia); unfold dropped, of_blocks; cbn [Nat.div Nat.modulo Nat.divmod fst snd Nat.sub fd_block dropped_block];
    unfold eA, qrot, qone; m3_entries; lazy beta iota delta [qw qx qy qz]; field.
Qed.

(** Splitting a step: without rotation nothing changes. *)
Lemma skew0 : forall r c, m3at (skew v3zero) r c = 0.
Proof. intros r c. m3_split r c; ring. Qed.
Lemma skew0_mul : forall A r c, m3at (m3mul (skew v3zero) A) r c = 0.
Proof. intros A r c. rewrite m3at_mul, !skew0. ring. Qed.
Lemma mul_skew0 : forall A r c, m3at (m3mul A (skew v3zero)) r c = 0.
Proof. intros A r c. rewrite m3at_mul, !skew0. ring. Qed.
Lemma mul_skew00 : forall A B r c, m3at (m3mul A (m3mul (skew v3zero) B)) r c = 0.
Proof. intros A B r c. rewrite m3at_mul, !skew0_mul. ring. Qed.
Lemma scale_mul : forall k A B r c, m3at (m3mul (m3scale k A) B) r c = k * m3at (m3mul A B) r c.
Proof. intros k A B r c. rewrite !m3at_mul, !m3at_scale. ring. Qed.
Lemma add_mul : forall A B D r c, m3at (m3mul (m3add A B) D) r c = m3at (m3mul A D) r c + m3at (m3mul B D) r c.
Proof. intros A B D r c. rewrite !m3at_mul, !m3at_add. ring. Qed.
Lemma sub_mul : forall A B D r c, m3at (m3mul (m3sub A B) D) r c = m3at (m3mul A D) r c - m3at (m3mul B D) r c.
Proof. intros A B D r c. rewrite !m3at_mul, !m3at_sub. ring. Qed.

(** Blocks without rotation. *)
Definition still_block (C Ca : m3) (t : R) (k l : nat) : m3 :=
  match k, l with
  | 0%nat, 0%nat | 1%nat, 1%nat | 2%nat, 2%nat | 3%nat, 3%nat | 4%nat, 4%nat => m3eye
  | 0%nat, 1%nat => m3scale t m3eye
  | 0%nat, 2%nat => m3scale (- (t * t / 2)) Ca
  | 0%nat, 3%nat => m3scale (t * t * t / 6) Ca
  | 0%nat, 4%nat => m3scale (- (t * t / 2)) C
  | 1%nat, 2%nat => m3scale (- t) Ca
  | 1%nat, 3%nat => m3scale (t * t / 2) Ca
  | 1%nat, 4%nat => m3scale (- t) C
  | 2%nat, 3%nat => m3scale (- t) m3eye
  | _, _ => m3zero
  end.
Lemma still : forall C a t k l, (k < 5)%nat -> (l < 5)%nat ->
  m3eqv (fd_block C a v3zero t k l) (still_block C (m3mul C (skew a)) t k l).
Proof.
  intros C a t k l Hk Hl r c.
  all_cases 5%nat Hk; try (exfalso; lia); all_cases 5%nat Hl; try (exfalso; lia); cbn [fd_block still_block]; try reflexivity;
  unfold eA, eB, eE, eF; autorewrite with m3at; rewrite ?skew0, ?skew0_mul, ?mul_skew0, ?mul_skew00; field.
Qed.

Theorem C48_split_still : forall q ea s t i j, (i < 15)%nat -> (j < 15)%nat ->
  Fd_of q v3zero ea (s + t) i j = rsum 15 (fun k => Fd_of q v3zero ea t i k * Fd_of q v3zero ea s k j).
Proof.
  intros q ea s t i j Hi Hj.
  replace (rsum 15 _) with
    (rsum 15 (fun k => of_blocks (fd_block (qrot q) ea v3zero t) i k * of_blocks (fd_block (qrot q) ea v3zero s) k j)).
  2:{ cbn [rsum]. rewrite !Fd_blocks by lia. reflexivity. }
  rewrite of_blocks_mul, Fd_blocks by assumption. unfold of_blocks.
  pose proof (block_lt i Hi) as Hk. pose proof (block_lt j Hj) as Hl. revert Hk Hl.
  generalize (i / 3)%nat (j / 3)%nat (i mod 3)%nat (j mod 3)%nat. intros k l r c Hk Hl.
  rewrite (still _ _ _ _ _ Hk Hl). cbn [rsum]. rewrite !m3at_mul.
  rewrite !(still _ _ _ k _ Hk) by lia. rewrite !(still _ _ _ _ l) by lia. rewrite <- !m3at_mul.
  generalize (m3mul (qrot q) (skew ea)) (qrot q). intros Ca C.
  all_cases 5%nat Hk; try (exfalso; lia); all_cases 5%nat Hl; try (exfalso; lia);
  cbn [still_block]; autorewrite with m3at; rewrite ?scale_mul; autorewrite with m3at; field.
Qed.
Print Assumptions C48_split_still.

(** While turning it does: the second order series is not closed under composition. *)
Theorem C48_split_turning_refuted : exists q ew ea s t i j, (i < 15)%nat /\ (j < 15)%nat /\
  Fd_of q ew ea (s + t) i j <> rsum 15 (fun k => Fd_of q ew ea t i k * Fd_of q ew ea s k j).
Proof.
  exists qone, (V3 1 0 0), v3zero, 1, 1, 7%nat, 7%nat. split; [lia|split; [lia|]].
  assert (E : forall t i j, (i < 15)%nat -> (j < 15)%nat -> Fd_of qone (V3 1 0 0) v3zero t i j =
                of_blocks (fd_block (qrot qone) v3zero (V3 1 0 0) t) i j) by (intros; now apply Fd_blocks).
  replace (rsum 15 _) with
    (rsum 15 (fun k => of_blocks (fd_block (qrot qone) v3zero (V3 1 0 0) 1) 7 k * of_blocks (fd_block (qrot qone) v3zero (V3 1 0 0) 1) k 7)).
  2:{ cbn [rsum]. rewrite !E by lia. reflexivity. }
  rewrite of_blocks_mul, E by lia. unfold of_blocks.
  change (7 / 3)%nat with 2%nat. change (7 mod 3)%nat with 1%nat.
  cbn [rsum fd_block]. autorewrite with m3at. rewrite ?m3at_mul. unfold eE, eF. m3_entries. lra.
Qed.
Print Assumptions C48_split_turning_refuted.

(** ** C49 *)

(** The core process noise, on a fresh matrix. *)
Definition Qd_of (dt : R) (q : quat) (ew ea : v3) (nz : noise) (i j : nat) : R :=
  calc_q_core std_ix dt q ew ea nz zzero (Z.of_nat i) (Z.of_nat j).

(** Lengths in a unit 1/mu of the old one. *)
Theorem C49_length_unit : forall dt q ew ea na nba nw nbw mu i j, (i < 15)%nat -> (j < 15)%nat ->
  Qd_of dt q ew (v3scale mu ea) (Noise (mu * na) (mu * nba) nw nbw) i j =
  mu ^ (len_deg i + len_deg j) * Qd_of dt q ew ea (Noise na nba nw nbw) i j.
Proof. intros dt q ew ea na nba nw nbw mu i j Hi Hj. exact (q_length_unit dt q ew ea (Noise na nba nw nbw) mu i j Hi Hj). Qed.
Print Assumptions C49_length_unit.

(** Times in a unit k^2 of the old one (the square because noise densities carry the square
    root of the time unit). *)
Definition C49_time_full : Prop := forall dt q ew ea na nba nw nbw k i j, (i < 15)%nat -> (j < 15)%nat ->
  Qd_of dt q (v3scale (k ^ 2) ew) (v3scale (k ^ 4) ea) (Noise (k ^ 3 * na) (k ^ 5 * nba) (k * nw) (k ^ 3 * nbw)) i j =
  k ^ (2 * (rate_deg i + rate_deg j)) * Qd_of (k ^ 2 * dt) q ew ea (Noise na nba nw nbw) i j.

(** Missing: the blocks (p,v), (v,p), (v,v), (v,q), (q,v) with gyroscope noise. *)
Theorem C49_time_unit_partial : forall dt q ew ea na nba nw nbw k i j, (i < 15)%nat -> (j < 15)%nat ->
  (odd_block i j = true -> nw = 0) ->
  Qd_of dt q (v3scale (k ^ 2) ew) (v3scale (k ^ 4) ea) (Noise (k ^ 3 * na) (k ^ 5 * nba) (k * nw) (k ^ 3 * nbw)) i j =
  k ^ (2 * (rate_deg i + rate_deg j)) * Qd_of (k ^ 2 * dt) q ew ea (Noise na nba nw nbw) i j.
Proof. intros dt q ew ea na nba nw nbw k i j Hi Hj H. exact (q_time_unit dt q ew ea (Noise na nba nw nbw) k i j Hi Hj H). Qed.
Print Assumptions C49_time_unit_partial.

(** Hovering: the velocity/attitude noise is dt g n_w^2, which is short of one time unit. *)
Lemma hover_entry : forall dt g nw, Qd_of dt qone v3zero (V3 0 0 g) (Noise 0 0 nw 0) 4 6 = dt * g * (nw * nw).
Proof.
  intros dt g nw. unfold Qd_of. change (Z.of_nat 4) with 4%Z. change (Z.of_nat 6) with 6%Z.
  unfold calc_q_core, qd_writes, qone, v3zero;
  cbv beta iota zeta delta [fold_left put xp xv xq xbw xba std_ix Z.add Z.eqb Pos.eqb Pos.add Pos.succ andb
         qw qx qy qz v3x v3y v3z n_acc n_accbias n_gyr n_gyrbias zzero].
  unf_t; field.
Qed.
Theorem C49_time_unit_refuted : exists dt q ew ea na nba nw nbw k i j, (i < 15)%nat /\ (j < 15)%nat /\
  Qd_of dt q (v3scale (k ^ 2) ew) (v3scale (k ^ 4) ea) (Noise (k ^ 3 * na) (k ^ 5 * nba) (k * nw) (k ^ 3 * nbw)) i j <>
  k ^ (2 * (rate_deg i + rate_deg j)) * Qd_of (k ^ 2 * dt) q ew ea (Noise na nba nw nbw) i j.
Proof.
  exists 1, qone, v3zero, (V3 0 0 10), 0, 0, 1, 0, 2, 4%nat, 6%nat. split; [lia|split; [lia|]].
  replace (v3scale (2 ^ 2) v3zero) with v3zero by (unfold v3scale, v3zero; cbn [v3x v3y v3z]; f_equal; ring).
  replace (v3scale (2 ^ 4) (V3 0 0 10)) with (V3 0 0 160) by (unfold v3scale; cbn [v3x v3y v3z]; f_equal; ring).
  replace (Noise (2 ^ 3 * 0) (2 ^ 5 * 0) (2 * 1) (2 ^ 3 * 0)) with (Noise 0 0 2 0) by (f_equal; ring).
  rewrite !hover_entry. change (2 * (rate_deg 4 + rate_deg 6))%nat with 2%nat. lra.
Qed.
Print Assumptions C49_time_unit_refuted.

(** The witness, and entries the partial theorem speaks about that are not zero. *)
Example C49_ex :
  Qd_of 1 qone v3zero (V3 0 0 10) (Noise 0 0 1 0) 4 6 = 10 /\ odd_block 4 6 = true /\ odd_block 6 6 = false.
Proof. rewrite hover_entry. repeat split. ring. Qed.
