(** Dimensional homogeneity of the core process noise, entry by entry. *)

From Coq Require Import Reals ZArith List Bool Lia Lra Psatz.
From Verif Require Import Outcome Geom StateList Propagate QCore ProcNoise ProcNoiseProofs QdProofs.
Import ListNotations.

(** Power of the length unit in the error states p, v, theta, b_w, b_a; three entries each. *)
Definition len_deg (i : nat) : nat := match (i / 3)%nat with 0%nat | 1%nat | 4%nat => 1 | _ => 0 end.
(** Power of 1/time. *)
Definition rate_deg (i : nat) : nat := match (i / 3)%nat with 1%nat | 3%nat => 1 | 4%nat => 2 | _ => 0 end.

(** The blocks (p,v), (v,p), (v,v), (v,q), (q,v). *)
Definition odd_block (i j : nat) : bool :=
  match (i / 3)%nat, (j / 3)%nat with
  | 0%nat, 1%nat | 1%nat, 0%nat | 1%nat, 1%nat | 1%nat, 2%nat | 2%nat, 1%nat => true
  | _, _ => false
  end.

Ltac number_cells :=
  match goal with |- context[calc_q_core _ _ _ _ _ _ _ (Z.of_nat ?x) (Z.of_nat ?y)] =>
    let a := constr:(Z.of_nat x) in let b := constr:(Z.of_nat y) in
    let va := eval vm_compute in a in let vb := eval vm_compute in b in change a with va; try change b with vb end;
  cbn [v3x v3y v3z n_acc n_accbias n_gyr n_gyrbias];
  unfold calc_q_core, qd_writes;
  cbv beta iota zeta delta [fold_left put xp xv xq xbw xba std_ix Z.add Z.eqb Pos.eqb Pos.add Pos.succ andb
         qw qx qy qz v3x v3y v3z n_acc n_accbias n_gyr n_gyrbias qone zzero];
  match goal with |- _ = (_ ^ ?n * _)%R => let v := eval vm_compute in n in change n with v end.

Lemma q_length_unit : forall dt q ew ea nz mu i j, (i < 15)%nat -> (j < 15)%nat ->
  calc_q_core std_ix dt q ew (v3scale mu ea) (Noise (mu * n_acc nz) (mu * n_accbias nz) (n_gyr nz) (n_gyrbias nz)) zzero (Z.of_nat i) (Z.of_nat j) =
  (mu ^ (len_deg i + len_deg j) * calc_q_core std_ix dt q ew ea nz zzero (Z.of_nat i) (Z.of_nat j))%R.
Proof.
  intros dt [q1 q2 q3 q4] [e1 e2 e3] [a1 a2 a3] [na nba nw nbw] mu i j Hi Hj. unfold v3scale.
  all_cases 15%nat Hi; try (exfalso; lia); all_cases 15%nat Hj; try (exfalso; lia); number_cells; unf_t; field.
Qed.

Lemma q_time_unit : forall dt q ew ea nz k i j, (i < 15)%nat -> (j < 15)%nat ->
  (odd_block i j = true -> n_gyr nz = 0%R) ->
  calc_q_core std_ix dt q (v3scale (k ^ 2) ew) (v3scale (k ^ 4) ea)
    (Noise (k ^ 3 * n_acc nz) (k ^ 5 * n_accbias nz) (k * n_gyr nz) (k ^ 3 * n_gyrbias nz)) zzero (Z.of_nat i) (Z.of_nat j) =
  (k ^ (2 * (rate_deg i + rate_deg j)) * calc_q_core std_ix (k ^ 2 * dt) q ew ea nz zzero (Z.of_nat i) (Z.of_nat j))%R.
Proof.
  intros dt [q1 q2 q3 q4] [e1 e2 e3] [a1 a2 a3] [na nba nw nbw] k i j Hi Hj. unfold v3scale. cbn [n_gyr].
  all_cases 15%nat Hi; try (exfalso; lia); all_cases 15%nat Hj; try (exfalso; lia);
  intros H; try (specialize (H eq_refl); subst nw); number_cells; unf_t; field.
Qed.
