(** Lemmas for time stamps as doubles. *)

From Coq Require Import Reals ZArith Lra Lia Psatz.
From Flocq Require Import Core Sterbenz.
From Verif Require Import Stamps.
Local Open Scope R_scope.

Global Instance valid64 : Valid_exp binary64.
Proof. unfold binary64. apply FLT_exp_valid. reflexivity. Qed.
Global Instance mono64 : Monotone_exp binary64.
Proof. apply FLT_exp_monotone. Qed.

Lemma rnd_le x y : x <= y -> rnd x <= rnd y.
Proof. apply round_le; typeclasses eauto. Qed.
Lemma rnd_double x : double (rnd x).
Proof. apply generic_format_round; typeclasses eauto. Qed.
Lemma rnd_id x : double x -> rnd x = x.
Proof. apply round_generic. typeclasses eauto. Qed.

Lemma double_int z : (Z.abs z < 2 ^ 53)%Z -> double (IZR z).
Proof.
  intros H. apply generic_format_FLT. exists (Float radix2 z 0).
  - unfold F2R. cbn. ring.
  - exact H.
  - cbn. lia.
Qed.

(** Half a unit in the last place below [2 ^ e]. *)
Lemma rnd_err x e : (-1000 <= e)%Z -> 0 <= x <= bpow radix2 e ->
  Rabs (rnd x - x) <= bpow radix2 (e - 54).
Proof.
  intros He [H0 [H1|H1]].
  - destruct (Req_dec x 0) as [->|Hx].
    + rewrite (rnd_id 0) by apply generic_format_0. rewrite Rminus_0_r, Rabs_R0. apply bpow_ge_0.
    + apply Rle_trans with (1 := error_le_half_ulp radix2 binary64 _ x).
      apply Rle_trans with (/ 2 * bpow radix2 (e - 53)).
      * apply Rmult_le_compat_l; [lra|]. rewrite ulp_neq_0 by exact Hx. apply bpow_le. unfold cexp, binary64, FLT_exp.
        assert (mag radix2 x <= e)%Z. { apply mag_le_bpow; [exact Hx|]. rewrite Rabs_pos_eq; assumption. }
        lia.
      * replace (e - 54)%Z with (-1 + (e - 53))%Z by lia. rewrite bpow_plus. cbn [bpow]. 
        change (Zpower_pos radix2 1) with 2%Z. lra.
  - rewrite rnd_id. { rewrite Rminus_diag_eq by reflexivity. rewrite Rabs_R0. apply bpow_ge_0. }
    rewrite H1. apply generic_format_bpow. unfold binary64, FLT_exp. lia.
Qed.

Lemma nano_near : Rabs (nano - 1 / 1000000000) <= bpow radix2 (-83).
Proof.
  apply (rnd_err _ (-29)); [lia|]. split; [lra|].
  change (bpow radix2 (-29)) with (/ IZR (2 ^ 29)). 
  change (2 ^ 29)%Z with 536870912%Z. lra.
Qed.
Lemma nano_pos : 0 < nano <= 1 / 1000000000 + / 1000000000000000000.
Proof.
  generalize nano_near. change (bpow radix2 (-83)) with (/ IZR (2 ^ 83)).
  change (2 ^ 83)%Z with 9671406556917033397649408%Z. intros H. apply Rabs_le_inv in H. lra.
Qed.

(** The fraction of a second. *)
Definition frac (n : Z) : R := rnd (nano * IZR n).
Lemma frac_near n : (0 <= n < 1000000000)%Z -> Rabs (frac n - IZR n / 1000000000) <= / 1000000000000000 /\ 0 <= frac n <= 1.
Proof.
  intros [H0 H1]. apply IZR_le in H0. assert (H2 : (n <= 999999999)%Z) by lia. apply IZR_le in H2. clear H1.
  set (x := IZR n) in *. assert (A := nano_near). assert (B := nano_pos).
  change (bpow radix2 (-83)) with (/ IZR (2 ^ 83)) in A. change (2 ^ 83)%Z with 9671406556917033397649408%Z in A.
  apply Rabs_le_inv in A.
  assert (P : 0 <= nano * x <= 1) by nra.
  assert (E := rnd_err (nano * x) 0 ltac:(lia)). 
  change (bpow radix2 0) with 1 in E. specialize (E P). change (bpow radix2 (0 - 54)) with (/ IZR (2 ^ 54)) in E.
  change (2 ^ 54)%Z with 18014398509481984%Z in E.
  split.
  - unfold frac. fold x. apply Rabs_le_inv in E. apply Rabs_le. nra.
  - unfold frac. fold x. split.
    + rewrite <- (rnd_id 0) by apply generic_format_0. apply rnd_le. lra.
    + rewrite <- (rnd_id 1). apply rnd_le; lra. apply (double_int 1). lia.
Qed.

Definition exact (s n : Z) : R := IZR s + IZR n / 1000000000.

Lemma to_sec_near s n : (0 <= s < 2147483648)%Z -> (0 <= n < 1000000000)%Z ->
  Rabs (to_sec s n - exact s n) <= 12 / 100000000.
Proof.
  intros Hs Hn. destruct (frac_near n Hn) as [F1 F2]. unfold to_sec. fold (frac n).
  assert (S0 : 0 <= IZR s) by (apply IZR_le; lia). assert (S1 : IZR s <= 2147483647) by (apply IZR_le; lia).
  assert (E := rnd_err (IZR s + frac n) 31 ltac:(lia)).
  change (bpow radix2 31) with (IZR (2 ^ 31)) in E. change (2 ^ 31)%Z with 2147483648%Z in E.
  change (bpow radix2 (31 - 54)) with (/ IZR (2 ^ 23)) in E. change (2 ^ 23)%Z with 8388608%Z in E.
  specialize (E ltac:(lra)). unfold exact. apply Rabs_le_inv in E. apply Rabs_le_inv in F1. apply Rabs_le. lra.
Qed.

Lemma to_sec_mono s1 n1 s2 n2 : (0 <= s1)%Z -> (0 <= n1 < 1000000000)%Z -> (0 <= n2 < 1000000000)%Z ->
  (s1 * 1000000000 + n1 <= s2 * 1000000000 + n2)%Z -> to_sec s1 n1 <= to_sec s2 n2.
Proof.
  intros H0 H1 H2 H. unfold to_sec. apply rnd_le. fold (frac n1) (frac n2).
  destruct (Z.eq_dec s1 s2) as [->|ne].
  - apply Rplus_le_compat_l. unfold frac. apply rnd_le. apply Rmult_le_compat_l; [apply Rlt_le, nano_pos|].
    apply IZR_le. lia.
  - assert (L : (s1 + 1 <= s2)%Z) by lia. apply IZR_le in L. rewrite plus_IZR in L.
    destruct (frac_near n1 H1) as [_ F1]. destruct (frac_near n2 H2) as [_ F2]. lra.
Qed.

Lemma elapsed_exact t1 t0 : double t1 -> double t0 -> t0 / 2 <= t1 <= 2 * t0 -> elapsed t1 t0 = t1 - t0.
Proof. intros H1 H0 H. apply rnd_id. apply sterbenz; first [assumption | typeclasses eauto]. Qed.

(** Rounding to an integer. *)
Lemma nearest_err x : Rabs (IZR (ZnearestA x) - x) <= 1 / 2.
Proof. rewrite Rabs_minus_sym. generalize (Znearest_half (Z.leb 0) x). unfold Znearest. lra. Qed.

Lemma from_sec_near t : 0 <= t -> Rabs (IZR (from_sec t) - t * 1000000000) <= 500001 / 1000000.
Proof.
  intros H. unfold from_sec. set (s := Zfloor t).
  assert (L := Zfloor_lb t). assert (U := Zfloor_ub t). fold s in L, U.
  assert (E1 := rnd_err (t - IZR s) 0 ltac:(lia)). change (bpow radix2 0) with 1 in E1.
  specialize (E1 ltac:(lra)). change (bpow radix2 (0 - 54)) with (/ IZR (2 ^ 54)) in E1.
  change (2 ^ 54)%Z with 18014398509481984%Z in E1. apply Rabs_le_inv in E1.
  assert (P0 : 0 <= rnd (t - IZR s)).
  { rewrite <- (rnd_id 0) by apply generic_format_0. apply rnd_le. lra. }
  set (d := rnd (t - IZR s)) in *.
  assert (E2 := rnd_err (d * 1000000000) 30 ltac:(lia)).
  change (bpow radix2 30) with (IZR (2 ^ 30)) in E2. change (2 ^ 30)%Z with 1073741824%Z in E2.
  change (bpow radix2 (30 - 54)) with (/ IZR (2 ^ 24)) in E2. change (2 ^ 24)%Z with 16777216%Z in E2.
  specialize (E2 ltac:(lra)). apply Rabs_le_inv in E2.
  assert (E3 := nearest_err (rnd (d * 1000000000))). apply Rabs_le_inv in E3.
  rewrite plus_IZR, mult_IZR. apply Rabs_le. lra.
Qed.

Lemma int_close a b : Rabs (IZR a - IZR b) <= 1205 / 10 -> (Z.abs (a - b) <= 120)%Z.
Proof.
  intros H. rewrite <- minus_IZR, <- abs_IZR in H. apply Z.lt_succ_r. change (Z.succ 120) with 121%Z.
  apply lt_IZR. lra.
Qed.

(** Numbers near an integer round to it. *)
Lemma rnd_near_up z x : (1073741824 <= z < 2147483648)%Z -> IZR z <= x < IZR z + / 8388608 -> rnd x = IZR z.
Proof.
  intros Hz [H1 H2]. 
  assert (D : double (IZR z)) by (apply double_int; lia).
  apply Rle_antisym.
  - apply round_N_le_midp; try typeclasses eauto; auto.
    rewrite succ_eq_pos by (apply IZR_le; lia).
    assert (Zne : IZR z <> 0) by (apply IZR_neq; lia).
    rewrite ulp_neq_0 by exact Zne.
    replace (cexp radix2 binary64 (IZR z)) with (-22)%Z.
    + change (bpow radix2 (-22)) with (/ IZR (2 ^ 22)). change (2 ^ 22)%Z with 4194304%Z. lra.
    + unfold cexp, binary64, FLT_exp. rewrite (mag_unique_pos radix2 (IZR z) 31); [reflexivity|].
      change (bpow radix2 (31 - 1)) with (IZR (2 ^ 30)). change (bpow radix2 31) with (IZR (2 ^ 31)).
      split; [apply IZR_le|apply IZR_lt]; lia.
  - rewrite <- (rnd_id (IZR z) D). apply rnd_le. exact H1.
Qed.

(** Between the years 2004 and 2038 the doubles are the multiples of 2^-22. *)
Lemma rnd_grid m x : 1073741824 <= x < 2147483648 -> Rabs (x - IZR m / 4194304) < / 8388608 -> rnd x = IZR m / 4194304.
Proof.
  intros Hx H. unfold rnd, round, F2R, scaled_mantissa.
  replace (cexp radix2 binary64 x) with (-22)%Z.
  - cbn [Fnum Fexp]. change (bpow radix2 (-22)) with (/ 4194304). change (bpow radix2 (- (-22))) with 4194304.
    rewrite (Znearest_imp _ _ m); [reflexivity|].
    replace (x * 4194304 - IZR m) with ((x - IZR m / 4194304) * 4194304) by field.
    rewrite Rabs_mult, (Rabs_pos_eq 4194304) by lra. lra.
  - unfold cexp, binary64, FLT_exp. rewrite (mag_unique_pos radix2 x 31); [reflexivity|].
    change (bpow radix2 (31 - 1)) with 1073741824. change (bpow radix2 31) with 2147483648. lra.
Qed.
