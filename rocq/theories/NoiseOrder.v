(** The process noise against the integral of the spread noise: exactly for the accelerometer,
    to third order for the biases. *)

From Coq Require Import Reals ZArith List Bool Lia Lra.
From Coquelicot Require Import Coquelicot.
From Verif Require Import Outcome Geom StateList Propagate QCore ProcNoise ProcNoiseProofs QdProofs
  TransitionSpec TransitionProofs NoiseSpec NoiseProofs.
Import ListNotations.
Open Scope R_scope.
(** ** Accelerometer and accelerometer bias noise: exact *)

Definition A2 C na nba i j := total 12 (fun k => density na 0 0 nba k *
  (e1 C i k * e1 C j k + e0 C i k * e2 C v3zero v3zero 0 j k + e2 C v3zero v3zero 0 i k * e0 C j k)).

Ltac coefs2 :=
  lazy beta iota zeta delta [A2 A0 A1 total density e0 e1 e2 of_blocks b0 b1 b2 Nat.div Nat.modulo Nat.divmod Nat.sub fst snd m3at
    m3neg m3eye m3zero m3scale v3scale v3neg v3zero r1 r2 r3 hM v3x v3y v3z].

(** The blocks (p,p), (p,v), (v,p) of the accelerometer bias noise are of fourth and higher order. *)
Definition low_block (i j : nat) : bool := ((3 <=? i) && (3 <=? j) || (6 <=? i) || (6 <=? j))%nat.

Lemma q_accel : forall t q ew ea na nba i j, (i < 15)%nat -> (j < 15)%nat -> low_block i j = true \/ nba = 0 ->
  calc_q_core std_ix t q ew ea (Noise na nba 0 0) zzero (Z.of_nat i) (Z.of_nat j) =
  t * A0 (hM q) na nba 0 i j + t * t / 2 * A1 (hM q) na nba 0 i j + t * t * t / 3 * A2 (hM q) na nba i j.
Proof.
  intros t q ew ea na nba i j Hi Hj H.
  rewrite core_entry; [|reflexivity|right; split; reflexivity|exact Hi|exact Hj]. cbn [n_acc n_accbias n_gyr n_gyrbias].
  unfold hM, target, coef, acc_coef, gyr_coef, cc. generalize (hrot q). intros C. unfold low_block in H.
  all_cases 15%nat Hi; try (exfalso; lia); all_cases 15%nat Hj; try (exfalso; lia);
    (destruct H as [H|H]; [try discriminate H|rewrite H]; coefs2; cbn [Nat.eqb]; field).
Qed.

Lemma rate_accel : forall t q ew ea na nba i j, (i < 15)%nat -> (j < 15)%nat -> low_block i j = true \/ nba = 0 ->
  noise_rate (Fd_of q ew ea t) (qrot q) na 0 0 nba i j =
  A0 (qrot q) na nba 0 i j + t * A1 (qrot q) na nba 0 i j + t * t * A2 (qrot q) na nba i j.
Proof.
  intros t q ew ea na nba i j Hi Hj H. unfold noise_rate, A0, A1, A2.
  rewrite <- !total_scale, <- !total_add. apply total_ext. intros k Hk.
  destruct (Nat.eq_dec (k / 3) 1) as [E1|N1].
  { unfold density. rewrite E1. ring. }
  destruct (Nat.eq_dec (k / 3) 2) as [E2|N2].
  { unfold density. rewrite E2. ring. }
  rewrite !Fd_spread by assumption.
  assert (E : forall l, e2 (qrot q) ea ew t l k = e2 (qrot q) v3zero v3zero 0 l k).
  { intros l. unfold e2, of_blocks. destruct (k / 3)%nat as [|[|[|[|m]]]]; try lia; destruct (l / 3)%nat as [|[|[|[|[|m']]]]]; reflexivity. }
  rewrite !E.
  assert (Z : density na 0 0 nba k = 0 \/ (e1 (qrot q) i k = 0 \/ e2 (qrot q) v3zero v3zero 0 j k = 0) /\
     (e2 (qrot q) v3zero v3zero 0 i k = 0 \/ e1 (qrot q) j k = 0) /\ (e2 (qrot q) v3zero v3zero 0 i k = 0 \/ e2 (qrot q) v3zero v3zero 0 j k = 0)).
  { destruct H as [H|H].
    - right. unfold e1, e2, of_blocks, b1, b2.
      assert (Hi3 : (i / 3 < 5)%nat) by (apply Nat.div_lt_upper_bound; lia). assert (Hj3 : (j / 3 < 5)%nat) by (apply Nat.div_lt_upper_bound; lia).
      assert (L : (1 <= i / 3 /\ 1 <= j / 3 \/ 2 <= i / 3 \/ 2 <= j / 3)%nat).
      { unfold low_block in H. apply orb_true_iff in H as [H|H]; [apply orb_true_iff in H as [H|H]|].
        - apply andb_true_iff in H as [Ha Hb]. apply Nat.leb_le in Ha, Hb. left. split; apply Nat.div_le_lower_bound; lia.
        - apply Nat.leb_le in H. right. left. apply Nat.div_le_lower_bound; lia.
        - apply Nat.leb_le in H. right. right. apply Nat.div_le_lower_bound; lia. }
      revert Hi3 Hj3 L. generalize (i / 3)%nat (j / 3)%nat. intros x y Hx Hy L. clear - N1 N2 Hk Hx Hy L.
      destruct (k / 3)%nat as [|[|[|[|m]]]]; try lia;
      all_cases 5%nat Hx; try (exfalso; lia); all_cases 5%nat Hy; try (exfalso; lia); rewrite ?m3at_zero; repeat split; auto.
    - destruct (k / 3)%nat as [|[|[|m]]] eqn:K; try lia.
      + right. assert (E0 : forall l, e2 (qrot q) v3zero v3zero 0 l k = 0).
        { intros l. unfold e2, of_blocks. rewrite K. destruct (l / 3)%nat as [|[|[|l']]]; apply m3at_zero. }
        repeat split; auto.
      + left. unfold density. rewrite K, H. ring. }
  destruct Z as [Z|(Z1 & Z2 & Z3)]; [rewrite Z; ring|].
  destruct Z1 as [Z1|Z1], Z2 as [Z2|Z2], Z3 as [Z3|Z3]; rewrite ?Z1, ?Z2, ?Z3; ring.
Qed.

(** ** Third order *)

Definition bdd (f : R -> R) : Prop := exists K, forall t, Rabs t <= 1 -> Rabs (f t) <= K.
Lemma bdd_const : forall c, bdd (fun _ => c).
Proof. intros c. exists (Rabs c). intros; lra. Qed.
Lemma bdd_id : bdd (fun t => t).
Proof. exists 1. intros; assumption. Qed.
Lemma bdd_add : forall f g, bdd f -> bdd g -> bdd (fun t => f t + g t).
Proof.
  intros f g [K H] [L G]. exists (K + L). intros t Ht. eapply Rle_trans; [apply Rabs_triang|].
  specialize (H t Ht). specialize (G t Ht). lra.
Qed.
Lemma bdd_mul : forall f g, bdd f -> bdd g -> bdd (fun t => f t * g t).
Proof.
  intros f g [K H] [L G]. exists (K * L). intros t Ht. rewrite Rabs_mult.
  apply Rmult_le_compat; try apply Rabs_pos; auto.
Qed.
Lemma bdd_ext : forall f g, (forall t, f t = g t) -> bdd f -> bdd g.
Proof. intros f g E [K H]. exists K. intros t Ht. rewrite <- E. auto. Qed.
Lemma bdd_opp : forall f, bdd f -> bdd (fun t => - f t).
Proof. intros f [K H]. exists K. intros t Ht. rewrite Rabs_Ropp. auto. Qed.
Lemma bdd_sub : forall f g, bdd f -> bdd g -> bdd (fun t => f t - g t).
Proof. intros f g Hf Hg. apply (bdd_ext (fun t => f t + - g t)); [intros; ring|]. apply bdd_add, bdd_opp; assumption. Qed.
Lemma bdd_total : forall n f, (forall k, (k < n)%nat -> bdd (f k)) -> bdd (fun t => total n (fun k => f k t)).
Proof.
  induction n as [|n IH]; intros f H; cbn [total]; [apply bdd_const|].
  apply bdd_add; [apply IH; intros k Hk; apply H; lia|apply H; lia].
Qed.
Ltac bdd_tac := repeat first [apply bdd_const|apply bdd_id|apply bdd_add|apply bdd_sub|apply bdd_mul|apply bdd_opp].

Lemma e2_bdd : forall C a w i k, bdd (fun t => e2 C a w t i k).
Proof.
  intros C a w i k. unfold e2, of_blocks. generalize (i / 3)%nat (k / 3)%nat (i mod 3)%nat (k mod 3)%nat. intros x y r c.
  destruct x as [|[|[|x]]], y as [|[|[|[|y]]]]; cbn [b2]; try (apply bdd_const).
  all: eapply bdd_ext; [intros t; autorewrite with m3at; reflexivity|]; unfold Rdiv; bdd_tac.
Qed.

Lemma mean_value : forall D D' K t, D 0 = 0 -> (forall u, is_derive D u (D' u)) ->
  (forall u, Rabs u <= 1 -> Rabs (D' u) <= K * (u * u)) -> Rabs t <= 1 -> Rabs (D t) <= K * Rabs t ^ 3.
Proof.
  intros D D' K t H0 Hd Hb Ht.
  destruct (MVT_gen D 0 t D') as [c [Hc E]].
  - intros x _. apply Hd.
  - intros x _. apply continuity_pt_filterlim. apply (ex_derive_continuous D). eexists. apply Hd.
  - rewrite H0 in E. replace (D t) with (D' c * t) by lra. rewrite Rabs_mult.
    assert (Hct : Rabs c <= Rabs t).
    { unfold Rmin, Rmax in Hc. destruct (Rle_dec 0 t) as [P|P].
      - rewrite !Rabs_pos_eq by lra. lra.
      - rewrite !Rabs_left1 by lra. lra. }
    assert (HK : 0 <= K).
    { specialize (Hb 1). rewrite Rabs_R1 in Hb. specialize (Hb (Rle_refl 1)). pose proof (Rabs_pos (D' 1)). lra. }
    specialize (Hb c ltac:(lra)).
    replace (K * Rabs t ^ 3) with (K * (Rabs t * Rabs t) * Rabs t) by ring.
    apply Rmult_le_compat_r; [apply Rabs_pos|]. eapply Rle_trans; [exact Hb|].
    apply Rmult_le_compat_l; [exact HK|]. rewrite <- (Rabs_pos_eq (c * c)) by (apply Rle_0_sqr). rewrite Rabs_mult.
    apply Rmult_le_compat; try apply Rabs_pos; assumption.
Qed.

(** The rate up to second order. *)
Lemma rate_third : forall q ew ea na nba nbw i j, (i < 15)%nat -> (j < 15)%nat ->
  exists G, bdd G /\ forall t, noise_rate (Fd_of q ew ea t) (qrot q) na 0 nbw nba i j =
    A0 (qrot q) na nba nbw i j + t * A1 (qrot q) na nba nbw i j + t * t * G t.
Proof.
  intros q ew ea na nba nbw i j Hi Hj.
  exists (fun t => total 12 (fun k => density na 0 nbw nba k *
    (e1 (qrot q) i k * e1 (qrot q) j k + e0 (qrot q) i k * e2 (qrot q) ea ew t j k + e2 (qrot q) ea ew t i k * e0 (qrot q) j k +
     t * (e1 (qrot q) i k * e2 (qrot q) ea ew t j k + e2 (qrot q) ea ew t i k * e1 (qrot q) j k) +
     t * t * (e2 (qrot q) ea ew t i k * e2 (qrot q) ea ew t j k)))). split.
  - apply bdd_total. intros k Hk.
    repeat first [apply e2_bdd|apply bdd_const|apply bdd_id|apply bdd_add|apply bdd_mul].
  - intros t. unfold noise_rate, A0, A1. rewrite <- !total_scale, <- !total_add. apply total_ext. intros k Hk.
    destruct (Nat.eq_dec (k / 3) 1) as [E1|N1].
    { unfold density. rewrite E1. ring. }
    rewrite !Fd_spread by assumption. ring.
Qed.

Lemma q_integral : forall q ew ea na nba nbw i j I, qnorm2 q = 1 -> (i < 15)%nat -> (j < 15)%nat ->
  integral_of (fun t => noise_rate (Fd_of q ew ea t) (qrot q) na 0 nbw nba i j) I ->
  exists K, forall t, Rabs t <= 1 ->
    Rabs (calc_q_core std_ix t q ew ea (Noise na nba 0 nbw) zzero (Z.of_nat i) (Z.of_nat j) - I t) <= K * Rabs t ^ 3.
Proof.
  intros q ew ea na nba nbw i j I Hq Hi Hj [I0 HI].
  destruct (rate_third q ew ea na nba nbw i j Hi Hj) as (G & [KG HG] & HR).
  set (Q := fun t => calc_q_core std_ix t q ew ea (Noise na nba 0 nbw) zzero (Z.of_nat i) (Z.of_nat j)).
  set (a0 := A0 (qrot q) na nba nbw i j). set (a1 := A1 (qrot q) na nba nbw i j). fold a0 a1 in HR. set (m := Q 1 - a0 - a1 / 2).
  assert (EQ : forall t, Q t = t * a0 + t * t / 2 * a1 + t * t * t * m).
  { intros t. subst a0 a1 m. rewrite <- (hM_unit q Hq). apply (q_to_third t q ew ea na nba nbw i j Hi Hj). }
  exists (Rabs (3 * m) + KG). intros t Ht. change (Rabs (Q t - I t) <= (Rabs (3 * m) + KG) * Rabs t ^ 3). clearbody m a0 a1 Q.
  apply (mean_value (fun t => Q t - I t) (fun u => u * u * (3 * m - G u))); [cbv beta; rewrite (EQ 0), I0; field| | |exact Ht].
  - intros u. apply (is_derive_ext (fun t => (t * a0 + t * t / 2 * a1 + t * t * t * m) - I t)).
    { intros s. now rewrite EQ. }
    replace (u * u * (3 * m - G u)) with ((a0 + u * a1 + 3 * (u * u) * m) - (a0 + u * a1 + u * u * G u)) by ring.
    apply @is_derive_minus.
    + auto_derive; [exact Logic.I|]. field.
    + rewrite <- HR. apply is_derive_Reals, HI.
  - intros u Hu. rewrite Rabs_mult, Rmult_comm. rewrite (Rabs_pos_eq (u * u)) by apply Rle_0_sqr.
    apply Rmult_le_compat_r; [apply Rle_0_sqr|]. unfold Rminus. eapply Rle_trans; [apply Rabs_triang|].
    rewrite Rabs_Ropp. specialize (HG u Hu). lra.
Qed.

