(** The core process noise of ordinary flight has a nonnegative quadratic form. *)

From Coq Require Import Reals ZArith List Bool Lia Lra Psatz.
From Verif Require Import Outcome Geom StateList Propagate QCore ProcNoise ProcNoiseProofs FlightNoise.
Import ListNotations.
Local Open Scope R_scope.

(** ** Bounds on sums of products *)

Lemma ab_plus : forall a b A B, Rabs a <= A -> Rabs b <= B -> Rabs (a + b) <= A + B.
Proof. intros a b A B Ha Hb. pose proof (Rabs_triang a b). lra. Qed.
Lemma ab_opp : forall a A, Rabs a <= A -> Rabs (- a) <= A.
Proof. intros a A Ha. now rewrite Rabs_Ropp. Qed.
Lemma ab_minus : forall a b A B, Rabs a <= A -> Rabs b <= B -> Rabs (a - b) <= A + B.
Proof. intros a b A B Ha Hb. apply ab_plus; [assumption|now apply ab_opp]. Qed.
Lemma ab_mult : forall a b A B, Rabs a <= A -> Rabs b <= B -> Rabs (a * b) <= A * B.
Proof. intros a b A B Ha Hb. rewrite Rabs_mult. apply Rmult_le_compat; try apply Rabs_pos; assumption. Qed.
Lemma ab_const : forall c, 0 <= c -> Rabs c <= c.
Proof. intros c H. rewrite Rabs_pos_eq; lra. Qed.
Ltac ab :=
  lazymatch goal with
  | |- Rabs (_ + _) <= _ => eapply ab_plus; [ab|ab]
  | |- Rabs (_ - _) <= _ => eapply ab_minus; [ab|ab]
  | |- Rabs (- _) <= _ => eapply ab_opp; ab
  | |- Rabs (_ * _) <= _ => eapply ab_mult; [ab|ab]
  | |- Rabs _ <= _ => first [eassumption | apply ab_const; lra]
  end.

Lemma mul3_pos : forall a b c, 0 <= a -> 0 <= b -> 0 <= c -> 0 <= a * b * c.
Proof. intros a b c Ha Hb Hc. apply Rmult_le_pos; [apply Rmult_le_pos|]; assumption. Qed.

(** A product of two unknowns against their squares. *)
Lemma cost : forall k s S l x y, 0 <= k -> Rabs s <= S -> 0 < l ->
  - (k * S * (1/2) * l * (x * x) + k * S * (1/2) * / l * (y * y)) <= x * (k * s) * y.
Proof.
  intros k s S l x y Hk Hs Hl.
  assert (Hi : 0 < / l) by now apply Rinv_0_lt_compat.
  assert (E : l * / l = 1) by (apply Rinv_r; apply Rgt_not_eq; lra).
  assert (HS : 0 <= S) by (pose proof (Rabs_pos s); lra).
  assert (Hxy : 2 * Rabs (x * y) <= l * (x * x) + / l * (y * y)).
  { assert (H0 : 0 <= / l * ((l * Rabs x - Rabs y) * (l * Rabs x - Rabs y))) by (apply Rmult_le_pos; [lra|exact (Rle_0_sqr _)]).
    replace (/ l * ((l * Rabs x - Rabs y) * (l * Rabs x - Rabs y))) with
      ((l * / l) * l * (Rabs x * Rabs x) - 2 * (l * / l) * (Rabs x * Rabs y) + / l * (Rabs y * Rabs y)) in H0 by ring.
    rewrite E in H0. rewrite Rabs_mult.
    replace (x * x) with (Rabs x * Rabs x) by (rewrite <- Rabs_mult; apply Rabs_pos_eq; nra).
    replace (y * y) with (Rabs y * Rabs y) by (rewrite <- Rabs_mult; apply Rabs_pos_eq; nra). lra. }
  assert (Hp : Rabs (s * (x * y)) <= S * Rabs (x * y)).
  { rewrite Rabs_mult. apply Rmult_le_compat_r; [apply Rabs_pos|assumption]. }
  assert (Hq : S * Rabs (x * y) <= S * ((1/2) * (l * (x * x) + / l * (y * y)))) by (apply Rmult_le_compat_l; lra).
  assert (Hr : - (S * ((1/2) * (l * (x * x) + / l * (y * y)))) <= s * (x * y)).
  { pose proof (Rle_abs (- (s * (x * y)))) as H. rewrite Rabs_Ropp in H. lra. }
  replace (x * (k * s) * y) with (k * (s * (x * y))) by ring.
  replace (- (k * S * (1 / 2) * l * (x * x) + k * S * (1 / 2) * / l * (y * y))) with
    (k * - (S * ((1/2) * (l * (x * x) + / l * (y * y))))) by ring.
  now apply Rmult_le_compat_l.
Qed.

Lemma rsum_le : forall n f g, (forall i, (i < n)%nat -> f i <= g i) -> rsum n f <= rsum n g.
Proof.
  induction n as [|n IH]; intros f g H; cbn [rsum]; [lra|].
  pose proof (H n ltac:(lia)). pose proof (IH f g ltac:(intros; apply H; lia)). lra.
Qed.
Lemma rsum_eq : forall n f g, (forall i, (i < n)%nat -> f i = g i) -> rsum n f = rsum n g.
Proof.
  induction n as [|n IH]; intros f g H; cbn [rsum]; [reflexivity|].
  rewrite (H n) by lia. rewrite (IH f g) by (intros; apply H; lia). reflexivity.
Qed.
Lemma rsum_plus : forall n f g, rsum n (fun i => f i + g i) = rsum n f + rsum n g.
Proof. induction n as [|n IH]; intros f g; cbn [rsum]; [ring|]. rewrite IH. ring. Qed.

(** ** The quadratic form *)

Section Form.
Variables (dt na nba nw nbw A : R) (C : nat -> nat -> R) (u0 u1 u2 u3 u4 u5 u6 e1 e2 e3 : R) (x : nat -> R).
Let w2 := nw * nw.
Let b2 := nbw * nbw.
Let n2 := na * na.
Let a2 := w2 * (A * A).

(** What an entry of [dev] can take away from the squares of row and column. *)
Definition cx (i j : nat) : R :=
  match (i / 3)%nat, (j / 3)%nat with
  | 0%nat, 1%nat => a2 * (dt * dt * dt) * (1/80) | 1%nat, 0%nat => a2 * dt * (1/80)
  | 0%nat, 2%nat => a2 * (dt * dt * dt) * (1/96) | 2%nat, 0%nat => w2 * dt * (1/600)
  | 1%nat, 1%nat => a2 * dt * (4/75)
  | 1%nat, 2%nat => a2 * dt * (13/96) | 2%nat, 1%nat => w2 * dt * (13/2400)
  | 2%nat, 2%nat => w2 * dt * (21/1600)
  | 1%nat, 3%nat => b2 * (dt * dt * dt) * (A * A) * (1/48) | 3%nat, 1%nat => b2 * dt * (1/1200)
  | 2%nat, 3%nat => b2 * (dt * dt * dt) * (1/240) | 3%nat, 2%nat => b2 * dt * (1/240)
  | _, _ => 0
  end.

Hypothesis Hdt : 0 < dt <= 1/20.
Hypothesis HA : 0 <= A.
Hypotheses (Hu0 : Rabs u0 <= A) (Hu1 : Rabs u1 <= A) (Hu2 : Rabs u2 <= A) (Hu3 : Rabs u3 <= A)
  (Hu4 : Rabs u4 <= A) (Hu5 : Rabs u5 <= A) (Hu6 : Rabs u6 <= A).
Hypotheses (He1 : Rabs e1 <= 1/20) (He2 : Rabs e2 <= 1/20) (He3 : Rabs e3 <= 1/20).

Let Hw : 0 <= w2. Proof. unfold w2. nra. Qed.
Let Hb : 0 <= b2. Proof. unfold b2. nra. Qed.
Let Ha : 0 <= a2. Proof. unfold a2. apply Rmult_le_pos; [exact Hw|nra]. Qed.

Let sq (a : R) := a * a.
Let Hsq : forall a, 0 <= sq a. Proof. intros a. unfold sq. nra. Qed.
Let d3 := dt * dt * dt.
Let Hd3 : 0 <= d3. Proof. unfold d3. apply Rmult_le_pos; nra. Qed.

(** Monomials of the step length. *)
Let Hd4 : forall c, 0 <= c -> c * (d3 * dt) <= c * d3 * (1/20).
Proof. intros c Hc. assert (0 <= c * d3) by now apply Rmult_le_pos. nra. Qed.
Let Hd2 : forall c, 0 <= c -> c * (dt * dt) <= c * dt * (1/20).
Proof. intros c Hc. assert (0 <= c * dt) by (apply Rmult_le_pos; lra). nra. Qed.
Let Hd3' : forall c, 0 <= c -> c * d3 <= c * dt * (1/400).
Proof.
  intros c Hc. assert (0 <= c * dt) by (apply Rmult_le_pos; lra). unfold d3.
  assert (dt * dt <= 1/400) by nra. nra.
Qed.

Lemma k_pv : forall s X Y, Rabs s <= 1/2 * (A * A) ->
  - (a2 * d3 * (1/80) * sq X + a2 * dt * (1/80) * sq Y) <= X * (nw * nw * d3 * s) * Y.
Proof.
  intros s X Y Hs. pose proof (cost (w2 * d3) s _ dt X Y ltac:(now apply Rmult_le_pos) Hs ltac:(lra)) as H.
  change (nw * nw) with w2. fold (sq X) (sq Y) in H.
  replace (w2 * d3 * (1 / 2 * (A * A)) * (1 / 2) * dt * sq X) with (a2 * sq X * (d3 * dt) * (1/4)) in H by (unfold a2; field).
  replace (w2 * d3 * (1 / 2 * (A * A)) * (1 / 2) * / dt * sq Y) with (a2 * sq Y * (dt * dt) * (1/4)) in H by (unfold a2, d3; field; lra).
  pose proof (Hd4 (a2 * sq X) ltac:(apply Rmult_le_pos; auto)). pose proof (Hd2 (a2 * sq Y) ltac:(apply Rmult_le_pos; auto)). lra.
Qed.
Lemma k_pq : forall s X Y, Rabs s <= 1/6 * A ->
  - (a2 * d3 * (1/96) * sq X + w2 * dt * (1/600) * sq Y) <= X * (nw * nw * d3 * s) * Y.
Proof.
  intros s X Y Hs. change (nw * nw) with w2.
  destruct (Req_dec A 0) as [E|E].
  { assert (s = 0) as -> by (rewrite E, Rmult_0_r in Hs; pose proof (Rabs_pos s);
      destruct (Req_dec s 0) as [|N]; [assumption|pose proof (Rabs_pos_lt s N); lra]).
    assert (0 <= a2 * d3 * sq X) by (apply mul3_pos; auto).
    assert (0 <= w2 * dt * sq Y) by (apply mul3_pos; auto; lra).
    replace (X * (w2 * d3 * 0) * Y) with 0 by ring. lra. }
  pose proof (cost (w2 * d3) s _ (A * (1/8)) X Y ltac:(now apply Rmult_le_pos) Hs ltac:(lra)) as H.
  fold (sq X) (sq Y) in H.
  replace (w2 * d3 * (1 / 6 * A) * (1 / 2) * (A * (1 / 8)) * sq X) with (a2 * d3 * (1/96) * sq X) in H by (unfold a2; field).
  replace (w2 * d3 * (1 / 6 * A) * (1 / 2) * / (A * (1 / 8)) * sq Y) with (w2 * sq Y * d3 * (2/3)) in H by (field; assumption).
  pose proof (Hd3' (w2 * sq Y) ltac:(apply Rmult_le_pos; auto)). lra.
Qed.
Lemma k_vv : forall s X Y, Rabs s <= 8/75 * (A * A) ->
  - (a2 * dt * (4/75) * sq X + a2 * dt * (4/75) * sq Y) <= X * (nw * nw * dt * s) * Y.
Proof.
  intros s X Y Hs. pose proof (cost (w2 * dt) s _ 1 X Y ltac:(apply Rmult_le_pos; [exact Hw|lra]) Hs ltac:(lra)) as H.
  change (nw * nw) with w2. fold (sq X) (sq Y) in H. rewrite Rinv_1 in H. unfold a2. lra.
Qed.
Lemma k_vq : forall s X Y, Rabs s <= 13/240 * A ->
  - (a2 * dt * (13/96) * sq X + w2 * dt * (13/2400) * sq Y) <= X * (nw * nw * dt * s) * Y.
Proof.
  intros s X Y Hs. change (nw * nw) with w2.
  assert (H1 : 0 <= w2 * dt) by (apply Rmult_le_pos; [exact Hw|lra]).
  destruct (Req_dec A 0) as [E|E].
  { assert (s = 0) as -> by (rewrite E, Rmult_0_r in Hs; pose proof (Rabs_pos s);
      destruct (Req_dec s 0) as [|N]; [assumption|pose proof (Rabs_pos_lt s N); lra]).
    assert (0 <= a2 * dt * sq X) by (apply mul3_pos; auto; lra).
    assert (0 <= w2 * dt * sq Y) by (apply mul3_pos; auto; lra).
    replace (X * (w2 * dt * 0) * Y) with 0 by ring. lra. }
  pose proof (cost (w2 * dt) s _ (A * 5) X Y H1 Hs ltac:(lra)) as H.
  fold (sq X) (sq Y) in H.
  replace (w2 * dt * (13 / 240 * A) * (1 / 2) * (A * 5) * sq X) with (a2 * dt * (13/96) * sq X) in H by (unfold a2; field).
  replace (w2 * dt * (13 / 240 * A) * (1 / 2) * / (A * 5) * sq Y) with (w2 * dt * (13/2400) * sq Y) in H by (field; assumption).
  lra.
Qed.
Lemma k_qq : forall s X Y, Rabs s <= 21/800 ->
  - (w2 * dt * (21/1600) * sq X + w2 * dt * (21/1600) * sq Y) <= X * (nw * nw * dt * s) * Y.
Proof.
  intros s X Y Hs. pose proof (cost (w2 * dt) s _ 1 X Y ltac:(apply Rmult_le_pos; [exact Hw|lra]) Hs ltac:(lra)) as H.
  change (nw * nw) with w2. fold (sq X) (sq Y) in H. rewrite Rinv_1 in H. lra.
Qed.
Lemma k_vb : forall s X Y, Rabs s <= 1/6 * A ->
  - (b2 * d3 * (A * A) * (1/48) * sq X + b2 * dt * (1/1200) * sq Y) <= X * (nbw * nbw * d3 * s) * Y.
Proof.
  intros s X Y Hs. change (nbw * nbw) with b2.
  destruct (Req_dec A 0) as [E|E].
  { assert (s = 0) as -> by (rewrite E, Rmult_0_r in Hs; pose proof (Rabs_pos s);
      destruct (Req_dec s 0) as [|N]; [assumption|pose proof (Rabs_pos_lt s N); lra]).
    rewrite E.
    assert (0 <= b2 * dt * sq Y) by (apply mul3_pos; auto; lra).
    replace (X * (b2 * d3 * 0) * Y) with 0 by ring. lra. }
  pose proof (cost (b2 * d3) s _ (A * (1/4)) X Y ltac:(now apply Rmult_le_pos) Hs ltac:(lra)) as H.
  fold (sq X) (sq Y) in H.
  replace (b2 * d3 * (1 / 6 * A) * (1 / 2) * (A * (1 / 4)) * sq X) with (b2 * d3 * (A * A) * (1/48) * sq X) in H by field.
  replace (b2 * d3 * (1 / 6 * A) * (1 / 2) * / (A * (1 / 4)) * sq Y) with (b2 * sq Y * d3 * (1/3)) in H by (field; assumption).
  pose proof (Hd3' (b2 * sq Y) ltac:(apply Rmult_le_pos; auto)). lra.
Qed.
Lemma k_qb : forall s X Y, Rabs s <= 1/120 ->
  - (b2 * d3 * (1/240) * sq X + b2 * dt * (1/240) * sq Y) <= X * (nbw * nbw * (dt * dt) * s) * Y.
Proof.
  intros s X Y Hs. change (nbw * nbw) with b2.
  pose proof (cost (b2 * (dt * dt)) s _ dt X Y ltac:(apply Rmult_le_pos; [exact Hb|nra]) Hs ltac:(lra)) as H.
  fold (sq X) (sq Y) in H.
  replace (b2 * (dt * dt) * (1 / 120) * (1 / 2) * dt * sq X) with (b2 * d3 * (1/240) * sq X) in H by (unfold d3; field).
  replace (b2 * (dt * dt) * (1 / 120) * (1 / 2) * / dt * sq Y) with (b2 * dt * (1/240) * sq Y) in H by (field; lra).
  lra.
Qed.

Lemma swap_cost : forall X K Y c1 c2, - (c1 + c2) <= Y * K * X -> - (c2 + c1) <= X * K * Y.
Proof. intros. lra. Qed.

Lemma cx_pos : forall i j, 0 <= cx i j.
Proof.
  intros i j. unfold cx. assert (H3 : 0 <= dt * dt * dt) by exact Hd3. assert (H0 : 0 <= dt) by lra. assert (H1 : 0 <= A * A) by nra.
  pose proof Ha as Pa. pose proof Hw as Pw. pose proof Hb as Pb. revert Pa Pw Pb. generalize a2 w2 b2. intros ka kw kb Pa Pw Pb.
  destruct (i / 3)%nat as [|[|[|[|k]]]]; destruct (j / 3)%nat as [|[|[|[|l]]]];
    (lra || (apply Rmult_le_pos; [|lra])); first [apply Rmult_le_pos; assumption | apply mul3_pos; assumption].
Qed.
Lemma no_dev : forall i j, dev dt nw nbw u0 u1 u2 u3 u4 u5 u6 e1 e2 e3 i j = 0 ->
  - (cx i j * sq (x i) + cx j i * sq (x j)) <= x i * dev dt nw nbw u0 u1 u2 u3 u4 u5 u6 e1 e2 e3 i j * x j.
Proof.
  intros i j ->. rewrite Rmult_0_r, Rmult_0_l.
  assert (0 <= cx i j * sq (x i)) by (apply Rmult_le_pos; [apply cx_pos|apply Hsq]).
  assert (0 <= cx j i * sq (x j)) by (apply Rmult_le_pos; [apply cx_pos|apply Hsq]). lra.
Qed.

Lemma dev_cost : forall i j, (i < 15)%nat -> (j < 15)%nat ->
  - (cx i j * sq (x i) + cx j i * sq (x j)) <= x i * dev dt nw nbw u0 u1 u2 u3 u4 u5 u6 e1 e2 e3 i j * x j.
Proof.
  intros i j Hi Hj.
  all_cases 15%nat Hi; all_cases 15%nat Hj.
  all: try (apply no_dev; reflexivity).
  all: unfold dev, cx; cbn [Nat.div Nat.divmod fst snd]; fold d3.
  all: first [ apply k_pv; eapply Rle_trans; [ab|lra]
             | apply swap_cost; apply k_pv; eapply Rle_trans; [ab|lra]
             | apply k_pq; eapply Rle_trans; [ab|lra]
             | apply swap_cost; apply k_pq; eapply Rle_trans; [ab|lra]
             | apply k_vv; eapply Rle_trans; [ab|lra]
             | apply k_vq; eapply Rle_trans; [ab|lra]
             | apply swap_cost; apply k_vq; eapply Rle_trans; [ab|lra]
             | apply k_qq; eapply Rle_trans; [ab|lra]
             | apply k_vb; eapply Rle_trans; [ab|lra]
             | apply swap_cost; apply k_vb; eapply Rle_trans; [ab|lra]
             | apply k_qb; eapply Rle_trans; [ab|lra]
             | apply swap_cost; apply k_qb; eapply Rle_trans; [ab|lra] ].
Qed.

(** Leading order: a square but for three entries the code does not write. *)
Hypotheses (Hr2 : u1 * u1 + u2 * u2 + u3 * u3 <= A * A) (Hr3 : u4 * u4 + u5 * u5 + u6 * u6 <= A * A).

Lemma cauchy2 : forall a b c d, (a * c + b * d) * (a * c + b * d) <= (a * a + b * b) * (c * c + d * d).
Proof. intros a b c d. pose proof (Rle_0_sqr (a * d - b * c)) as H. unfold Rsqr in H. lra. Qed.
Lemma cauchy3 : forall a b c p q r,
  (a * p + b * q + c * r) * (a * p + b * q + c * r) <= (a * a + b * b + c * c) * (p * p + q * q + r * r).
Proof.
  intros a b c p q r. pose proof (Rle_0_sqr (a * q - b * p)) as H1. pose proof (Rle_0_sqr (a * r - c * p)) as H2.
  pose proof (Rle_0_sqr (b * r - c * q)) as H3. unfold Rsqr in *. lra.
Qed.

Lemma lead_low : forall v0 v1 v2 q0 q1 q2,
  let z0 := q0 - (u0 * v0 - u2 * v1 + u4 * v2) in
  let z1 := q1 - (u0 * v0 + u3 * v1 - u6 * v2) in
  let z2 := q2 - (u0 * v0 + u1 * v1 + u5 * v2) in
  (1/8) * (q0 * q0 + q1 * q1 + q2 * q2) - 2 * (A * A) * (v0 * v0 + v1 * v1 + v2 * v2) <=
  z0 * z0 + z1 * z1 + z2 * z2 + u0 * v0 * z1 - u2 * v1 * z0 + u0 * u0 * (v0 * v0) + u2 * u2 * (v1 * v1)
    - u0 * u1 * (v0 * v1) - u0 * u6 * (v0 * v2) - u2 * u4 * (v1 * v2).
Proof.
  intros v0 v1 v2 q0 q1 q2.
  set (m0 := u0 * v0 - u2 * v1 + u4 * v2). set (m1 := u0 * v0 + u3 * v1 - u6 * v2). set (m2 := u0 * v0 + u1 * v1 + u5 * v2).
  intros z0 z1 z2. set (V := v0 * v0 + v1 * v1 + v2 * v2).
  assert (HV : 0 <= V) by (unfold V; nra).
  assert (HU0 : u0 * u0 <= A * A).
  { replace (u0 * u0) with (Rabs u0 * Rabs u0) by (rewrite <- Rabs_mult; apply Rabs_pos_eq; nra).
    apply Rmult_le_compat; try apply Rabs_pos; assumption. }
  assert (Hm : m0 * m0 + m1 * m1 + m2 * m2 <= 5 * (A * A) * V).
  { pose proof (cauchy3 u0 (- u2) u4 v0 v1 v2) as M0. pose proof (cauchy3 u0 u3 (- u6) v0 v1 v2) as M1.
    pose proof (cauchy3 u0 u1 u5 v0 v1 v2) as M2.
    assert (E0 : m0 = u0 * v0 + - u2 * v1 + u4 * v2) by (unfold m0; ring).
    assert (E1 : m1 = u0 * v0 + u3 * v1 + - u6 * v2) by (unfold m1; ring).
    fold V in M0, M1, M2. rewrite <- E0 in M0. rewrite <- E1 in M1. fold m2 in M2.
    assert (HH : (u0 * u0 + u2 * u2 + u4 * u4) * V + (u0 * u0 + u3 * u3 + u6 * u6) * V + (u0 * u0 + u1 * u1 + u5 * u5) * V <= 5 * (A * A) * V).
    { rewrite <- !Rmult_plus_distr_r. apply Rmult_le_compat_r; [exact HV|lra]. }
    replace (- u2 * - u2) with (u2 * u2) in M0 by ring. replace (- u6 * - u6) with (u6 * u6) in M1 by ring. lra. }
  assert (Hq : (q0 * q0 + q1 * q1 + q2 * q2) <= 2 * (z0 * z0 + z1 * z1 + z2 * z2) + 2 * (m0 * m0 + m1 * m1 + m2 * m2)).
  { pose proof (Rle_0_sqr (z0 - m0)) as H0. pose proof (Rle_0_sqr (z1 - m1)) as H1. pose proof (Rle_0_sqr (z2 - m2)) as H2.
    unfold Rsqr in *. replace q0 with (z0 + m0) by (unfold z0; ring). replace q1 with (z1 + m1) by (unfold z1; ring).
    replace q2 with (z2 + m2) by (unfold z2; ring). lra. }
  assert (HW : (u1 * v1 + u6 * v2) * (u1 * v1 + u6 * v2) + (u4 * v2) * (u4 * v2) <= 2 * (A * A) * V).
  { pose proof (cauchy2 u1 u6 v1 v2) as H1.
    assert (H2 : (u1 * u1 + u6 * u6) * (v1 * v1 + v2 * v2) <= (u1 * u1 + u6 * u6) * V) by (apply Rmult_le_compat_l; [nra|unfold V; nra]).
    assert (H3 : (u4 * v2) * (u4 * v2) <= (u4 * u4) * V).
    { replace ((u4 * v2) * (u4 * v2)) with ((u4 * u4) * (v2 * v2)) by ring. apply Rmult_le_compat_l; [nra|unfold V; nra]. }
    assert (H4 : (u1 * u1 + u6 * u6) * V + (u4 * u4) * V <= 2 * (A * A) * V).
    { rewrite <- Rmult_plus_distr_r. apply Rmult_le_compat_r; [exact HV|nra]. }
    lra. }
  clearbody z0 z1 z2 m0 m1 m2 V.
  pose proof (Rle_0_sqr (z1 + 2/3 * (u0 * v0))) as S1. pose proof (Rle_0_sqr (z0 - 2/3 * (u2 * v1))) as S2.
  pose proof (Rle_0_sqr (u0 * v0 - 3/4 * (u1 * v1 + u6 * v2))) as S3. pose proof (Rle_0_sqr (u2 * v1 - 3/4 * (u4 * v2))) as S4.
  pose proof (Rle_0_sqr z2) as S5. unfold Rsqr in *. lra.
Qed.

Lemma lead_form :
  rsum 15 (fun i => rsum 15 (fun j => x i * lead u0 u1 u2 u3 u4 u5 u6 i j * x j)) =
  let v0 := x 3%nat in let v1 := x 4%nat in let v2 := x 5%nat in
  let z0 := x 6%nat - (u0 * v0 - u2 * v1 + u4 * v2) in
  let z1 := x 7%nat - (u0 * v0 + u3 * v1 - u6 * v2) in
  let z2 := x 8%nat - (u0 * v0 + u1 * v1 + u5 * v2) in
  z0 * z0 + z1 * z1 + z2 * z2 + u0 * v0 * z1 - u2 * v1 * z0 + u0 * u0 * (v0 * v0) + u2 * u2 * (v1 * v1)
    - u0 * u1 * (v0 * v1) - u0 * u6 * (v0 * v2) - u2 * u4 * (v1 * v2).
Proof. cbn [rsum lead]. cbv zeta. ring. Qed.

Lemma cost_sum :
  rsum 15 (fun i => rsum 15 (fun j => cx i j * sq (x i) + cx j i * sq (x j))) =
  (a2 * d3 * (11/80)) * (sq (x 0%nat) + sq (x 1%nat) + sq (x 2%nat)) +
  (a2 * dt * (483/400) + b2 * d3 * (A * A) * (1/8)) * (sq (x 3%nat) + sq (x 4%nat) + sq (x 5%nat)) +
  (w2 * dt * (97/800) + b2 * d3 * (1/40)) * (sq (x 6%nat) + sq (x 7%nat) + sq (x 8%nat)) +
  (b2 * dt * (3/100)) * (sq (x 9%nat) + sq (x 10%nat) + sq (x 11%nat)).
Proof.
  cbn [rsum]. unfold cx. cbn [Nat.div Nat.divmod fst snd]. fold d3. generalize a2 w2 b2 d3. intros ka kw kb kd. field.
Qed.

(** Accelerometer noise. *)
Hypothesis Hnba : nba * nba * (dt * dt) <= n2.
Lemma axis_low : forall a b c, (8/9) * n2 * ((1/50) * d3 * sq a + (1/5) * dt * sq b) <= axis_form dt na nba a b c.
Proof.
  intros a b c. unfold axis_form. fold n2. set (nr := n2 - nba * nba * (dt * dt) * (1/9)). set (mm := nba * nba).
  assert (Hm : 0 <= mm) by (unfold mm; nra).
  assert (Hn : 8/9 * n2 <= nr) by (unfold nr; lra).
  assert (Hn0 : 0 <= n2) by (unfold n2; nra).
  fold (sq (b + dt * a * (1/2))) (sq a) (sq (c - dt * dt * a * (1/6) - dt * b * (1/2))) (sq (b - dt * a * (1/7))). fold d3.
  assert (P1 : 0 <= mm * dt * sq (c - dt * dt * a * (1 / 6) - dt * b * (1 / 2))) by (apply mul3_pos; auto; lra).
  assert (P2 : 0 <= mm * d3 * (7/36) * sq (b - dt * a * (1/7))) by (apply Rmult_le_pos; [apply mul3_pos; auto; lra|auto]).
  assert (P3 : 0 <= mm * (d3 * dt * dt) * (1/108 - 1/252) * sq a).
  { apply Rmult_le_pos; [apply mul3_pos; [auto|apply mul3_pos; auto; lra|lra]|auto]. }
  assert (Q : (1/50) * d3 * sq a + (1/5) * dt * sq b <= dt * sq (b + dt * a * (1/2)) + d3 * (1/12) * sq a).
  { assert (H : 0 <= dt * sq (b + dt * a * (5/8))) by (apply Rmult_le_pos; [lra|auto]).
    assert (H' : 0 <= d3 * sq a) by (apply Rmult_le_pos; auto). unfold sq, d3 in *. lra. }
  assert (Q0 : 0 <= (1/50) * d3 * sq a + (1/5) * dt * sq b).
  { assert (0 <= d3 * sq a) by (apply Rmult_le_pos; auto). assert (0 <= dt * sq b) by (apply Rmult_le_pos; [lra|auto]). lra. }
  assert (R1 : 8/9 * n2 * ((1/50) * d3 * sq a + (1/5) * dt * sq b) <= nr * (dt * sq (b + dt * a * (1/2)) + d3 * (1/12) * sq a)).
  { apply Rmult_le_compat; try assumption; lra. }
  change (dt * dt * dt * dt * dt) with (d3 * dt * dt). lra.
Qed.
Lemma gyro_low : forall q w, b2 * ((3/50) * d3 * sq q + (3/50) * dt * sq w) <= gyro_form dt 0 nbw q w.
Proof.
  intros q w. unfold gyro_form. fold b2 d3. fold (sq (w - dt * q * (1/2))) (sq q).
  assert (Q : (3/50) * d3 * sq q + (3/50) * dt * sq w <= dt * sq (w - dt * q * (1/2)) + d3 * (1/12) * sq q).
  { assert (H : 0 <= dt * sq (w - dt * q * (25/47))) by (apply Rmult_le_pos; [lra|auto]).
    assert (H' : 0 <= d3 * sq q) by (apply Rmult_le_pos; auto). unfold sq, d3 in *. lra. }
  assert (R1 : b2 * ((3/50) * d3 * sq q + (3/50) * dt * sq w) <= b2 * (dt * sq (w - dt * q * (1/2)) + d3 * (1/12) * sq q)) by (apply Rmult_le_compat_l; auto).
  lra.
Qed.

Hypothesis Horth : forall i j, (i < 3)%nat -> (j < 3)%nat ->
  C i 0%nat * C j 0%nat + C i 1%nat * C j 1%nat + C i 2%nat * C j 2%nat = if Nat.eqb i j then 1 else 0.
Lemma rotated : forall a b c,
  sq (C 0%nat 0%nat * a + C 1%nat 0%nat * b + C 2%nat 0%nat * c) + sq (C 0%nat 1%nat * a + C 1%nat 1%nat * b + C 2%nat 1%nat * c) +
  sq (C 0%nat 2%nat * a + C 1%nat 2%nat * b + C 2%nat 2%nat * c) = sq a + sq b + sq c.
Proof.
  intros a b c.
  pose proof (Horth 0 0 ltac:(lia) ltac:(lia)) as H00. pose proof (Horth 0 1 ltac:(lia) ltac:(lia)) as H01.
  pose proof (Horth 0 2 ltac:(lia) ltac:(lia)) as H02. pose proof (Horth 1 1 ltac:(lia) ltac:(lia)) as H11.
  pose proof (Horth 1 2 ltac:(lia) ltac:(lia)) as H12. pose proof (Horth 2 2 ltac:(lia) ltac:(lia)) as H22.
  cbn [Nat.eqb] in *. unfold sq.
  match goal with |- ?l = _ => replace l with
    ((C 0%nat 0%nat * C 0%nat 0%nat + C 0%nat 1%nat * C 0%nat 1%nat + C 0%nat 2%nat * C 0%nat 2%nat) * (a * a) +
     (C 1%nat 0%nat * C 1%nat 0%nat + C 1%nat 1%nat * C 1%nat 1%nat + C 1%nat 2%nat * C 1%nat 2%nat) * (b * b) +
     (C 2%nat 0%nat * C 2%nat 0%nat + C 2%nat 1%nat * C 2%nat 1%nat + C 2%nat 2%nat * C 2%nat 2%nat) * (c * c) +
     2 * (C 0%nat 0%nat * C 1%nat 0%nat + C 0%nat 1%nat * C 1%nat 1%nat + C 0%nat 2%nat * C 1%nat 2%nat) * (a * b) +
     2 * (C 0%nat 0%nat * C 2%nat 0%nat + C 0%nat 1%nat * C 2%nat 1%nat + C 0%nat 2%nat * C 2%nat 2%nat) * (a * c) +
     2 * (C 1%nat 0%nat * C 2%nat 0%nat + C 1%nat 1%nat * C 2%nat 1%nat + C 1%nat 2%nat * C 2%nat 2%nat) * (b * c)) by ring end.
  rewrite H00, H01, H02, H11, H12, H22. ring.
Qed.

Hypothesis Hsmall : 20 * a2 <= n2.
Hypothesis Hbw : b2 * (dt * dt) <= w2.

Theorem flight_form :
  0 <= rsum 15 (fun i => rsum 15 (fun j => x i * (target dt na nba 0 nbw C i j + w2 * dt * lead u0 u1 u2 u3 u4 u5 u6 i j +
    dev dt nw nbw u0 u1 u2 u3 u4 u5 u6 e1 e2 e3 i j) * x j)).
Proof.
  set (T := rsum 15 (fun i => rsum 15 (fun j => x i * target dt na nba 0 nbw C i j * x j))).
  set (L := rsum 15 (fun i => rsum 15 (fun j => x i * lead u0 u1 u2 u3 u4 u5 u6 i j * x j))).
  set (K := rsum 15 (fun i => rsum 15 (fun j => cx i j * sq (x i) + cx j i * sq (x j)))).
  assert (HT : (8/9) * n2 * ((1/50) * d3 * (sq (x 0%nat) + sq (x 1%nat) + sq (x 2%nat)) + (1/5) * dt * (sq (x 3%nat) + sq (x 4%nat) + sq (x 5%nat))) +
    b2 * ((3/50) * d3 * (sq (x 6%nat) + sq (x 7%nat) + sq (x 8%nat)) + (3/50) * dt * (sq (x 9%nat) + sq (x 10%nat) + sq (x 11%nat))) <= T).
  { unfold T. rewrite target_form. rewrite <- (rotated (x 0%nat) (x 1%nat) (x 2%nat)), <- (rotated (x 3%nat) (x 4%nat) (x 5%nat)).
    pose proof (axis_low (C 0%nat 0%nat * x 0%nat + C 1%nat 0%nat * x 1%nat + C 2%nat 0%nat * x 2%nat)
      (C 0%nat 0%nat * x 3%nat + C 1%nat 0%nat * x 4%nat + C 2%nat 0%nat * x 5%nat) (x 12%nat)) as A0.
    pose proof (axis_low (C 0%nat 1%nat * x 0%nat + C 1%nat 1%nat * x 1%nat + C 2%nat 1%nat * x 2%nat)
      (C 0%nat 1%nat * x 3%nat + C 1%nat 1%nat * x 4%nat + C 2%nat 1%nat * x 5%nat) (x 13%nat)) as A1.
    pose proof (axis_low (C 0%nat 2%nat * x 0%nat + C 1%nat 2%nat * x 1%nat + C 2%nat 2%nat * x 2%nat)
      (C 0%nat 2%nat * x 3%nat + C 1%nat 2%nat * x 4%nat + C 2%nat 2%nat * x 5%nat) (x 14%nat)) as A2.
    pose proof (gyro_low (x 6%nat) (x 9%nat)) as G0. pose proof (gyro_low (x 7%nat) (x 10%nat)) as G1. pose proof (gyro_low (x 8%nat) (x 11%nat)) as G2.
    revert A0 A1 A2 G0 G1 G2.
    generalize (axis_form dt na nba) (gyro_form dt 0 nbw) sq. intros f g s A0 A1 A2 G0 G1 G2. lra. }
  assert (HL : (1/8) * (sq (x 6%nat) + sq (x 7%nat) + sq (x 8%nat)) - 2 * (A * A) * (sq (x 3%nat) + sq (x 4%nat) + sq (x 5%nat)) <= L).
  { unfold L. rewrite lead_form. apply lead_low. }
  assert (HS : T + w2 * dt * L - K <= rsum 15 (fun i => rsum 15 (fun j => x i * (target dt na nba 0 nbw C i j +
      w2 * dt * lead u0 u1 u2 u3 u4 u5 u6 i j + dev dt nw nbw u0 u1 u2 u3 u4 u5 u6 e1 e2 e3 i j) * x j))).
  { assert (E : forall f, w2 * dt * rsum 15 f = rsum 15 (fun i => w2 * dt * f i)).
    { intros f. generalize (w2 * dt). intros c. cbn [rsum]. ring. }
    assert (EK : - K = rsum 15 (fun i => rsum 15 (fun j => - (cx i j * sq (x i) + cx j i * sq (x j))))).
    { assert (En : forall f, - rsum 15 f = rsum 15 (fun i => - f i)) by (intros f; cbn [rsum]; ring).
      unfold K. rewrite En. apply rsum_eq. intros i Hi. apply En. }
    unfold Rminus. rewrite EK. unfold T, L. rewrite E. rewrite <- !rsum_plus. apply rsum_le. intros i Hi.
    rewrite E. rewrite <- !rsum_plus. apply rsum_le. intros j Hj.
    pose proof (dev_cost i j Hi Hj). lra. }
  eapply Rle_trans; [|exact HS].
  assert (EK : K = (a2 * d3 * (11/80)) * (sq (x 0%nat) + sq (x 1%nat) + sq (x 2%nat)) +
    (a2 * dt * (483/400) + b2 * d3 * (A * A) * (1/8)) * (sq (x 3%nat) + sq (x 4%nat) + sq (x 5%nat)) +
    (w2 * dt * (97/800) + b2 * d3 * (1/40)) * (sq (x 6%nat) + sq (x 7%nat) + sq (x 8%nat)) +
    (b2 * dt * (3/100)) * (sq (x 9%nat) + sq (x 10%nat) + sq (x 11%nat))) by exact cost_sum.
  assert (PP : 0 <= sq (x 0%nat) + sq (x 1%nat) + sq (x 2%nat)) by (repeat apply Rplus_le_le_0_compat; apply Hsq).
  assert (PV : 0 <= sq (x 3%nat) + sq (x 4%nat) + sq (x 5%nat)) by (repeat apply Rplus_le_le_0_compat; apply Hsq).
  assert (PQ : 0 <= sq (x 6%nat) + sq (x 7%nat) + sq (x 8%nat)) by (repeat apply Rplus_le_le_0_compat; apply Hsq).
  assert (PB : 0 <= sq (x 9%nat) + sq (x 10%nat) + sq (x 11%nat)) by (repeat apply Rplus_le_le_0_compat; apply Hsq).
  revert HT HL EK PP PV PQ PB. clearbody T L K.
  generalize (sq (x 0%nat) + sq (x 1%nat) + sq (x 2%nat)) (sq (x 3%nat) + sq (x 4%nat) + sq (x 5%nat))
    (sq (x 6%nat) + sq (x 7%nat) + sq (x 8%nat)) (sq (x 9%nat) + sq (x 10%nat) + sq (x 11%nat)).
  intros P V Q W HT HL EK PP PV PQ PB.
  assert (HL' : w2 * dt * ((1/8) * Q - 2 * (A * A) * V) <= w2 * dt * L) by (apply Rmult_le_compat_l; [apply Rmult_le_pos; [exact Hw|lra]|exact HL]).
  assert (E2 : w2 * dt * ((1/8) * Q - 2 * (A * A) * V) = (1/8) * (w2 * dt * Q) - 2 * (a2 * dt * V)) by (unfold a2; ring).
  assert (HB : b2 * d3 * (A * A) * V <= a2 * dt * V).
  { apply Rmult_le_compat_r; [exact PV|]. replace (b2 * d3 * (A * A)) with (b2 * (dt * dt) * (dt * (A * A))) by (unfold d3; ring).
    replace (a2 * dt) with (w2 * (dt * (A * A))) by (unfold a2; ring). apply Rmult_le_compat_r; [apply Rmult_le_pos; nra|exact Hbw]. }
  assert (HV' : 20 * (a2 * dt * V) <= n2 * dt * V).
  { replace (20 * (a2 * dt * V)) with ((20 * a2) * (dt * V)) by ring. replace (n2 * dt * V) with (n2 * (dt * V)) by ring. apply Rmult_le_compat_r; [apply Rmult_le_pos; lra|exact Hsmall]. }
  assert (HP' : 20 * (a2 * d3 * P) <= n2 * d3 * P).
  { replace (20 * (a2 * d3 * P)) with ((20 * a2) * (d3 * P)) by ring. replace (n2 * d3 * P) with (n2 * (d3 * P)) by ring. apply Rmult_le_compat_r; [apply Rmult_le_pos; auto|exact Hsmall]. }
  assert (Hn0 : 0 <= n2) by (unfold n2; nra).
  assert (N1 : 0 <= n2 * d3 * P) by (apply mul3_pos; auto).
  assert (N2 : 0 <= n2 * dt * V) by (apply mul3_pos; auto; lra).
  assert (N3 : 0 <= w2 * dt * Q) by (apply mul3_pos; auto; lra).
  assert (N4 : 0 <= b2 * d3 * Q) by (apply mul3_pos; auto).
  assert (N5 : 0 <= b2 * dt * W) by (apply mul3_pos; auto; lra).
  rewrite EK. lra.
Qed.
End Form.

(** ** Putting the attitude in *)

Lemma hrot_orth : forall q i j, qnorm2 q = 1 -> (i < 3)%nat -> (j < 3)%nat ->
  hrot q i 0 * hrot q j 0 + hrot q i 1 * hrot q j 1 + hrot q i 2 * hrot q j 2 = if Nat.eqb i j then 1 else 0.
Proof.
  intros q i j Hq Hi Hj. destruct q as [a b c d]. unfold qnorm2 in Hq. cbn [qw qx qy qz] in Hq.
  assert (E : (a * a + b * b + c * c + d * d) * (a * a + b * b + c * c + d * d) = 1).
  { replace (a * a + b * b + c * c + d * d) with 1 by lra. ring. }
  all_cases 3%nat Hi; all_cases 3%nat Hj; unfold hrot; cbn [Nat.eqb qw qx qy qz]; try (rewrite <- E); ring.
Qed.

Lemma cross_le : forall a b c p q r, a * a + b * b + c * c = 1 ->
  (q * c - r * b) * (q * c - r * b) + (p * b - q * a) * (p * b - q * a) + (r * a - p * c) * (r * a - p * c) <= p * p + q * q + r * r.
Proof.
  intros a b c p q r H. pose proof (Rle_0_sqr (a * p + b * q + c * r)) as S. unfold Rsqr in S.
  assert (E : (a * a + b * b + c * c) * (p * p + q * q + r * r) = p * p + q * q + r * r) by (rewrite H; ring). lra.
Qed.

Definition v3sq (a : v3) : R := v3x a * v3x a + v3y a * v3y a + v3z a * v3z a.

Lemma u_rows : forall q a, qnorm2 q = 1 ->
  u_of q a 0 * u_of q a 0 <= v3sq a /\
  u_of q a 1 * u_of q a 1 + u_of q a 2 * u_of q a 2 + u_of q a 3 * u_of q a 3 <= v3sq a /\
  u_of q a 4 * u_of q a 4 + u_of q a 5 * u_of q a 5 + u_of q a 6 * u_of q a 6 <= v3sq a.
Proof.
  intros q a Hq.
  pose proof (hrot_orth q 0 0 Hq ltac:(lia) ltac:(lia)) as H0. pose proof (hrot_orth q 1 1 Hq ltac:(lia) ltac:(lia)) as H1.
  pose proof (hrot_orth q 2 2 Hq ltac:(lia) ltac:(lia)) as H2. cbn [Nat.eqb] in *.
  apply (cross_le _ _ _ (v3x a) (v3y a) (v3z a)) in H0. apply (cross_le _ _ _ (v3x a) (v3y a) (v3z a)) in H1.
  apply (cross_le _ _ _ (v3x a) (v3y a) (v3z a)) in H2. fold (v3sq a) in H0, H1, H2.
  assert (E0 : u_of q a 0 = v3y a * hrot q 0 2 - v3z a * hrot q 0 1) by (destruct q as [q1 q2 q3 q4], a as [a1 a2 a3]; cbv [u_of t362 t363 t364 t345 t344 t356 t357 t348 t349 hrot qw qx qy qz v3x v3y v3z]; ring).
  assert (E1 : u_of q a 1 = v3x a * hrot q 1 1 - v3y a * hrot q 1 0) by (destruct q as [q1 q2 q3 q4], a as [a1 a2 a3]; cbv [u_of t381 t380 t391 t366 t367 t348 t349 t350 t351 t352 t353 hrot qw qx qy qz v3x v3y v3z]; ring).
  assert (E2 : u_of q a 2 = - (v3y a * hrot q 1 2 - v3z a * hrot q 1 1)) by (destruct q as [q1 q2 q3 q4], a as [a1 a2 a3]; cbv [u_of t384 t382 t383 t376 t358 t368 t367 t350 t351 t352 t353 hrot qw qx qy qz v3x v3y v3z]; ring).
  assert (E3 : u_of q a 3 = v3z a * hrot q 1 0 - v3x a * hrot q 1 2) by (destruct q as [q1 q2 q3 q4], a as [a1 a2 a3]; cbv [u_of t388 t386 t387 t376 t366 t358 t368 t348 t349 hrot qw qx qy qz v3x v3y v3z]; ring).
  assert (E4 : u_of q a 4 = v3y a * hrot q 2 2 - v3z a * hrot q 2 1) by (destruct q as [q1 q2 q3 q4], a as [a1 a2 a3]; cbv [u_of t390 t389 t407 t370 t372 t358 t368 t350 t351 t352 t353 hrot qw qx qy qz v3x v3y v3z]; ring).
  assert (E5 : u_of q a 5 = v3x a * hrot q 2 1 - v3y a * hrot q 2 0) by (destruct q as [q1 q2 q3 q4], a as [a1 a2 a3]; cbv [u_of t394 t392 t393 t372 t369 t358 t368 t356 t357 hrot qw qx qy qz v3x v3y v3z]; ring).
  assert (E6 : u_of q a 6 = - (v3z a * hrot q 2 0 - v3x a * hrot q 2 2)) by (destruct q as [q1 q2 q3 q4], a as [a1 a2 a3]; cbv [u_of t397 t395 t396 t370 t369 t356 t357 t350 t351 t352 t353 hrot qw qx qy qz v3x v3y v3z]; ring).
  rewrite E0, E1, E2, E3, E4, E5, E6.
  pose proof (Rle_0_sqr (v3x a * hrot q 0 1 - v3y a * hrot q 0 0)) as S1. pose proof (Rle_0_sqr (v3z a * hrot q 0 0 - v3x a * hrot q 0 2)) as S2.
  unfold Rsqr in *. repeat split; lra.
Qed.

(** Ordinary flight: steps of up to 50 ms, rotation about each axis of up to a twentieth of a
    radian over the step, the gyroscope noise times the specific force small against the
    accelerometer noise, bias noises no larger over the step than the noises themselves. *)
Theorem flight_core : forall dt q ew ea nz x, qnorm2 q = 1 -> 0 < dt <= 1/20 ->
  Rabs (v3x ew * dt) <= 1/20 -> Rabs (v3y ew * dt) <= 1/20 -> Rabs (v3z ew * dt) <= 1/20 ->
  20 * (n_gyr nz * n_gyr nz * v3sq ea) <= n_acc nz * n_acc nz ->
  n_accbias nz * n_accbias nz * (dt * dt) <= n_acc nz * n_acc nz ->
  n_gyrbias nz * n_gyrbias nz * (dt * dt) <= n_gyr nz * n_gyr nz ->
  0 <= rsum 15 (fun i => rsum 15 (fun j => x i * calc_q_core std_ix dt q ew ea nz zzero (Z.of_nat i) (Z.of_nat j) * x j)).
Proof.
  intros dt q ew ea [na nba nw nbw] x Hq Hdt H1 H2 H3 Hs Hba Hbw. cbn [n_acc n_accbias n_gyr n_gyrbias] in *.
  assert (Hv : 0 <= v3sq ea) by (unfold v3sq; nra).
  pose proof (u_rows q ea Hq) as [R0 [R1' R2]].
  set (A := sqrt (v3sq ea)). assert (EA : A * A = v3sq ea) by (apply sqrt_sqrt; exact Hv).
  assert (HA : 0 <= A) by apply sqrt_pos.
  assert (B : forall u, u * u <= v3sq ea -> Rabs u <= A).
  { intros u Hu. unfold A. rewrite <- sqrt_Rsqr_abs. apply sqrt_le_1_alt. exact Hu. }
  pose proof (fun k => Rle_0_sqr (u_of q ea k)) as S. unfold Rsqr in S.
  pose proof (S 1%nat). pose proof (S 2%nat). pose proof (S 3%nat). pose proof (S 4%nat). pose proof (S 5%nat). pose proof (S 6%nat).
  pose proof (flight_form dt na nba nw nbw A (hrot q) (u_of q ea 0) (u_of q ea 1) (u_of q ea 2) (u_of q ea 3) (u_of q ea 4) (u_of q ea 5)
    (u_of q ea 6) (v3x ew * dt) (v3y ew * dt) (v3z ew * dt) x) as F.
  eapply Rle_trans; [apply F; try assumption; try (apply B; lra); try (rewrite EA; lra); intros; now apply hrot_orth|].
  apply Req_le. apply rsum_eq. intros i Hi. apply rsum_eq. intros j Hj. f_equal. f_equal.
  rewrite noise_split, gyr_entry by assumption.
  rewrite core_entry; [|reflexivity|right; split; reflexivity|assumption|assumption]. cbn [n_acc n_accbias n_gyr n_gyrbias].
  unfold target, coef, acc_coef, gyr_coef. destruct (i / 3)%nat as [|[|[|[|[|k]]]]]; destruct (j / 3)%nat as [|[|[|[|[|l]]]]]; ring.
Qed.

(** ** Where symmetry is lost, without rotation *)

Lemma u0_row : forall q a, qnorm2 q = 1 -> u_of q a 0 = v3y a * v3z (r1 (qrot q)) - v3z a * v3y (r1 (qrot q)).
Proof.
  intros q a Hq. destruct q as [q1 q2 q3 q4], a as [a1 a2 a3]. unfold qnorm2 in Hq. cbn [qw qx qy qz] in Hq.
  cbv [u_of t362 t363 t364 t345 t344 t356 t357 t348 t349 qrot r1 qw qx qy qz v3x v3y v3z]. ring.
Qed.
Lemma u2_row : forall q a, qnorm2 q = 1 -> u_of q a 2 = - (v3y a * v3z (r2 (qrot q)) - v3z a * v3y (r2 (qrot q))).
Proof.
  intros q a Hq. destruct q as [q1 q2 q3 q4], a as [a1 a2 a3]. unfold qnorm2 in Hq. cbn [qw qx qy qz] in Hq.
  assert (E : q1 * q1 + q3 * q3 = 1 - q2 * q2 - q4 * q4) by lra.
  cbv [u_of t384 t382 t383 t376 t358 t368 t367 t350 t351 t352 t353 qrot r2 qw qx qy qz v3x v3y v3z].
  replace (q1 * q1 - q2 * q2 + q3 * q3 - q4 * q4) with ((q1 * q1 + q3 * q3) - q2 * q2 - q4 * q4) by ring. rewrite E. ring.
Qed.

Section Rest.
Variables (dt na nba nw nbw : R) (q : quat) (ea : v3).
Let Q i j := calc_q_core std_ix dt q v3zero ea (Noise na nba nw nbw) zzero (Z.of_nat i) (Z.of_nat j).
Lemma rest_entry : forall i j, (i < 15)%nat -> (j < 15)%nat ->
  Q i j = target dt na nba 0 nbw (hrot q) i j +
    nw * nw * dt * lead (u_of q ea 0) (u_of q ea 1) (u_of q ea 2) (u_of q ea 3) (u_of q ea 4) (u_of q ea 5) (u_of q ea 6) i j +
    dev dt nw nbw (u_of q ea 0) (u_of q ea 1) (u_of q ea 2) (u_of q ea 3) (u_of q ea 4) (u_of q ea 5) (u_of q ea 6) 0 0 0 i j.
Proof.
  intros i j Hi Hj. unfold Q. rewrite noise_split, gyr_entry by assumption.
  rewrite core_entry; [|reflexivity|right; split; reflexivity|assumption|assumption]. cbn [n_acc n_accbias n_gyr n_gyrbias].
  cbn [v3x v3y v3z v3zero]. rewrite Rmult_0_l.
  unfold target, coef, acc_coef, gyr_coef. destruct (i / 3)%nat as [|[|[|[|[|k]]]]]; destruct (j / 3)%nat as [|[|[|[|[|l]]]]]; ring.
Qed.
Hypotheses (Hd : dt <> 0) (Hn : nw <> 0).
Let Hk : nw * nw * dt <> 0. Proof. repeat apply Rmult_integral_contrapositive_currified; assumption. Qed.
Lemma asym_37 : Q 3 7 = Q 7 3 -> u_of q ea 0 = 0.
Proof.
  rewrite !rest_entry by lia. rewrite (target_sym _ _ _ _ _ _ 3 7) by lia. cbn [lead dev]. intros H.
  apply (Rmult_eq_reg_l (nw * nw * dt)); [|exact Hk]. lra.
Qed.
Lemma asym_46 : Q 4 6 = Q 6 4 -> u_of q ea 2 = 0.
Proof.
  rewrite !rest_entry by lia. rewrite (target_sym _ _ _ _ _ _ 4 6) by lia. cbn [lead dev]. intros H.
  apply (Rmult_eq_reg_l (nw * nw * dt)); [|exact Hk]. lra.
Qed.
End Rest.
Lemma sym_rest : forall dt na nba nw nbw q ea i j, u_of q ea 0 = 0 -> u_of q ea 2 = 0 -> (i < 15)%nat -> (j < 15)%nat ->
  calc_q_core std_ix dt q v3zero ea (Noise na nba nw nbw) zzero (Z.of_nat i) (Z.of_nat j) =
  calc_q_core std_ix dt q v3zero ea (Noise na nba nw nbw) zzero (Z.of_nat j) (Z.of_nat i).
Proof.
  intros dt na nba nw nbw q ea i j H0 H2 Hi Hj. rewrite !rest_entry by assumption.
  rewrite (target_sym _ _ _ _ _ _ i j) by assumption. rewrite H0, H2.
  rewrite !Rplus_assoc. f_equal. all_cases 15%nat Hi; all_cases 15%nat Hj; cbn [lead dev]; ring.
Qed.
