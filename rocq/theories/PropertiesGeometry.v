(** C33-C35: attitude and prediction. *)

From Coq Require Import Reals ZArith List Lra Lia Psatz.
From Verif Require Import Outcome SortedContainer Core CoreBasics CoreInv Geom StateList Propagate NavOps GeomProofs.
Import ListNotations.
Open Scope R_scope.

Definition unit_q (q : quat) : Prop := qw q * qw q + qx q * qx q + qy q * qy q + qz q * qz q = 1.

(** ** C33 *)

Theorem C33_small_angle_unit : forall theta, unit_q (small_quat theta).
Proof. exact small_quat_unit. Qed.
Print Assumptions C33_small_angle_unit.

Example C33_small_angle_ex :
  small_quat (V3 0 0 0) = qone /\ small_quat (V3 2 0 0) = Quat (1 / sqrt 2) (1 / sqrt 2) 0 0.
Proof.
  unfold small_quat, v3norm2, v3dot. cbn [v3x v3y v3z]. split.
  - replace ((0 * 0 + 0 * 0 + 0 * 0) / 4) with 0 by field.
    destruct (Rlt_dec 0 1) as [_|N]; [|lra]. rewrite Rminus_0_r, sqrt_1. unfold qone.
    rewrite !Rmult_0_l. reflexivity.
  - replace ((2 * 2 + 0 * 0 + 0 * 0) / 4) with 1 by field.
    destruct (Rlt_dec 1 1) as [N|_]; [lra|]. replace (1 + 1) with 2 by ring.
    pose proof (sqrt_lt_R0 2 ltac:(lra)). f_equal; field; lra.
Qed.

Theorem C33_correction_unit : forall q theta, unit_q q -> unit_q (qnormalize (qmul q (small_quat theta))).
Proof. exact correction_unit. Qed.
Print Assumptions C33_correction_unit.

(** No rate and no time step makes the unnormalised prediction vanish, so the
    predicted attitude is a unit quaternion whenever the old one is not zero. *)
Theorem C33_prediction_unit : forall ew ewold dt q, q <> Quat 0 0 0 0 -> unit_q (propagate_q ew ewold dt q).
Proof.
  intros ew ewold dt q Hq. apply propagate_q_unit. intros H. apply Hq.
  destruct q as [w x y z]. unfold qnorm2 in H. cbn in H. f_equal; nra.
Qed.
Print Assumptions C33_prediction_unit.

Example C33_prediction_ex : unit_q (propagate_q (V3 100 0 (-20)) (V3 0 7 0) (-3) qone).
Proof. apply C33_prediction_unit. intros H. injection H. lra. Qed.

(** In every execution of the filter, with any sensors, every buffered and every
    published state has a unit attitude, if the initial and external attitudes are. *)
Section AllExecutions.
  Variables (X C M G : Type) (zero : C)
            (predict : Z -> v3 -> v3 -> nav * X -> C -> C) (num nump : nav * X -> bool)
            (update : M -> G -> nav * X -> C -> option (dnav * (X -> X)) * C * G) (reset : G).
  Let O := nav_ops X C M G zero predict num nump update reset.

  Lemma unit_closed : closed O (fun _ => True) (fun _ => True) (fun s => unit_q (nq (fst s)))
                             (fun _ => True) (fun _ => True) (fun _ => True) (fun e => unit_q (snd e)).
  Proof.
    constructor; try (intros; exact I).
    - intros dt a g v a' g' _ _ Hv _ _. cbn. apply propagate_q_unit. unfold unit_q in Hv. unfold qnorm2. lra.
    - intros [[p v] q] [x a] Hx Hv. exact Hx.
    - intros m t v P b v' P' t' _ _ Hv _ H. cbn in H.
      destruct (update m t v P) as [[[[dd f]|] P1] g1]; injection H as <- <- <- <-;
        repeat split; cbn [fst]; [apply correction_unit; exact Hv|exact Hv].
  Qed.

  Theorem C33_all_executions : forall d (l : list (call O)) g (c : core O) ev,
    (forall t (s : st O), In (CInit t s) l -> unit_q (nq (fst (s_val s)))) ->
    (forall a w x b t, In (@CExt O a w x b t) l -> unit_q (snd x)) ->
    run O d (core_new O g) l = Ok (c, ev) ->
    (forall t (s : st O), In (t, s) (states c) -> unit_q (nq (fst (s_val s)))) /\
    (forall t (s : st O), In (PubPropagation t s) ev \/ In (PubUpdate t s) ev -> unit_q (nq (fst (s_val s)))).
  Proof.
    intros d l g c ev Hi Hx H.
    eapply run_good in H as [H1 H2]; [|exact unit_closed|exact (core_new_good _ _ _ _ _ _ _ _ unit_closed g I)|].
    - split.
      + intros t s Hin. apply (proj2 (g_states _ _ _ _ _ _ _ _ H1)) in Hin. apply Hin.
      + rewrite Forall_forall in H2. intros t s [Hin|Hin]; apply H2 in Hin; apply Hin.
    - apply Forall_forall. intros k Hk. destruct k as [t s|a w t|a w x b t|t m].
      + split; [exact I|]. split; [exact I|]. split; [exact (Hi t s Hk)|exact I].
      + split; [intros _; exact I|exact I].
      + split; [intros _; exact I|]. split; [exact I|exact (Hx a w x b t Hk)].
      + exact I.
  Qed.
End AllExecutions.
Print Assumptions C33_all_executions.

(** An execution it talks about: initialise with a 90 degree attitude, then a
    measurement is ignored. *)
Example C33_all_executions_ex :
  let O := nav_ops unit unit unit unit tt (fun _ _ _ _ P => P) (fun _ => true) (fun _ => true)
                   (fun _ _ _ _ => (None, tt, tt)) tt in
  let s := @mkst O v3zero v3zero (Nav v3zero v3zero (Quat 0 1 0 0) v3zero v3zero, tt) tt in
  unit_q (nq (fst (s_val s))) /\
  exists c ev, run O (fun _ => DecEnd) (core_new O tt) [CInit 5%Z s; @CMeas O 5%Z tt] = Ok (c, ev) /\
    map (fun e : Z * st O => nq (fst (s_val (snd e)))) (states c) = [Quat 0 1 0 0].
Proof.
  cbv zeta. split; [unfold unit_q; cbn; ring|]. do 2 eexists. split; reflexivity.
Qed.

(** ** C34 *)

(** Powers and the exponential series up to fourth order. *)
Fixpoint mpow (A : m4) (n : nat) : m4 := match n with O => m4eye | S n' => m4mul (mpow A n') A end.
Fixpoint series (A : m4) (c : list R) (n : nat) : m4 :=
  match c with
  | [] => M4 (V4 0 0 0 0) (V4 0 0 0 0) (V4 0 0 0 0) (V4 0 0 0 0)
  | k :: c' => m4add (m4scale k (mpow A n)) (series A c' (S n))
  end.
Definition exp4 (A : m4) : m4 := series A [1; 1; 1/2; 1/6; 1/24] 0.
(** The exponent: half the rate matrix times the step. *)
Definition half_rate (w : v3) (dt : R) : m4 := m4scale (1/2 * dt) (omega_jpl w).

(** The loop squares the power it has, so the exponential series is not what it
    computes. *)
Theorem C34_series_refuted : exists w dt, mat_exp w w dt <> exp4 (half_rate w dt).
Proof.
  exists (V3 0 0 2), 1. intros H. rewrite mat_exp_form in H.
  apply (f_equal (fun A => e4 (w4 A))) in H. revert H.
  replace (theta_vec (V3 0 0 2) (V3 0 0 2) 1) with (V3 0 0 1)
    by (cbv [theta_vec mean_rate v3scale v3add v3x v3y v3z]; f_equal; field).
  replace (half_rate (V3 0 0 2) 1) with (omega_jpl (V3 0 0 1))
    by (unfold half_rate; rewrite m4scale_omega; f_equal; cbv [v3scale v3x v3y v3z]; f_equal; field).
  cbv [aI_plus exp4 series mpow m4mul m4scale m4eye m4add omega_jpl v4m m4tr v4dot v4add v4scale
       e1 e2 e3 e4 w1 w2 w3 w4 v3x v3y v3z me_coef v3norm2 v3dot]. lra.
Qed.
Print Assumptions C34_series_refuted.

(** What it computes instead, for all rates: powers 1, 2, 4, 8 over 1, 2, 6, 24; in
    particular the series up to second order. *)
Lemma mpow2 : forall u, mpow (omega_jpl u) 2 = m4scale (- v3norm2 u) m4eye.
Proof.
  intros u. rewrite <- omega_square. cbn [mpow]. f_equal. destruct u as [x y z].
  cbv [m4mul m4eye omega_jpl v4m m4tr v4dot e1 e2 e3 e4 w1 w2 w3 w4 v3x v3y v3z]. comps; ring.
Qed.
Lemma m4mul_assoc : forall A B C, m4mul (m4mul A B) C = m4mul A (m4mul B C).
Proof.
  intros [[a1 a2 a3 a4] [a5 a6 a7 a8] [a9 b1 b2 b3] [b4 b5 b6 b7]]
         [[c1 c2 c3 c4] [c5 c6 c7 c8] [c9 d1 d2 d3] [d4 d5 d6 d7]]
         [[f1 f2 f3 f4] [f5 f6 f7 f8] [f9 g1 g2 g3] [g4 g5 g6 g7]].
  cbv [m4mul v4m m4tr v4dot e1 e2 e3 e4 w1 w2 w3 w4]. comps; ring.
Qed.
Lemma m4mul_eye_l : forall A, m4mul m4eye A = A.
Proof.
  intros [[a1 a2 a3 a4] [a5 a6 a7 a8] [a9 b1 b2 b3] [b4 b5 b6 b7]].
  cbv [m4mul m4eye v4m m4tr v4dot e1 e2 e3 e4 w1 w2 w3 w4]. comps; ring.
Qed.
Lemma m4mul_eye_r : forall A, m4mul A m4eye = A.
Proof.
  intros [[a1 a2 a3 a4] [a5 a6 a7 a8] [a9 b1 b2 b3] [b4 b5 b6 b7]].
  cbv [m4mul m4eye v4m m4tr v4dot e1 e2 e3 e4 w1 w2 w3 w4]. comps; ring.
Qed.
Lemma mpow_add : forall A n m, mpow A (n + m) = m4mul (mpow A n) (mpow A m).
Proof.
  intros A n m. induction m as [|m IH]; [rewrite Nat.add_0_r; cbn [mpow]; symmetry; apply m4mul_eye_r|].
  rewrite Nat.add_succ_r. cbn [mpow]. rewrite IH. apply m4mul_assoc.
Qed.
Lemma mpow4 : forall u, mpow (omega_jpl u) 4 = m4scale (v3norm2 u * v3norm2 u) m4eye.
Proof.
  intros u. change 4%nat with (2 + 2)%nat. rewrite mpow_add, mpow2, m4eye_square. f_equal. ring.
Qed.
Lemma mpow8 : forall u, mpow (omega_jpl u) 8 = m4scale (v3norm2 u * v3norm2 u * (v3norm2 u * v3norm2 u)) m4eye.
Proof. intros u. change 8%nat with (4 + 4)%nat. rewrite mpow_add, mpow4, m4eye_square. reflexivity. Qed.

Theorem C34_actual_series_partial : forall ew ewold dt,
  let A := half_rate (mean_rate ew ewold) dt in
  mat_exp ew ewold dt =
  m4add (m4add (m4add (m4add (mpow A 0) (mpow A 1)) (m4scale (1/2) (mpow A 2)))
               (m4scale (1/6) (mpow A 4))) (m4scale (1/24) (mpow A 8)).
Proof.
  intros ew ewold dt A. unfold A, half_rate. rewrite m4scale_omega. fold (theta_vec ew ewold dt).
  rewrite mat_exp_form, mpow2, mpow4, mpow8. cbn [mpow]. rewrite m4mul_eye_l.
  set (u := theta_vec ew ewold dt).
  replace (m4add m4eye (omega_jpl u)) with (aI_plus 1 u).
  - rewrite !aI_add_eye. f_equal. unfold me_coef. field.
  - destruct u as [x y z]. cbv [aI_plus m4add m4scale m4eye omega_jpl v4add v4scale e1 e2 e3 e4 w1 w2 w3 w4 v3x v3y v3z].
    comps; ring.
Qed.
Print Assumptions C34_actual_series_partial.

(** The prediction is the old attitude times a body-frame increment
    [(c, rate*dt/2 + dt^2/24 (old x new))], normalised: the first-order commutator
    term has the coefficient 1/24 of the Magnus expansion of a linearly changing rate. *)
Theorem C34_increment_partial : forall ew ewold dt q,
  propagate_q ew ewold dt q =
  qnormalize (qmul q
    (let th := v3scale (1/2 * dt) (v3scale (/ 2) (v3add ew ewold)) in
     let u := v3add th (v3scale (dt * dt / 24) (v3cross ewold ew)) in
     let n := v3dot th th in
     Quat (1 - n / 2 + n * n / 6 + (n * n) * (n * n) / 24) (v3x u) (v3y u) (v3z u))).
Proof. exact propagate_q_form. Qed.
Print Assumptions C34_increment_partial.

(** For a constant rate [r] about the unit axis [n], half angle [th = r dt / 2] up to
    one radian, the unnormalised increment is within third order of the true one
    [(cos th, sin th n)]. *)
Lemma cos_series : forall t, 0 <= t <= 1 -> 1 - t * t / 2 <= cos t <= 1 - t * t / 2 + t * t * (t * t) / 24.
Proof.
  intros t Ht. pose proof (pre_cos_bound t 0 ltac:(lra) ltac:(lra)) as [H1 H2].
  unfold cos_approx, cos_term in H1, H2. cbn in H1, H2. split.
  - eapply Rle_trans; [|exact H1]. right. field.
  - eapply Rle_trans; [exact H2|]. right. field.
Qed.
Lemma sin_series : forall t, 0 <= t <= 1 -> t - t * t * t / 6 <= sin t <= t.
Proof.
  intros t Ht. pose proof (pre_sin_bound t 0 ltac:(lra) ltac:(lra)) as [H1 H2].
  unfold sin_approx, sin_term in H1, H2. cbn in H1, H2. split.
  - eapply Rle_trans; [|exact H1]. right. field.
  - destruct (Req_dec t 0) as [->|Hn]; [rewrite sin_0; lra|]. left. apply sin_lt_x. lra.
Qed.

Theorem C34_accuracy_partial : forall n r dt, v3dot n n = 1 -> 0 <= r * dt / 2 <= 1 ->
  let th := r * dt / 2 in
  exists c k, rot_quat (v3scale r n) (v3scale r n) dt = Quat c (k * v3x n) (k * v3y n) (k * v3z n) /\
    Rabs (c - cos th) <= 5 / 24 * th ^ 4 /\ Rabs (k - sin th) <= th ^ 3 / 6.
Proof.
  intros n r dt Hn Hth th.
  exists (me_coef (th * th)), th.
  assert (Ht : theta_vec (v3scale r n) (v3scale r n) dt = v3scale th n).
  { destruct n as [x y z]. unfold th. cbv [theta_vec mean_rate v3scale v3add v3x v3y v3z]. comps; field. }
  assert (Hc : comm_vec (v3scale r n) (v3scale r n) dt = v3zero).
  { destruct n as [x y z]. cbv [comm_vec v3scale v3cross v3zero v3x v3y v3z]. comps; field. }
  split.
  - unfold rot_quat. rewrite Ht, Hc.
    replace (v3norm2 (v3scale th n)) with (th * th).
    + destruct n as [x y z]. cbv [v3add v3scale v3zero v3x v3y v3z]. comps; ring.
    + unfold v3norm2. transitivity (th * th * v3dot n n); [rewrite Hn; ring|].
      destruct n as [x y z]. cbv [v3dot v3scale v3x v3y v3z]. ring.
  - fold th in Hth. pose proof (cos_series th Hth) as [C1 C2]. pose proof (sin_series th Hth) as [S1 S2].
    unfold me_coef. split.
    + assert (0 <= th * th * (th * th) * (th * th * (th * th)) <= th * th * (th * th)).
      { assert (0 <= th * th <= 1) by nra. assert (0 <= th * th * (th * th) <= 1) by nra. nra. }
      apply Rabs_le. replace (th ^ 4) with (th * th * (th * th)) by ring. lra.
    + apply Rabs_le. replace (th ^ 3) with (th * th * th) by ring. lra.
Qed.
Print Assumptions C34_accuracy_partial.

Example C34_accuracy_ex : v3dot (V3 0 (3/5) (4/5)) (V3 0 (3/5) (4/5)) = 1 /\ 0 <= 2 * (1/10) / 2 <= 1.
Proof. unfold v3dot. cbn [v3x v3y v3z]. split; lra. Qed.

(** ** C35 *)

(** Constant specific force [f] in world coordinates for a time [dt]. *)
Definition const_acc_p (p v f : v3) (dt : R) : v3 := v3add p (v3add (v3scale dt v) (v3scale (dt * dt / 2) f)).
Definition const_acc_v (v f : v3) (dt : R) : v3 := v3add v (v3scale dt f).

Theorem C35_constant_acceleration : forall x u dt,
  unit_q (nq x) -> iw u = nbw x ->
  let f := v3sub (m3vec (qrot (nq x)) (v3sub (ia u) (nba x))) gravity in
  propagate_nav dt x u u =
    Nav (const_acc_p (np x) (nv x) f dt) (const_acc_v (nv x) f dt) (nq x) (nbw x) (nba x).
Proof.
  intros x u dt Hq Hw f. unfold propagate_nav. rewrite Hw, v3sub_self, no_rotation by exact Hq.
  unfold propagate_p, propagate_v, const_acc_p, const_acc_v, f.
  set (e := m3vec (qrot (nq x)) (v3sub (ia u) (nba x))). clearbody e.
  destruct x as [[px py pz] [vx vy vz] q bw ba], e as [ex ey ez]. unfold gravity. cbn [np nv nq nbw nba].
  f_equal; cbv [v3add v3scale v3sub v3x v3y v3z]; comps; field.
Qed.
Print Assumptions C35_constant_acceleration.

Theorem C35_split_step : forall x u s t, unit_q (nq x) -> iw u = nbw x ->
  propagate_nav t (propagate_nav s x u u) u u = propagate_nav (s + t) x u u.
Proof.
  intros x u s t Hq Hw.
  rewrite (C35_constant_acceleration x u s Hq Hw), (C35_constant_acceleration x u (s + t) Hq Hw).
  rewrite C35_constant_acceleration by assumption. cbn [np nv nq nbw nba].
  set (f := v3sub _ gravity). clearbody f. destruct x as [[px py pz] [vx vy vz] q bw ba], f as [fx fy fz].
  unfold const_acc_p, const_acc_v. cbn [np nv nq nbw nba].
  f_equal; cbv [v3add v3scale v3x v3y v3z]; comps; field.
Qed.
Print Assumptions C35_split_step.

Theorem C35_rest : forall x u dt, unit_q (nq x) -> iw u = nbw x -> nv x = v3zero ->
  m3vec (qrot (nq x)) (v3sub (ia u) (nba x)) = gravity -> propagate_nav dt x u u = x.
Proof.
  intros x u dt Hq Hw Hv Hg. rewrite (C35_constant_acceleration x u dt Hq Hw), Hg, v3sub_self.
  destruct x as [[px py pz] v q bw ba]. cbn [np nv nq nbw nba] in *. subst v.
  unfold const_acc_p, const_acc_v, v3zero.
  f_equal; cbv [v3add v3scale v3x v3y v3z]; comps; ring.
Qed.
Print Assumptions C35_rest.

(** An upside-down IMU (half turn about x) with biases, reading gravity. *)
Example C35_ex :
  let x := Nav (V3 1 2 3) v3zero (Quat 0 1 0 0) (V3 (1/10) 0 0) (V3 0 (1/5) 0) in
  let u := Imu (V3 (1/10) 0 0) (V3 0 (1/5) (- (980834 / 100000))) in
  unit_q (nq x) /\ iw u = nbw x /\ nv x = v3zero /\
  m3vec (qrot (nq x)) (v3sub (ia u) (nba x)) = gravity.
Proof.
  cbv zeta. cbn [nq iw nbw nv ia nba]. split; [unfold unit_q; cbn [qw qx qy qz]; ring|].
  split; [reflexivity|]. split; [reflexivity|].
  cbv [m3vec qrot v3sub v3dot gravity v3x v3y v3z r1 r2 r3 qw qx qy qz]. f_equal; field.
Qed.
