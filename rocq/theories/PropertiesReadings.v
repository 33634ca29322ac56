(** C56, C57: what becomes of a sensor message. *)

From Coq Require Import Reals ZArith Lra.
From mathcomp Require Import all_ssreflect all_algebra.
From Verif Require Import Geom GeomProofs RField Sensors SensorsProofs Cov CovSpec CovProofs Filter PropertiesFilter
  Readings ReadingsProofs.
Import Order.Theory GRing.Theory Num.Theory.

Set Implicit Arguments.
Unset Strict Implicit.
Unset Printing Implicit Defensive.
Local Open Scope ring_scope.

(** ** C56

    A pose (p, q) takes coordinates x to C(q) x + p.  Two poses are inverse to each other
    when one undoes the other. *)
Definition moved (z : v3 * quat) (x : v3) : v3 := v3add (m3vec (qrot z.2) x) z.1.
Definition inverse_poses (z z' : v3 * quat) : Prop := forall x, moved z' (moved z x) = x /\ moved z (moved z' x) = x.

Definition C56_full : Prop := forall fixed_covariance p q, qnorm2 q = IZR 1 ->
  inverse_poses (p, q) (pose_reading fixed_covariance false p q).

Lemma add_neg_r (a b : v3) : v3add (v3add a b) (v3neg b) = a.
Proof. case: a b => [? ? ?] [? ? ?]; rewrite /v3add /v3neg /=; f_equal; ring. Qed.
Lemma add_neg_l (a b : v3) : v3add (v3add a (v3neg b)) b = a.
Proof. case: a b => [? ? ?] [? ? ?]; rewrite /v3add /v3neg /=; f_equal; ring. Qed.

(** Missing: the setting with a fixed covariance. *)
Theorem C56_inverse_partial p q : qnorm2 q = IZR 1 -> inverse_poses (p, q) (pose_reading false false p q).
Proof.
move=> h x; rewrite /moved /pose_reading /=.
have h' : qnorm2 (qconj q) = IZR 1 by rewrite qnorm2_conj.
have e y : m3vec (qrot (qconj q)) (m3vec (qrot q) y) = y by have := qrot_conj_vec (qconj q) y h'; rewrite qconj_conj.
rewrite qrot_tr_conj m3neg_vec !m3vec_add m3vec_neg e !qrot_conj_vec //.
by rewrite add_neg_r add_neg_l.
Qed.
Print Assumptions C56_inverse_partial.

(** So a camera that publishes the inverse of its pose is read as that pose, and its attitude
    stays a unit quaternion. *)
Theorem C56_recovered_partial p q : qnorm2 q = IZR 1 ->
  let sent := pose_reading false false p q in
  pose_reading false false sent.1 sent.2 = (p, q) /\ qnorm2 sent.2 = IZR 1.
Proof.
move=> h; have h' : qnorm2 (qconj q) = IZR 1 by rewrite qnorm2_conj.
rewrite /pose_reading /= qconj_conj; split=> //; congr pair.
rewrite !qrot_tr_conj qconj_conj !m3neg_vec m3vec_neg qrot_conj_vec //.
by case: p => ? ? ?; rewrite /v3neg /=; f_equal; ring.
Qed.
Print Assumptions C56_recovered_partial.

(** Sensors that publish their own pose are read as they are, whatever the covariance. *)
Theorem C56_untouched fixed_covariance p q : pose_reading fixed_covariance true p q = (p, q).
Proof. by case: fixed_covariance. Qed.
Print Assumptions C56_untouched.

(** With a fixed covariance nothing is inverted. *)
Theorem C56_fixed_refuted : exists p q, qnorm2 q = IZR 1 /\ ~ inverse_poses (p, q) (pose_reading true false p q).
Proof.
exists (V3 (IZR 1) (IZR 0) (IZR 0)), qone; split; first by rewrite /qnorm2 /qone /=; ring.
move=> h; have [h1 _] := h v3zero; move: h1.
rewrite /pose_reading /moved /= qrot_one !m3eye_vec /v3add /v3zero /= => -[] e; lra.
Qed.
Print Assumptions C56_fixed_refuted.
Theorem C56_full_refuted : ~ C56_full.
Proof. by move=> h; have [p [q [hq hn]]] := C56_fixed_refuted; apply: hn; apply: h. Qed.
Print Assumptions C56_full_refuted.

(** A camera 2 m in front of the world's origin, turned by half a turn about the vertical. *)
Example C56_ex : pose_reading false false (V3 (IZR 2) (IZR 0) (IZR 0)) (Quat (IZR 0) (IZR 0) (IZR 0) (IZR 1)) =
    (V3 (IZR 2) (IZR 0) (IZR 0), Quat (IZR 0) (IZR 0) (IZR 0) (IZR (-1))) /\
  qnorm2 (Quat (IZR 0) (IZR 0) (IZR 0) (IZR 1)) = IZR 1.
Proof.
split; last by rewrite /qnorm2 /=; ring.
rewrite /pose_reading /= /m3vec /m3neg /m3tr /qrot /v3dot /v3neg /qconj /=; congr pair; f_equal; ring.
Qed.

(** ** C57

    A measurement handed to the filter carries symmetric and positive definite noise (the
    hypothesis [noise_pd] of C54, and of C18). *)

(** With fixed covariances, for every noise setting but zero. *)
Theorem C57_fixed_settings n n' fs g z z' cov has_cov ws p q a b m : n <> 0 -> n' <> 0 ->
  position_message true n fs g z cov = Some m \/
  pose_message has_cov true ws n n' fs g p q cov = Some m \/
  pressure_message n g z' = Some m \/
  angle_message true n fs g a b = Some m \/
  distance_message true n fs g z' = Some m ->
  noise_pd m.
Proof.
move=> h h'; rewrite /pose_message andbF; move=> [[<-]|[[<-]|[[<-]|[[<-]|[<-]]]]] /=; rewrite /position_noise /pose_noise; split;
  try exact: iso_sym; try exact: iso_pd.
- apply: (@diag_block_sym 6 1); last by rewrite /sym tr_scalar_mx.
  by apply: (@diag_block_sym 3 3); apply: iso_sym.
- apply: (@diag_block_pd 6 1); last exact: pd_scalar yaw_pos.
  by apply: (@diag_block_pd 3 3); apply: iso_pd.
Qed.
Print Assumptions C57_fixed_settings.

(** And which noise: the squared settings on the diagonal, of the position for the first three
    components of a pose and of the attitude for the next three, and 1e-6 for the yaw. *)
Definition diagonal n (A : 'M[R]_n) (d : nat -> R) : Prop := forall i j : 'I_n, A i j = if i == j then d i else 0.
Definition squares (n n' : R) (i : nat) : R :=
  if (i < 3)%N then n * n else if (i < 6)%N then n' * n' else Rdiv (IZR 1) (IZR 1000000).
Theorem C57_fixed_values n n' fs g z z' cov has_cov ws p q a b :
  [/\ exists Rm, position_message true n fs g z cov = Some (RPosition fs g z Rm) /\ diagonal Rm (fun _ => n * n),
      exists zp zq Rm, pose_message has_cov true ws n n' fs g p q cov = Some (RPose fs g zp zq Rm) /\ diagonal Rm (squares n n'),
      exists Rm, pressure_message n g z' = Some (RPressure g z' Rm) /\ diagonal Rm (fun _ => n * n),
      exists Rm, angle_message true n fs g a b = Some (RAngle fs g a b Rm) /\ diagonal Rm (fun _ => n * n) &
      exists Rm, distance_message true n fs g z' = Some (RDistance fs g z' Rm) /\ diagonal Rm (fun _ => n * n)].
Proof.
have hi m (s : R) : diagonal (iso m s) (fun _ => s * s) by move=> i j; rewrite mxE.
split; first by eexists; split; [reflexivity|exact: hi].
- rewrite /pose_message andbF; do 3 eexists; split; first reflexivity.
  rewrite /pose_noise /pose_noise_fixed /squares => i j; rewrite -!val_eqE /=.
  rewrite -(@splitK 6 1 i) -(@splitK 6 1 j).
  case: (@split 6 1 i) => i1; case: (@split 6 1 j) => j1.
  + rewrite [LHS](@block_mxEul _ 6 1 6 1) /= ltn_ord.
    rewrite -(@splitK 3 3 i1) -(@splitK 3 3 j1).
    case: (@split 3 3 i1) => i2; case: (@split 3 3 j1) => j2.
    * by rewrite [LHS](@block_mxEul _ 3 3 3 3) mxE /= ltn_ord.
    * by rewrite [LHS](@block_mxEur _ 3 3 3 3) mxE /= ltn_ord; case: eqP => // e; have := ltn_ord i2; rewrite e ltnNge leq_addr.
    * by rewrite [LHS](@block_mxEdl _ 3 3 3 3) mxE /=; case: eqP => // e; have := ltn_ord j2; rewrite -e ltnNge leq_addr.
    * by rewrite [LHS](@block_mxEdr _ 3 3 3 3) mxE /=.
  + rewrite [LHS](@block_mxEur _ 6 1 6 1) mxE /=; case: eqP => // e; have := ltn_ord i1; rewrite e ltnNge leq_addr //.
  + rewrite [LHS](@block_mxEdl _ 6 1 6 1) mxE /=; case: eqP => // e; have := ltn_ord j1; rewrite -e ltnNge leq_addr //.
  + by rewrite [LHS](@block_mxEdr _ 6 1 6 1) mxE (ord1 i1) (ord1 j1) /= mulr1n.
- by eexists; split; [reflexivity|exact: hi].
- by eexists; split; [reflexivity|exact: hi].
- by eexists; split; [reflexivity|exact: hi].
Qed.
Print Assumptions C57_fixed_values.

(** With covariances from the sensor, whenever those are symmetric and positive definite; also
    for inverted poses. *)
Theorem C57_sensor_covariance fs g z cov ws p q n n' m : qnorm2 q = IZR 1 ->
  position_message false n fs g z cov = Some m /\ sym (from_array 3 cov) /\ pd (from_array 3 cov) \/
  pose_message true false ws n n' fs g p q cov = Some m /\ sym (from_array 6 cov) /\ pd (from_array 6 cov) ->
  noise_pd m.
Proof.
move=> hq; case=> [[+ [hs hp]]|[[<-] [hs hp]]] /=.
  by rewrite /position_message; case: ifP => // _ [<-].
rewrite /pose_noise /pose_noise_sensor.
set raw : 'M[R]_(3 + 3) := from_array 6 cov.
have bs : sym (block_mx (ulsubmx raw) 0 0 (drsubmx raw)).
  apply: diag_block_sym; rewrite /sym.
  - by rewrite trmx_ulsub hs.
  - by rewrite trmx_drsub hs.
have bp : pd (block_mx (ulsubmx raw) 0 0 (drsubmx raw)).
  by apply: diag_block_pd; [apply: diag_block_ul|apply: diag_block_dr].
split.
- apply: (@diag_block_sym 6 1); last by rewrite /sym tr_scalar_mx.
  by case: ws => //; apply: turned_sym.
- apply: (@diag_block_pd 6 1); last exact: pd_scalar yaw_pos.
  by case: ws => //; apply: turned_pd => //; apply: block_unit.
Qed.
Print Assumptions C57_sensor_covariance.

(** And which: the entries of the message without the correlations of position and attitude, in
    the coordinates of the camera when the reading is inverted. *)
Definition entry (cov : nat -> R) (o i j : nat) : R := cov (o + i + 6 * (o + j))%N.
Definition turned (A : m3) (cov : nat -> R) (o i j : nat) : R :=
  \sum_(k < 3) \sum_(l < 3) m3at A k i * entry cov o k l * m3at A l j.
Theorem C57_sensor_values fs g z cov ws p q n n' :
  (forall m, position_message false n fs g z cov = Some m ->
     exists Rm, m = RPosition fs g z Rm /\ forall i j : 'I_3, Rm i j = cov (i + 3 * j)%N) /\
  exists zp zq (Rm : 'M[R]_(3 + 3 + 1)), pose_message true false ws n n' fs g p q cov = Some (RPose fs g zp zq Rm) /\
    [/\ forall i j : 'I_3, Rm (lshift 1 (lshift 3 i)) (lshift 1 (lshift 3 j)) = (if ws then entry cov 0 i j else turned (qrot q) cov 0 i j),
        forall i j : 'I_3, Rm (lshift 1 (rshift 3 i)) (lshift 1 (rshift 3 j)) = (if ws then entry cov 3 i j else turned (qrot q) cov 3 i j),
        forall i j : 'I_3, Rm (lshift 1 (lshift 3 i)) (lshift 1 (rshift 3 j)) = 0 /\ Rm (lshift 1 (rshift 3 j)) (lshift 1 (lshift 3 i)) = 0,
        forall i : 'I_6, Rm (lshift 1 i) (rshift 6 ord0) = 0 /\ Rm (rshift 6 ord0) (lshift 1 i) = 0 &
        Rm (rshift 6 ord0) (rshift 6 ord0) = Rdiv (IZR 1) (IZR 1000000)].
Proof.
split.
  by rewrite /position_message; case: ifP => // _ m [<-]; eexists; split; [reflexivity|move=> i j; rewrite mxE].
rewrite /pose_message; do 3 eexists; split; first reflexivity.
rewrite /pose_noise /pose_noise_sensor; set raw : 'M[R]_(3 + 3) := from_array 6 cov.
set C := mx3 (qrot q).
have tb (A : 'M[R]_3) (o : nat) (i j : 'I_3) : (forall k l : 'I_3, A k l = entry cov o k l) -> (C^T *m A *m C) i j = turned (qrot q) cov o i j.
  move=> hA; rewrite mxE /turned exchange_big; apply: eq_bigr => l _; rewrite mxE big_distrl; apply: eq_bigr => k _.
  by rewrite !mxE hA.
have e1 (k l : 'I_3) : ulsubmx raw k l = entry cov 0 k l by rewrite !mxE.
have e2 (k l : 'I_3) : drsubmx raw k l = entry cov 3 k l by rewrite !mxE.
have eB : (if ws then block_mx (ulsubmx raw) 0 0 (drsubmx raw) else
      (block_mx C 0 0 C)^T *m block_mx (ulsubmx raw) 0 0 (drsubmx raw) *m block_mx C 0 0 C) =
    block_mx (if ws then ulsubmx raw else C^T *m ulsubmx raw *m C) 0 0 (if ws then drsubmx raw else C^T *m drsubmx raw *m C).
  case: ws => //; rewrite tr_block_mx !trmx0 !mulmx_block.
  by rewrite !(mul0mx, mulmx0, addr0, add0r).
rewrite eB; clear eB; split.
- by move=> i j; rewrite !block_mxEul; case: ws => //; apply: tb.
- by move=> i j; rewrite block_mxEul block_mxEdr; case: ws => //; apply: tb.
- by move=> i j; rewrite !block_mxEul block_mxEur block_mxEdl !mxE.
- by move=> i; rewrite block_mxEur block_mxEdl !mxE.
- by rewrite block_mxEdr mxE mulr1n.
Qed.
Print Assumptions C57_sensor_values.

(** The handlers do not look at the rest of a covariance: a position message with variance only
    along x, and a pose message without any, are handed on. *)
Definition C57_full : Prop := forall has_cov fixed_covariance ws n n' fs g p q cov m, n <> 0 -> n' <> 0 -> qnorm2 q = IZR 1 ->
  position_message fixed_covariance n fs g p cov = Some m \/
  pose_message has_cov fixed_covariance ws n n' fs g p q cov = Some m -> noise_pd m.

Lemma not_pd n (Rm : 'M[R]_n) i : Rm i i = 0 -> ~ pd Rm.
Proof.
move=> h /(_ (delta_mx i 0)) hp.
have : 0 < qf Rm (delta_mx i 0).
  by apply: hp; apply/eqP => /matrixP /(_ i 0) /eqP; rewrite !mxE !eqxx oner_eq0.
rewrite /qf trmx_delta -rowE -colE mxE mxE h ltxx //.
Qed.

Theorem C57_position_refuted : exists fs g p cov m, position_message false 1 fs g p cov = Some m /\ ~ noise_pd m.
Proof.
exists Z0, (Gate false (IZR 0)), v3zero, (fun k => if k == 0%N then 1 else 0).
eexists; split; first by rewrite /position_message /= oner_eq0.
by move=> /= [_]; apply: (@not_pd _ _ (Ordinal (isT : 1 < 3)%N)); rewrite mxE.
Qed.
Print Assumptions C57_position_refuted.
Theorem C57_pose_refuted : exists fs g p q cov m, qnorm2 q = IZR 1 /\
  pose_message true false true 1 1 fs g p q cov = Some m /\ ~ noise_pd m.
Proof.
exists Z0, (Gate false (IZR 0)), v3zero, qone, (fun _ => 0).
eexists; split; first by rewrite /qnorm2 /qone /=; ring.
split; first by [].
move=> /= [_] h; apply: (@not_pd (3 + 3 + 1) _ (lshift 1 (lshift 3 ord0)) _ h).
rewrite /pose_noise /pose_noise_sensor.
by rewrite block_mxEul block_mxEul !mxE.
Qed.
Print Assumptions C57_pose_refuted.
Theorem C57_full_refuted : ~ C57_full.
Proof.
move=> h; have [fs [g [p [q [cov [m [hq [e hn]]]]]]]] := C57_pose_refuted.
have h1 : (1 : R) <> 0 by apply/eqP; exact: oner_neq0.
by apply: hn; apply: (h true false true 1 1 fs g p q cov m h1 h1 hq); right.
Qed.
Print Assumptions C57_full_refuted.

(** Definite noise never raises the warnings of MakeFromSensorReading, a zero noise setting
    always does. *)
Theorem C57_no_false_alarm n (Rm : 'M[R]_n.+1) : pd Rm -> ~~ warn_diagonal Rm /\ ~~ warn_unset Rm.
Proof.
move=> h; have hd i : Rm i i != 0 by apply/eqP => /not_pd /(_ h).
split; first by apply/existsPn.
apply/negP => /andP [/andP [/forallP h1 _] /forallP h2].
have := hd ord0; rewrite eq_le; move: (forallP (h1 ord0) ord0) (forallP (h2 ord0) ord0) => -> ->.
by [].
Qed.
Print Assumptions C57_no_false_alarm.
Theorem C57_zero_setting n s : warn_diagonal (iso n.+1 s) = (s == 0) /\ (warn_unset (iso n.+1 s) = (s == 0)).
Proof.
have d i : iso n.+1 s i i = s * s by rewrite mxE eqxx.
split.
- apply/existsP/eqP => [[i]|->]; last by exists ord0; rewrite mxE eqxx mul0r.
  by rewrite d mulf_eq0 orbb => /eqP.
- apply/idP/eqP => [/andP [/andP [/forallP h1 _] /forallP h2]|->].
  + have h : s * s == 0 by rewrite eq_le -(d ord0) (forallP (h1 ord0) ord0) (forallP (h2 ord0) ord0).
    by move: h; rewrite mulf_eq0 orbb => /eqP.
  + have z i j : iso n.+1 0 i j = 0 by rewrite mxE mul0r; case: ifP.
    apply/andP; split; first apply/andP; first split.
    * by apply/forallP => i; apply/forallP => j; rewrite z.
    * by apply/existsP; exists ord0; apply/existsP; exists ord0; rewrite z.
    * by apply/forallP => i; apply/forallP => j; rewrite z.
Qed.
Print Assumptions C57_zero_setting.

(** Messages the theorems speak about exist, also correlated ones. *)
Example C57_ex : exists cov m q, qnorm2 q = IZR 1 /\ sym (from_array 6 cov) /\ pd (from_array 6 cov) /\
  pose_message true false false 0 0 Z0 (Gate false (IZR 0)) v3zero q cov = Some m /\ noise_pd m /\
  position_message true (1 + 1) Z0 (Gate false (IZR 0)) v3zero cov <> None.
Proof.
pose cov := fun k : nat => (1%:M : 'M[R]_6) (inord (k %% 6)) (inord (k %/ 6)).
have e : from_array 6 cov = 1%:M.
  by apply/matrixP => i j; rewrite mxE /cov addnC mulnC modnMDl divnMDl // modn_small // divn_small // addn0 !inord_val.
have hs : sym (from_array 6 cov) by rewrite e /sym trmx1.
have hp : pd (from_array 6 cov) by rewrite e; apply: pd_scalar; rewrite ltr01.
have hq : qnorm2 qone = IZR 1 by rewrite /qnorm2 /qone /=; ring.
exists cov; eexists; exists qone; do 3 (split; first by []); split; first by [].
split; last by [].
apply: (@C57_sensor_covariance Z0 (Gate false (IZR 0)) v3zero cov false v3zero qone 0 0 _ hq); right; split; last by split; [exact hs|exact hp].
by rewrite /pose_message.
Qed.
