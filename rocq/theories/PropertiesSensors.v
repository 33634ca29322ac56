(** C38, C39: measurement models and initialisation. *)

From Coq Require Import Reals ZArith List Bool Arith Lia Lra.
From Verif Require Import Outcome Geom GeomProofs StateList Sensors SensorsSpec SensorsProofs PropertiesState.
Import ListNotations.
Open Scope R_scope.

(** ** C38

    The residual is reading minus prediction, so the claim is: along every curve of states
    through [s0] whose error-state velocity is [d], the residual changes with velocity
    [- H d].  Variables declared fixed do not move. *)

(** The curves the filter itself follows are such curves: correcting by [t] times an
    error vector turns a unit quaternion with that velocity. *)
Theorem C38_correction_curve : forall q w, qnorm2 q = 1 ->
  turns (fun t => qnormalize (qmul q (small_quat (v3scale t w)))) q w.
Proof. exact correction_turns. Qed.
Print Assumptions C38_correction_curve.

Theorem C38_position : forall n l fx s0 d (s : R -> pos_state) z,
  pos_ordered n (l_p l) (l_q l) (l_pip l) -> qnorm2 (a_q s0) = 1 ->
  moves (fun t => a_p (s t)) (a_p s0) (seg d (l_p l)) ->
  turns (fun t => a_q (s t)) (a_q s0) (seg d (l_q l)) ->
  moves (fun t => a_pip (s t)) (a_pip s0) (seg d (l_pip l)) ->
  (fx = true -> seg d (l_pip l) = v3zero) ->
  deriv3 (fun t => position_residual z (s t)) (v3neg (hmul3 n (position_H l fx s0) d 0)).
Proof. exact position_deriv. Qed.
Print Assumptions C38_position.

Theorem C38_pressure : forall n i_p i_bp d z (b : R -> R) (p : R -> v3) b0 p0,
  (i_p + 3 <= i_bp)%nat -> (i_bp < n)%nat ->
  varies b b0 (d i_bp) -> moves p p0 (seg d i_p) ->
  deriv (fun t => pressure_residual z (b t) (p t)) (- hmul n (pressure_H i_p i_bp) d 0).
Proof.
  intros n i_p i_bp d z b p b0 p0 H1 H2 [_ Hb] [_ (_ & _ & Hp)]. rewrite pressure_H_mul by assumption.
  unfold pressure_residual. cbn [seg v3z] in Hp. der. ring.
Qed.
Print Assumptions C38_pressure.

(** Position part of the pose: exact up to the block of [p_wv], which lacks the factor
    scale times world-to-vision rotation. *)
Theorem C38_pose_position : forall n l f s0 d (s : R -> pose_state) z_p z_q,
  pose_ordered n (k_p l) (k_q l) (k_L l) (k_qwv l) (k_pwv l) (k_qic l) (k_pic l) ->
  qnorm2 (b_q s0) = 1 -> qnorm2 (b_qwv s0) = 1 ->
  moves (fun t => b_p (s t)) (b_p s0) (seg d (k_p l)) -> turns (fun t => b_q (s t)) (b_q s0) (seg d (k_q l)) ->
  varies (fun t => b_L (s t)) (b_L s0) (d (k_L l)) -> turns (fun t => b_qwv (s t)) (b_qwv s0) (seg d (k_qwv l)) ->
  moves (fun t => b_pwv (s t)) (b_pwv s0) (seg d (k_pwv l)) -> moves (fun t => b_pic (s t)) (b_pic s0) (seg d (k_pic l)) ->
  (f_L f = true -> d (k_L l) = 0) -> (f_qwv f = true -> seg d (k_qwv l) = v3zero) ->
  (f_pic f = true -> seg d (k_pic l) = v3zero) -> (f_pwv f = true -> seg d (k_pwv l) = v3zero) ->
  (deriv3 (fun t => fst (fst (pose_residual z_p z_q (s t)))) (v3neg (hmul3 n (pose_H l f s0) d 0))
   <-> m3vec (m3scale (b_L s0) (qrot (b_qwv s0))) (seg d (k_pwv l)) = seg d (k_pwv l)).
Proof. exact pose_pos_deriv. Qed.
Print Assumptions C38_pose_position.

(** In particular it is exact when [p_wv] is not estimated. *)
Theorem C38_pose_position_fixed : forall n l f s0 d (s : R -> pose_state) z_p z_q,
  pose_ordered n (k_p l) (k_q l) (k_L l) (k_qwv l) (k_pwv l) (k_qic l) (k_pic l) ->
  qnorm2 (b_q s0) = 1 -> qnorm2 (b_qwv s0) = 1 ->
  moves (fun t => b_p (s t)) (b_p s0) (seg d (k_p l)) -> turns (fun t => b_q (s t)) (b_q s0) (seg d (k_q l)) ->
  varies (fun t => b_L (s t)) (b_L s0) (d (k_L l)) -> turns (fun t => b_qwv (s t)) (b_qwv s0) (seg d (k_qwv l)) ->
  moves (fun t => b_pwv (s t)) (b_pwv s0) (seg d (k_pwv l)) -> moves (fun t => b_pic (s t)) (b_pic s0) (seg d (k_pic l)) ->
  (f_L f = true -> d (k_L l) = 0) -> (f_qwv f = true -> seg d (k_qwv l) = v3zero) ->
  (f_pic f = true -> seg d (k_pic l) = v3zero) -> f_pwv f = true -> seg d (k_pwv l) = v3zero ->
  deriv3 (fun t => fst (fst (pose_residual z_p z_q (s t)))) (v3neg (hmul3 n (pose_H l f s0) d 0)).
Proof.
  intros n l f s0 d s z_p z_q Hl Hq Hw Hp Htq HL Htw Hpw Hpic FL Fw Fi Fp Fz.
  apply (pose_pos_deriv n l f s0 d s z_p z_q Hl Hq Hw Hp Htq HL Htw Hpw Hpic FL Fw Fi (fun _ => Fz)).
  rewrite Fz. apply m3vec_zero.
Qed.
Print Assumptions C38_pose_position_fixed.

(** Attitude part: the predicted attitude turns with [H d], and the residual, linearised
    at the predicted attitude, changes with [- H d]. *)
Theorem C38_pose_attitude : forall n l f s0 d (s : R -> pose_state),
  pose_ordered n (k_p l) (k_q l) (k_L l) (k_qwv l) (k_pwv l) (k_qic l) (k_pic l) ->
  qnorm2 (b_q s0) = 1 -> qnorm2 (b_qic s0) = 1 ->
  turns (fun t => b_q (s t)) (b_q s0) (seg d (k_q l)) -> turns (fun t => b_qwv (s t)) (b_qwv s0) (seg d (k_qwv l)) ->
  turns (fun t => b_qic (s t)) (b_qic s0) (seg d (k_qic l)) ->
  (f_qwv f = true -> seg d (k_qwv l) = v3zero) -> (f_qic f = true -> seg d (k_qic l) = v3zero) ->
  turns (fun t => pose_attitude (s t)) (pose_attitude s0) (hmul3 n (pose_H l f s0) d 3).
Proof. exact pose_attitude_turns. Qed.
Print Assumptions C38_pose_attitude.

Theorem C38_pose_attitude_residual : forall n l f s0 d (s : R -> pose_state) z_p,
  pose_ordered n (k_p l) (k_q l) (k_L l) (k_qwv l) (k_pwv l) (k_qic l) (k_pic l) ->
  qnorm2 (b_q s0) = 1 -> qnorm2 (b_qwv s0) = 1 -> qnorm2 (b_qic s0) = 1 ->
  turns (fun t => b_q (s t)) (b_q s0) (seg d (k_q l)) -> turns (fun t => b_qwv (s t)) (b_qwv s0) (seg d (k_qwv l)) ->
  turns (fun t => b_qic (s t)) (b_qic s0) (seg d (k_qic l)) ->
  (f_qwv f = true -> seg d (k_qwv l) = v3zero) -> (f_qic f = true -> seg d (k_qic l) = v3zero) ->
  deriv3 (fun t => snd (fst (pose_residual z_p (pose_attitude s0) (s t)))) (v3neg (hmul3 n (pose_H l f s0) d 3)).
Proof. exact pose_att_deriv. Qed.
Print Assumptions C38_pose_attitude_residual.

(** Distance, for an antenna at the origin of the body.  The block of the lever arm uses
    the transposed rotation, so along it the matrix is right only if this makes no
    difference.  Full statement: the same for every lever arm; refuted below. *)
Theorem C38_distance_partial : forall n l s0 d (s : R -> pos_state) z,
  pos_ordered n (l_p l) (l_q l) (l_pip l) -> qnorm2 (a_q s0) = 1 ->
  a_p s0 <> v3zero -> a_pip s0 = v3zero ->
  moves (fun t => a_p (s t)) (a_p s0) (seg d (l_p l)) ->
  turns (fun t => a_q (s t)) (a_q s0) (seg d (l_q l)) ->
  moves (fun t => a_pip (s t)) (a_pip s0) (seg d (l_pip l)) ->
  (deriv (fun t => distance_residual z (s t)) (- hmul n (distance_H l s0) d 0)
   <-> v3dot (m3vec (qrot (a_q s0)) (a_p s0)) (seg d (l_pip l)) = v3dot (a_p s0) (m3vec (qrot (a_q s0)) (seg d (l_pip l)))).
Proof.
  intros n l s0 d s z Hl Hq Hx H0 Hp Ht Hip. rewrite distance_H_mul by assumption.
  pose proof (radius_deriv _ _ _ (sensed_moves _ _ _ _ _ Hq Hp Ht Hip H0) Hx) as HD.
  pose proof (radius_pos _ Hx) as HR.
  assert (HS : deriv (fun t => distance_residual z (s t))
    (- ((v3dot (a_p s0) (seg d (l_p l)) + v3dot (a_p s0) (m3vec (qrot (a_q s0)) (seg d (l_pip l)))) / radius (a_p s0)))).
  { unfold distance_residual. eapply deriv_eq; [apply deriv_sub; [apply deriv_const|exact HD]|].
    unfold v3dot, v3add; cbn [v3x v3y v3z]. field. lra. }
  split; intros HH.
  - pose proof (deriv_unique _ _ _ HS HH) as E.
    apply (Rmult_eq_compat_r (radius (a_p s0))) in E. field_simplify in E; lra.
  - eapply deriv_eq; [exact HS|]. rewrite HH. field. lra.
Qed.
Print Assumptions C38_distance_partial.

(** Angles, for an antenna fixed at the origin of the body, away from the vertical axis
    and from the cut of the azimuth, and where the azimuth residual does not jump.
    Full statement: the same for every lever arm; refuted below. *)
Theorem C38_angle_partial : forall n l s0 d (s : R -> pos_state) z_theta z_phi phi0,
  pos_ordered n (l_p l) (l_q l) (l_pip l) -> qnorm2 (a_q s0) = 1 ->
  a_pip s0 = v3zero -> seg d (l_pip l) = v3zero ->
  v3y (a_p s0) <> 0 \/ 0 < v3x (a_p s0) ->
  phi_of (a_p s0) = Some phi0 -> Rabs (z_phi - phi0) <> PI ->
  moves (fun t => a_p (s t)) (a_p s0) (seg d (l_p l)) ->
  turns (fun t => a_q (s t)) (a_q s0) (seg d (l_q l)) ->
  moves (fun t => a_pip (s t)) (a_pip s0) (seg d (l_pip l)) ->
  oderiv (fun t => fst (angle_residual z_theta z_phi (s t))) (- hmul n (angle_H l s0) d 0) /\
  oderiv (fun t => snd (angle_residual z_theta z_phi (s t))) (- hmul n (angle_H l s0) d 1).
Proof.
  intros n l s0 d s z_theta z_phi phi0 Hl Hq H0 Hd Hx Hphi Hw Hp Ht Hip.
  assert (Hr : 0 < v3x (a_p s0) * v3x (a_p s0) + v3y (a_p s0) * v3y (a_p s0)).
  { pose proof (Rle_0_sqr (v3x (a_p s0))). pose proof (Rle_0_sqr (v3y (a_p s0))).
    destruct Hx as [Hx|Hx].
    - pose proof (Rsqr_pos_lt _ Hx). unfold Rsqr in *. lra.
    - assert (Hx2 : v3x (a_p s0) <> 0) by lra. pose proof (Rsqr_pos_lt _ Hx2). unfold Rsqr in *. lra. }
  rewrite !angle_H_mul by (try assumption; lia). cbv zeta.
  pose proof (sensed_moves _ _ _ _ _ Hq Hp Ht Hip H0) as HS.
  assert (Ed : v3add (seg d (l_p l)) (m3vec (qrot (a_q s0)) (seg d (l_pip l))) = seg d (l_p l)).
  { rewrite Hd, m3vec_zero. unfold v3add, v3zero, seg; cbn. f_equal; ring. }
  rewrite Ed in HS. split; unfold angle_residual; cbn [fst snd].
  - apply (oderiv_map (fun t => theta_of (sensed_point (s t))) _ (fun x => z_theta - x) z_theta (theta_deriv _ _ _ HS Hr)).
    destruct HS as [-> _].
    assert (Hne : a_p s0 <> v3zero) by (intros E; rewrite E in Hr; cbn in Hr; lra).
    pose proof (radius_pos _ Hne). exists 1, (acos (v3z (a_p s0) / radius (a_p s0))).
    split; [|split; [lra|reflexivity]].
    unfold theta_of. destruct (Req_EM_T (radius (a_p s0)) 0); [lra|reflexivity].
  - destruct (wrap_local z_phi phi0 Hw) as (e & c & He & Hc).
    apply (oderiv_map (fun t => phi_of (sensed_point (s t))) _ (fun x => wrap_residual (z_phi - x)) c (phi_deriv _ _ _ HS Hx)).
    destruct HS as [-> _]. exists e, phi0. repeat split; assumption.
Qed.
Print Assumptions C38_angle_partial.

(** The azimuth residual is the shortest way from the predicted azimuth to the measured one:
    at most half a turn, and the same angle up to whole turns.  [f] is any angle at which
    the sensed point is seen. *)
Theorem C38_angle_shortest : forall s z_theta z_phi rho f, 0 < rho ->
  v3x (sensed_point s) = rho * cos f -> v3y (sensed_point s) = rho * sin f ->
  v3y (sensed_point s) <> 0 \/ 0 < v3x (sensed_point s) -> - PI <= z_phi <= PI ->
  exists r, snd (angle_residual z_theta z_phi s) = Some r /\ - PI <= r <= PI /\
    cos r = cos (z_phi - f) /\ sin r = sin (z_phi - f).
Proof.
  intros s z_theta z_phi rho f Hr Hx Hy Hc Hz. pose proof PI_RGT_0 as HP.
  destruct (phi_of_azimuth _ _ _ Hr Hx Hy Hc) as (g & Hg & Gr & C & S).
  exists (wrap_residual (z_phi - g)). unfold angle_residual. cbn [snd]. rewrite Hg. split; [reflexivity|].
  destruct (wrap_shortest (z_phi - g)) as (A & B & D); [lra|]. split; [exact A|].
  rewrite B, D, !cos_minus, !sin_minus, C, S. split; reflexivity.
Qed.
Print Assumptions C38_angle_shortest.

(** A target just across the cut: predicted at three quarters of half a turn, measured at
    minus that, the residual is a quarter of a turn and not minus three. *)
Example C38_angle_shortest_ex :
  let s := PosState (V3 (- 1) 1 0) qone v3zero in
  exists rho, 0 < rho /\ v3x (sensed_point s) = rho * cos (3 * (PI / 4)) /\
    v3y (sensed_point s) = rho * sin (3 * (PI / 4)) /\ v3y (sensed_point s) <> 0 /\
    - PI <= - (3 * (PI / 4)) <= PI /\ snd (angle_residual 0 (- (3 * (PI / 4))) s) = Some (PI / 2).
Proof.
  cbv zeta. pose proof PI_RGT_0 as HP. exists (sqrt 2).
  assert (E : sensed_point (PosState (V3 (- 1) 1 0) qone v3zero) = V3 (- 1) 1 0).
  { unfold sensed_point, v3add, m3vec, qrot, qone, v3zero, v3dot. cbn. f_equal; ring. }
  rewrite E. cbn [v3x v3y].
  assert (Q : 0 < sqrt 2) by (apply sqrt_lt_R0; lra).
  replace (3 * (PI / 4)) with (PI - PI / 4) by lra.
  rewrite cos_minus, sin_minus, cos_PI, sin_PI, cos_PI4, sin_PI4.
  split; [exact Q|]. split; [field; lra|]. split; [field; lra|]. split; [lra|]. split; [lra|].
  unfold angle_residual. cbn [snd]. rewrite E, phi_upper by lra. f_equal.
  replace (- 1 / 1) with (- (1)) by field. rewrite atan_opp, atan_1. unfold wrap_residual.
  destruct (Rlt_dec (- (PI - PI / 4) - (PI / 2 - - (PI / 4))) (- PI)); [|lra].
  destruct (Rlt_dec PI (- (PI - PI / 4) - (PI / 2 - - (PI / 4)) + 2 * PI)); lra.
Qed.

(** Relative pose: the position rows are right with respect to both states, with the same
    proviso on [p_wv]. *)
Theorem C38_relative_position : forall n l f d dold old0 new0 (old new : R -> pose_state) z_p z_q z_p0 z_q0,
  deriv3 (fun t => fst (fst (pose_residual z_p z_q (new t)))) (v3neg (hmul3 n (pose_H l f new0) d 0)) ->
  deriv3 (fun t => fst (fst (pose_residual z_p0 z_q0 (old t)))) (v3neg (hmul3 n (pose_H l f old0) dold 0)) ->
  deriv3 (fun t => fst (fst (pose_rel_residual z_p0 z_q0 (old t) z_p z_q (new t))))
    (v3neg (v3add (hmul3 n (pose_H l f new0) d 0) (hmul3 n (pose_H_old l f old0) dold 0))).
Proof.
  intros n l f d dold old0 new0 old new z_p z_q z_p0 z_q0 H1 H2. cbn [pose_residual pose_rel_residual fst] in *.
  assert (Eo : hmul3 n (pose_H_old l f old0) dold 0 = v3neg (hmul3 n (pose_H l f old0) dold 0)).
  { assert (E : forall r, hmul n (pose_H_old l f old0) dold r = - hmul n (pose_H l f old0) dold r).
    { clear. intros r. unfold hmul, pose_H_old. induction n as [|m IH]; cbn [hsum]; [ring|rewrite IH; ring]. }
    unfold hmul3, v3neg; cbn [v3x v3y v3z]. rewrite !E. reflexivity. }
  rewrite Eo.
  eapply deriv3_ext with (f := fun t => v3sub (v3sub z_p (pose_position (new t))) (v3sub z_p0 (pose_position (old t)))).
  { intros t. unfold v3sub; cbn [v3x v3y v3z]. f_equal; ring. }
  eapply deriv3_eq; [apply deriv3_sub; [exact H1|exact H2]|].
  unfold v3sub, v3add, v3neg; cbn [v3x v3y v3z]. f_equal; ring.
Qed.
Print Assumptions C38_relative_position.

(** The attitude rows of a relative pose have the opposite sign: the residual grows with
    the error of the new attitude, seen from the old sensor frame. *)
Theorem C38_relative_attitude_sign : forall n l f old new0 d (new : R -> pose_state) z_p z_p0,
  pose_ordered n (k_p l) (k_q l) (k_L l) (k_qwv l) (k_pwv l) (k_qic l) (k_pic l) ->
  qnorm2 (pose_attitude old) = 1 ->
  qnorm2 (b_q new0) = 1 -> qnorm2 (b_qwv new0) = 1 -> qnorm2 (b_qic new0) = 1 ->
  turns (fun t => b_q (new t)) (b_q new0) (seg d (k_q l)) -> turns (fun t => b_qwv (new t)) (b_qwv new0) (seg d (k_qwv l)) ->
  turns (fun t => b_qic (new t)) (b_qic new0) (seg d (k_qic l)) ->
  (f_qwv f = true -> seg d (k_qwv l) = v3zero) -> (f_qic f = true -> seg d (k_qic l) = v3zero) ->
  deriv3 (fun t => snd (fst (pose_rel_residual z_p0 (pose_attitude old) old z_p (pose_attitude new0) (new t))))
    (m3vec (qrot (qmul (qconj (pose_attitude old)) (pose_attitude new0))) (hmul3 n (pose_H l f new0) d 3)).
Proof.
  intros n l f old new0 d new z_p z_p0 Hl Ho Hq Hw Hi Hq' Hw' Hi' Fw Fi. apply pose_rel_attitude.
  - exact Ho.
  - apply pose_attitude_unit; assumption.
  - eapply pose_attitude_turns; eassumption.
Qed.
Print Assumptions C38_relative_attitude_sign.

(** *** Concrete layouts *)

(** The position_msf and spherical_msf list: the core states and p_ip. *)
Definition position_list : list svar :=
  [Svar (KVec 3) 0 CoreProp 0; Svar (KVec 3) 1 CoreProp 0; Svar KQuat 2 CoreProp 0;
   Svar (KVec 3) 3 CoreNoProp 0; Svar (KVec 3) 4 CoreNoProp 0; Svar (KVec 3) 5 Aux 0].
(** pose_pressure_msf: the pose list and the pressure bias. *)
Definition pose_pressure_list : list svar := pose_list ++ [Svar (KVec 1) 10 Aux 0].
(** position_pose_msf: the pose list and p_ip. *)
Definition position_pose_list : list svar := pose_list ++ [Svar (KVec 3) 10 Aux 0].

Definition layout_of_pose (l : list svar) : res pose_layout :=
  let* p := start_of l 0 in let* q := start_of l 2 in let* L := start_of l 5 in
  let* qwv := start_of l 6 in let* pwv := start_of l 7 in let* qic := start_of l 8 in
  let* pic := start_of l 9 in Ok (PoseLayout p q L qwv pwv qic pic).
Definition layout_of_position (l : list svar) (k : nat) : res pos_layout :=
  let* p := start_of l 0 in let* q := start_of l 2 in let* pip := start_of l k in Ok (PosLayout p q pip).
Definition pose_lay : pose_layout := PoseLayout 0 6 15 16 19 22 25.
Definition pos_lay : pos_layout := PosLayout 0 6 15.

(** The indices the code computes at compile time are ordered as the theorems need. *)
Theorem C38_layouts :
  (forall l, In l [pose_list; pose_pressure_list; position_pose_list] ->
     layout_of_pose l = Ok pose_lay /\ compiles l /\
     pose_ordered (Z.to_nat (count_states corr_len l)) 0 6 15 16 19 22 25) /\
  layout_of_position position_list 5 = Ok pos_lay /\ compiles position_list /\
  pos_ordered (Z.to_nat (count_states corr_len position_list)) 0 6 15 /\
  layout_of_position position_pose_list 10 = Ok (PosLayout 0 6 28) /\
  pos_ordered (Z.to_nat (count_states corr_len position_pose_list)) 0 6 28 /\
  start_of pose_pressure_list 10 = Ok 28%nat /\ (28 < Z.to_nat (count_states corr_len pose_pressure_list))%nat.
Proof.
  split.
  - intros l Hl. cbn [In] in Hl.
    destruct Hl as [<-|[<-|[<-|[]]]]; (split; [reflexivity|split; [reflexivity|]]); unfold pose_ordered;
      match goal with |- context[Z.to_nat ?x] => let v := eval vm_compute in (Z.to_nat x) in change (Z.to_nat x) with v end; lia.
  - split; [reflexivity|]. split; [reflexivity|]. unfold pos_ordered.
    change (Z.to_nat (count_states corr_len position_list)) with 18%nat.
    change (Z.to_nat (count_states corr_len position_pose_list)) with 31%nat.
    change (Z.to_nat (count_states corr_len pose_pressure_list)) with 29%nat.
    split; [lia|]. split; [reflexivity|]. split; [lia|]. split; [reflexivity|lia].
Qed.
Print Assumptions C38_layouts.

(** *** Examples and refutations *)

(** Velocity [w] in three entries from [i] on. *)
Definition unit_dir (i : nat) (w : v3) : nat -> R := fun c => if (c <? i)%nat then 0 else if (c <? i + 3)%nat then v3at w (c - i)%nat else 0.

Lemma moves_line : forall x d, moves (fun t => v3add x (v3scale t d)) x d.
Proof.
  intros [a b c] [u v w]. split; [unfold v3add, v3scale; cbn; f_equal; ring|].
  s3; cbn; der; ring.
Qed.
Lemma moves_stay : forall x, moves (fun _ => x) x v3zero.
Proof. intros x. split; [reflexivity|apply deriv3_const]. Qed.
Lemma varies_stay : forall x, varies (fun _ => x) x 0.
Proof. intros x. split; [reflexivity|apply deriv_const]. Qed.

(** Moving, turning and a moving lever arm at the same time. *)
Definition ex_q : quat := Quat (4/5) 0 (3/5) 0.
Lemma ex_q_unit : qnorm2 ex_q = 1. Proof. unfold qnorm2, ex_q; cbn. field. Qed.
Example C38_position_ex :
  let d := fun c => INR c in
  let s0 := PosState (V3 1 2 3) ex_q (V3 0 1 0) in
  let s := fun t => PosState (v3add (a_p s0) (v3scale t (seg d 0)))
    (qnormalize (qmul (a_q s0) (small_quat (v3scale t (seg d 6))))) (v3add (a_pip s0) (v3scale t (seg d 15))) in
  deriv3 (fun t => position_residual (V3 5 5 5) (s t)) (v3neg (hmul3 18 (position_H pos_lay false s0) d 0)).
Proof.
  cbv zeta. apply C38_position; cbn [a_p a_q a_pip l_p l_q l_pip pos_lay].
  - unfold pos_ordered. lia.
  - exact ex_q_unit.
  - apply moves_line.
  - apply C38_correction_curve. exact ex_q_unit.
  - apply moves_line.
  - discriminate.
Qed.

Example C38_pose_ex :
  let d := fun c => if (c =? 19)%nat then 0 else if (c =? 20)%nat then 0 else if (c =? 21)%nat then 0 else INR c in
  let s0 := PoseState (V3 1 2 3) ex_q 2 ex_q (V3 1 0 0) ex_q (V3 0 1 0) in
  let tq := fun q w t => qnormalize (qmul q (small_quat (v3scale t w))) in
  let s := fun t => PoseState (v3add (b_p s0) (v3scale t (seg d 0))) (tq ex_q (seg d 6) t) (2 + t * d 15%nat)
    (tq ex_q (seg d 16) t) (v3add (b_pwv s0) (v3scale t (seg d 19))) (tq ex_q (seg d 22) t) (v3add (b_pic s0) (v3scale t (seg d 25))) in
  let f := PoseFixed false false false false true in
  deriv3 (fun t => fst (fst (pose_residual (V3 5 5 5) ex_q (s t)))) (v3neg (hmul3 28 (pose_H pose_lay f s0) d 0)) /\
  deriv3 (fun t => snd (fst (pose_residual (V3 5 5 5) (pose_attitude s0) (s t)))) (v3neg (hmul3 28 (pose_H pose_lay f s0) d 3)).
Proof.
  cbv zeta. set (d := fun c => if (c =? 19)%nat then 0 else if (c =? 20)%nat then 0 else if (c =? 21)%nat then 0 else INR c).
  assert (HL : varies (fun t => 2 + t * d 15%nat) 2 (d 15%nat)).
  { split; [cbv beta; ring|]. der. ring. }
  split; [apply C38_pose_position_fixed|apply C38_pose_attitude_residual];
    cbn [k_p k_q k_L k_qwv k_pwv k_qic k_pic pose_lay b_p b_q b_L b_qwv b_pwv b_qic b_pic f_L f_pic f_qic f_qwv f_pwv];
    try (unfold pose_ordered; lia); try exact ex_q_unit; try apply moves_line; try (apply C38_correction_curve; exact ex_q_unit);
    try discriminate; try exact HL; reflexivity.
Qed.

(** The block of [p_wv] is wrong: scale 2. *)
Theorem C38_pose_position_refuted : exists n l f s0 d (s : R -> pose_state) z_p z_q,
  pose_ordered n (k_p l) (k_q l) (k_L l) (k_qwv l) (k_pwv l) (k_qic l) (k_pic l) /\ f = PoseFixed false false false false false /\
  qnorm2 (b_q s0) = 1 /\ qnorm2 (b_qwv s0) = 1 /\
  moves (fun t => b_p (s t)) (b_p s0) (seg d (k_p l)) /\ turns (fun t => b_q (s t)) (b_q s0) (seg d (k_q l)) /\
  varies (fun t => b_L (s t)) (b_L s0) (d (k_L l)) /\ turns (fun t => b_qwv (s t)) (b_qwv s0) (seg d (k_qwv l)) /\
  moves (fun t => b_pwv (s t)) (b_pwv s0) (seg d (k_pwv l)) /\ moves (fun t => b_pic (s t)) (b_pic s0) (seg d (k_pic l)) /\
  ~ deriv3 (fun t => fst (fst (pose_residual z_p z_q (s t)))) (v3neg (hmul3 n (pose_H l f s0) d 0)).
Proof.
  set (d := unit_dir 19 (V3 1 0 0)).
  set (s0 := PoseState v3zero qone 2 qone v3zero qone v3zero).
  exists 28%nat, pose_lay, (PoseFixed false false false false false), s0, d,
    (fun t => PoseState v3zero qone 2 qone (v3add v3zero (v3scale t (V3 1 0 0))) qone v3zero), v3zero, qone.
  assert (Hone : qnorm2 qone = 1) by (unfold qnorm2, qone; cbn; ring).
  assert (HT : turns (fun _ => qone) qone v3zero) by apply turns_const.
  assert (Hp : moves (fun t => v3add v3zero (v3scale t (V3 1 0 0))) v3zero (seg d 19)) by apply moves_line.
  assert (H0 : moves (fun _ : R => v3zero) v3zero v3zero) by apply moves_stay.
  repeat match goal with |- _ /\ _ => split end; try reflexivity; try exact Hone; try exact HT; try exact Hp; try exact H0.
  - unfold pose_ordered; cbn; lia.
  - apply varies_stay.
  - intros HD.
    assert (HI := pose_pos_deriv 28 pose_lay (PoseFixed false false false false false) s0 d
      (fun t => PoseState v3zero qone 2 qone (v3add v3zero (v3scale t (V3 1 0 0))) qone v3zero) v3zero qone).
    cbn [b_p b_q b_L b_qwv b_pwv b_qic b_pic s0 k_p k_q k_L k_qwv k_pwv k_qic k_pic pose_lay f_L f_qwv f_pic f_pwv] in HI.
    assert (E : m3vec (m3scale 2 (qrot qone)) (seg d 19) = seg d 19).
    { apply HI; try discriminate; try exact HD; try exact Hone; try exact HT; try exact Hp; try exact H0.
      - unfold lpose_ok, pose_ordered; cbn; lia.
      - apply varies_stay. }
    injection E as E _ _. unfold d, unit_dir, v3dot in E. cbn in E. lra.
Qed.
Print Assumptions C38_pose_position_refuted.

(** The seventh row of the matrix is zero although the yaw of [q_wv] enters the residual. *)
Theorem C38_pose_yaw_refuted : exists n l f s0 d (s : R -> pose_state),
  pose_ordered n (k_p l) (k_q l) (k_L l) (k_qwv l) (k_pwv l) (k_qic l) (k_pic l) /\ f = PoseFixed false false false false false /\
  qnorm2 (b_qwv s0) = 1 /\ turns (fun t => b_qwv (s t)) (b_qwv s0) (seg d (k_qwv l)) /\
  (forall t, b_p (s t) = b_p s0 /\ b_q (s t) = b_q s0 /\ b_L (s t) = b_L s0 /\ b_pwv (s t) = b_pwv s0 /\
             b_qic (s t) = b_qic s0 /\ b_pic (s t) = b_pic s0) /\
  hmul n (pose_H l f s0) d 6 = 0 /\ deriv (fun t => yaw_residual (s t)) (-1).
Proof.
  set (s := fun t => PoseState v3zero qone 1 (Quat 1 0 0 (t / 2)) v3zero qone v3zero).
  assert (D0 : deriv (fun t => t / 2) (1 / 2)).
  { eapply deriv_eq; [apply deriv_div; [apply deriv_id|apply deriv_const|lra]|]. cbv beta. field. }
  exists 28%nat, pose_lay, (PoseFixed false false false false false), (s 0), (unit_dir 16 (V3 0 0 1)), s.
  split; [unfold pose_ordered; cbn; lia|]. split; [reflexivity|].
  split; [unfold qnorm2, s; cbn; field|]. split; [|split; [|split]].
  - split; [reflexivity|]. unfold s. cbn [b_qwv k_qwv pose_lay]. s4; cbn; (eapply deriv_eq; [first [apply deriv_const|exact D0]|cbn; field]).
  - intros t. repeat split; reflexivity.
  - apply pose_H_row6.
  - unfold yaw_residual, s. cbn [b_qwv qw qx qy qz].
    eapply deriv_eq; [apply deriv_div; [dd|dd|cbv beta; lra]|]. cbv beta. field.
Qed.
Print Assumptions C38_pose_yaw_refuted.

(** With a lever arm the distance and angle matrices differentiate at the wrong point:
    moving along the line of sight of the vehicle. *)
Definition arm_state (t : R) : pos_state := PosState (v3add (V3 1 0 0) (v3scale t (V3 0 1 0))) qone (V3 0 1 0).
Lemma arm_sensed : forall t, sensed_point (arm_state t) = V3 1 (1 + t) 0.
Proof.
  intros t. rewrite sensed_eq. unfold arm_state; cbn [a_p a_q a_pip]. rewrite qrot_one, m3eye_vec.
  unfold v3add, v3scale; cbn. f_equal; ring.
Qed.
Lemma arm_moves : moves (fun t => sensed_point (arm_state t)) (V3 1 1 0) (V3 0 1 0).
Proof.
  split; [rewrite arm_sensed; f_equal; ring|].
  eapply deriv3_ext with (f := fun t => V3 1 (1 + t) 0); [intros t; symmetry; apply arm_sensed|].
  s3; cbn; der; ring.
Qed.
Theorem C38_distance_refuted : exists n l s0 d (s : R -> pos_state) z,
  pos_ordered n (l_p l) (l_q l) (l_pip l) /\ qnorm2 (a_q s0) = 1 /\ sensed_point s0 <> v3zero /\ a_p s0 <> v3zero /\
  moves (fun t => a_p (s t)) (a_p s0) (seg d (l_p l)) /\
  turns (fun t => a_q (s t)) (a_q s0) (seg d (l_q l)) /\
  moves (fun t => a_pip (s t)) (a_pip s0) (seg d (l_pip l)) /\
  ~ deriv (fun t => distance_residual z (s t)) (- hmul n (distance_H l s0) d 0).
Proof.
  exists 18%nat, pos_lay, (PosState (V3 1 0 0) qone (V3 0 1 0)), (unit_dir 0 (V3 0 1 0)), arm_state, 1.
  split; [unfold pos_ordered; cbn; lia|]. split; [unfold qnorm2, qone; cbn; ring|].
  split. { rewrite sensed_eq; cbn [a_p a_q a_pip]. rewrite qrot_one, m3eye_vec. intros E. injection E as E1 E2 _. lra. }
  split. { intros E. injection E as E. lra. }
  split; [apply moves_line|]. split; [apply turns_const|]. split; [apply moves_stay|].
  intros HD.
  pose proof (radius_deriv _ _ _ arm_moves) as HR.
  assert (H1 : V3 1 1 0 <> v3zero) by (intros E; injection E as E _; lra). specialize (HR H1).
  pose proof (radius_pos _ H1) as HP.
  assert (E : - (v3dot (V3 1 1 0) (V3 0 1 0) / radius (V3 1 1 0)) = - hmul 18 (distance_H pos_lay (PosState (V3 1 0 0) qone (V3 0 1 0))) (unit_dir 0 (V3 0 1 0)) 0).
  { eapply deriv_unique; [|exact HD]. unfold distance_residual.
    eapply deriv_eq; [apply deriv_sub; [apply deriv_const|exact HR]|]. ring. }
  assert (Z : hmul 18 (distance_H pos_lay (PosState (V3 1 0 0) qone (V3 0 1 0))) (unit_dir 0 (V3 0 1 0)) 0 = 0).
  { unfold hmul. apply hsum_zero. intros c Hc.
    do 18 (destruct c as [|c]; [unfold distance_H, put13, put, unit_dir, pos_lay; cbn; unfold Rdiv; ring|]). lia. }
  rewrite Z in E. unfold v3dot in E; cbn [v3x v3y v3z] in E.
  assert (E2 : 1 / radius (V3 1 1 0) = 0).
  { replace (1 * 0 + 1 * 1 + 0 * 0) with 1 in E by ring. lra. }
  assert (E3 : 1 = 0); [|lra].
  apply (Rmult_eq_compat_r (radius (V3 1 1 0))) in E2. unfold Rdiv in E2. rewrite Rmult_assoc, Rinv_l in E2 by lra. lra.
Qed.
Print Assumptions C38_distance_refuted.

Theorem C38_angle_refuted : exists n l s0 d (s : R -> pos_state) z_theta z_phi,
  pos_ordered n (l_p l) (l_q l) (l_pip l) /\ qnorm2 (a_q s0) = 1 /\
  moves (fun t => a_p (s t)) (a_p s0) (seg d (l_p l)) /\
  turns (fun t => a_q (s t)) (a_q s0) (seg d (l_q l)) /\
  moves (fun t => a_pip (s t)) (a_pip s0) (seg d (l_pip l)) /\
  hmul n (angle_H l s0) d 1 = 1 /\
  oderiv (fun t => snd (angle_residual z_theta z_phi (s t))) (- (1 / 2)).
Proof.
  exists 18%nat, pos_lay, (PosState (V3 1 0 0) qone (V3 0 1 0)), (unit_dir 0 (V3 0 1 0)), arm_state, 0, 0.
  split; [unfold pos_ordered; cbn; lia|]. split; [unfold qnorm2, qone; cbn; ring|].
  split; [apply moves_line|]. split; [apply turns_const|]. split; [apply moves_stay|]. split.
  - unfold angle_H. cbv zeta.
    rewrite put23_mul by (try (cbn; lia); intros j Hj; rewrite !put_out by (cbn; lia); reflexivity).
    rewrite put23_mul by (try (cbn; lia); intros j Hj; rewrite !put_out by (cbn; lia); reflexivity).
    rewrite put23_mul by (try (cbn; lia); intros j Hj; reflexivity).
    rewrite hmul_hzero. unfold v3dot, seg, unit_dir, pos_lay. cbn. field.
  - pose proof (phi_deriv _ _ _ arm_moves) as HP. cbn [v3x v3y v3z] in HP.
    assert (H1 : 1 <> 0 \/ 0 < 1) by (right; lra). specialize (HP H1).
    replace ((1 * 1 - 1 * 0) / (1 * 1 + 1 * 1)) with (1 / 2) in HP by field.
    unfold angle_residual; cbn [snd].
    apply (oderiv_map (fun t => phi_of (sensed_point (arm_state t))) _ (fun x => wrap_residual (0 - x)) 0 HP).
    exists (PI / 2), (PI / 4). pose proof PI_RGT_0 as HPI. split; [|split; [lra|]].
    + rewrite arm_sensed, phi_right by lra. f_equal. replace ((1 + 0) / 1) with 1 by field. apply atan_1.
    + intros x Hx. apply Rabs_def2 in Hx. apply wrap_id. lra.
Qed.
Print Assumptions C38_angle_refuted.

(** Relative attitude: one unit of attitude error raises the residual by one. *)
Theorem C38_relative_attitude_refuted : exists n l f old new0 d (new : R -> pose_state) z_p z_p0,
  pose_ordered n (k_p l) (k_q l) (k_L l) (k_qwv l) (k_pwv l) (k_qic l) (k_pic l) /\
  qnorm2 (b_q new0) = 1 /\ qnorm2 (b_qwv new0) = 1 /\ qnorm2 (b_qic new0) = 1 /\
  turns (fun t => b_q (new t)) (b_q new0) (seg d (k_q l)) /\ turns (fun t => b_qwv (new t)) (b_qwv new0) (seg d (k_qwv l)) /\
  turns (fun t => b_qic (new t)) (b_qic new0) (seg d (k_qic l)) /\
  ~ deriv3 (fun t => snd (fst (pose_rel_residual z_p0 (pose_attitude old) old z_p (pose_attitude new0) (new t))))
     (v3neg (hmul3 n (pose_H l f new0) d 3)).
Proof.
  set (f := PoseFixed false false false false false). set (w := V3 0 0 1).
  set (new := fun t => PoseState v3zero (qnormalize (qmul qone (small_quat (v3scale t w)))) 1 qone v3zero qone v3zero).
  set (o := PoseState v3zero qone 1 qone v3zero qone v3zero).
  assert (Hone : qnorm2 qone = 1) by (unfold qnorm2, qone; cbn; ring).
  assert (Hl : pose_ordered 28 (k_p pose_lay) (k_q pose_lay) (k_L pose_lay) (k_qwv pose_lay) (k_pwv pose_lay) (k_qic pose_lay) (k_pic pose_lay))
    by (unfold pose_ordered; cbn; lia).
  assert (HT : turns (fun t => b_q (new t)) (b_q o) (seg (unit_dir 6 w) 6)) by (apply C38_correction_curve; exact Hone).
  assert (Ho : qnorm2 (pose_attitude o) = 1) by (apply pose_attitude_unit; exact Hone).
  exists 28%nat, pose_lay, f, o, o, (unit_dir 6 w), new, v3zero, v3zero.
  split; [exact Hl|]. split; [exact Hone|]. split; [exact Hone|]. split; [exact Hone|].
  split; [exact HT|]. split; [apply turns_const|]. split; [apply turns_const|].
  intros HD.
  pose proof (C38_relative_attitude_sign 28 pose_lay f o o (unit_dir 6 w) new v3zero v3zero Hl Ho Hone Hone Hone HT
    (turns_const _) (turns_const _) (fun H => False_ind _ (Bool.diff_false_true H)) (fun H => False_ind _ (Bool.diff_false_true H))) as HS.
  pose proof (deriv3_unique _ _ _ HS HD) as E. rewrite qmul_conj_l, Ho in E. change (Quat 1 0 0 0) with qone in E.
  rewrite qrot_one, m3eye_vec in E. rewrite pose_H_mul_att in E by exact Hl.
  unfold o, f in E. cbn [b_q b_qic f_qwv f_qic] in E. rewrite qconj_one, qrot_one, m3eye_vec in E.
  apply (f_equal v3z) in E. unfold seg, unit_dir, v3dot in E. cbn in E. unfold v3dot in E. cbn in E. lra.
Qed.
Print Assumptions C38_relative_attitude_refuted.

Example C38_distance_ex : exists s0 (s : R -> pos_state) d,
  a_pip s0 = v3zero /\ a_p s0 = V3 3 0 4 /\
  deriv (fun t => distance_residual 1 (s t)) (- hmul 18 (distance_H pos_lay s0) d 0) /\ hmul 18 (distance_H pos_lay s0) d 0 = 3 / 5.
Proof.
  exists (PosState (V3 3 0 4) ex_q v3zero),
    (fun t => PosState (v3add (V3 3 0 4) (v3scale t (V3 1 0 0))) ex_q v3zero), (unit_dir 0 (V3 1 0 0)).
  assert (HO : pos_ordered 18 (l_p pos_lay) (l_q pos_lay) (l_pip pos_lay)) by (unfold pos_ordered; cbn; lia).
  split; [reflexivity|]. split; [reflexivity|]. split.
  - apply (C38_distance_partial 18 pos_lay (PosState (V3 3 0 4) ex_q v3zero)); cbn [a_p a_q a_pip].
    + exact HO.
    + exact ex_q_unit.
    + intros E; injection E as E _; lra.
    + reflexivity.
    + apply moves_line.
    + apply turns_const.
    + apply moves_stay.
    + unfold seg, unit_dir, pos_lay, v3dot. cbn. unfold v3dot. cbn. ring.
  - rewrite distance_H_mul by (try exact HO; reflexivity). cbn [a_p a_q].
    replace (radius (V3 3 0 4)) with 5.
    + unfold v3dot, seg, unit_dir, pos_lay. cbn. field.
    + unfold radius; cbn [v3x v3y v3z]. symmetry. apply sqrt_lem_1; lra.
Qed.

(** ** C39 *)

Theorem C39_position : forall yaw p_vc p_ip,
  position_residual p_vc (position_init yaw p_vc p_ip) = v3zero.
Proof. exact position_init_ok. Qed.
Print Assumptions C39_position.

(** The reading need not be normalised; the configured calibration is. *)
Theorem C39_pose : forall scale p_vc q_cv p_ic q_ic0, scale <> 0 -> qnorm2 q_ic0 <> 0 ->
  pose_residual p_vc q_cv (pose_init true scale p_vc q_cv p_ic q_ic0) = (v3zero, v3zero, 0).
Proof. exact pose_init_ok. Qed.
Print Assumptions C39_pose.

Theorem C39_pose_pressure_pose : forall scale p_vc q_vc p_ic q_ic0 z, scale <> 0 -> qnorm2 q_ic0 <> 0 ->
  pose_residual p_vc q_vc (fst (pose_pressure_init true scale p_vc q_vc p_ic q_ic0 z)) = (v3zero, v3zero, 0).
Proof. intros. rewrite pose_pressure_pose. apply pose_init_ok; assumption. Qed.
Print Assumptions C39_pose_pressure_pose.

(** The pressure bias is computed from the camera height, the residual from the body
    height. *)
Theorem C39_pressure : forall scale p_vc q_vc p_ic q_ic0 z s b, scale <> 0 ->
  pose_pressure_init true scale p_vc q_vc p_ic q_ic0 z = (s, b) ->
  pressure_residual z b (b_p s) = v3z (m3vec (qrot (b_q s)) p_ic).
Proof.
  intros scale p_vc q_vc p_ic q_ic0 z s b Hs E. pose proof (pose_pressure_bias scale p_vc q_vc p_ic q_ic0 z Hs) as H.
  rewrite E in H. exact H.
Qed.
Print Assumptions C39_pressure.
Theorem C39_pressure_refuted : exists scale p_vc q_vc p_ic q_ic0 z,
  scale <> 0 /\ qnorm2 q_vc = 1 /\ qnorm2 q_ic0 = 1 /\
  pressure_residual z (snd (pose_pressure_init true scale p_vc q_vc p_ic q_ic0 z))
    (b_p (fst (pose_pressure_init true scale p_vc q_vc p_ic q_ic0 z))) <> 0.
Proof.
  exists 1, v3zero, qone, (V3 0 0 1), qone, 0.
  assert (Hone : qnorm2 qone = 1) by (unfold qnorm2, qone; cbn; ring).
  split; [lra|]. split; [exact Hone|]. split; [exact Hone|].
  pose proof (pose_pressure_bias 1 v3zero qone (V3 0 0 1) qone 0 ltac:(lra)) as H.
  destruct (pose_pressure_init true 1 v3zero qone (V3 0 0 1) qone 0) as [s b] eqn:E. cbn [fst snd].
  rewrite H. unfold pose_pressure_init in E. injection E as Es _. subst s. cbn [b_q].
  rewrite (qnormalize_id qone) by exact Hone. rewrite qmul_1_r, qconj_one, qmul_1_r, qconj_one, (qnormalize_id qone) by exact Hone.
  rewrite qrot_one, m3eye_vec. cbn. lra.
Qed.
Print Assumptions C39_pressure_refuted.

(** position_pose: both sensors, except for the yaw row of the pose. *)
Theorem C39_position_pose_partial : forall scale yaw p_pos p_vc q_vc p_ic q_ic0 p_ip s a,
  scale <> 0 -> qnorm2 q_vc = 1 -> qnorm2 q_ic0 <> 0 ->
  position_pose_init scale yaw p_pos p_vc q_vc p_ic q_ic0 p_ip = (s, a) ->
  fst (pose_residual p_vc q_vc s) = (v3zero, v3zero) /\ position_residual p_pos a = v3zero.
Proof.
  intros scale yaw p_pos p_vc q_vc p_ic q_ic0 p_ip s a Hs Hv Hq E.
  pose proof (position_pose_init_ok scale yaw p_pos p_vc q_vc p_ic q_ic0 p_ip Hs Hv Hq) as H. rewrite E in H. exact H.
Qed.
Print Assumptions C39_position_pose_partial.
Lemma yaw_quat_0 : yaw_quat 0 = qone.
Proof.
  unfold yaw_quat. replace (0 / 180 * PI / 2) with 0 by field. rewrite cos_0, sin_0. apply qnormalize_id.
  unfold qnorm2; cbn. ring.
Qed.
Theorem C39_position_pose_refuted : exists scale yaw p_pos p_vc q_vc p_ic q_ic0 p_ip,
  scale <> 0 /\ qnorm2 q_vc = 1 /\ qnorm2 q_ic0 = 1 /\
  snd (pose_residual p_vc q_vc (fst (position_pose_init scale yaw p_pos p_vc q_vc p_ic q_ic0 p_ip))) <> 0.
Proof.
  exists 1, 0, v3zero, v3zero, (Quat (4/5) 0 0 (3/5)), v3zero, qone, v3zero.
  assert (Hone : qnorm2 qone = 1) by (unfold qnorm2, qone; cbn; ring).
  split; [lra|]. split; [unfold qnorm2; cbn; field|]. split; [exact Hone|].
  unfold position_pose_init. rewrite yaw_quat_0, (qnormalize_id qone) by exact Hone. rewrite !qmul_1_l.
  unfold pose_residual, yaw_residual. cbn [fst snd b_qwv]. rewrite qconj_conj. cbn [qw qx qy qz]. lra.
Qed.
Print Assumptions C39_position_pose_refuted.

(** Spherical sensor. *)
Theorem C39_distance : forall yaw d theta phi p_ip, 0 <= d ->
  distance_residual d (spherical_init yaw d theta phi p_ip) = 0.
Proof.
  intros yaw d theta phi p_ip Hd. unfold distance_residual, spherical_init. rewrite sensed_init, radius_spherical by exact Hd. ring.
Qed.
Print Assumptions C39_distance.
Theorem C39_angle : forall yaw d theta phi p_ip, 0 < d -> 0 < theta < PI -> - PI < phi < PI ->
  angle_residual theta phi (spherical_init yaw d theta phi p_ip) = (Some 0, Some 0).
Proof.
  intros yaw d theta phi p_ip Hd Ht Hp. unfold angle_residual, spherical_init. rewrite sensed_init.
  rewrite theta_spherical by lra. rewrite phi_spherical by assumption. pose proof PI_RGT_0.
  rewrite wrap_id by lra. f_equal; f_equal; ring.
Qed.
Print Assumptions C39_angle.
(** On the negative x axis the azimuth is taken to be 0 instead of pi. *)
Theorem C39_angle_refuted : exists yaw d theta p_ip, 0 < d /\ 0 < theta < PI /\
  angle_residual theta PI (spherical_init yaw d theta PI p_ip) = (Some 0, Some PI).
Proof.
  exists 0, 1, (PI / 2), v3zero. pose proof PI_RGT_0 as HP. split; [lra|]. split; [lra|].
  unfold angle_residual, spherical_init. rewrite sensed_init, theta_spherical by lra.
  unfold spherical_point. rewrite sin_PI2, cos_PI, sin_PI. unfold phi_of, atan_div; cbn [v3x v3y v3z].
  destruct (Req_EM_T (1 * 1 * -1) 0); [lra|]. destruct (Rlt_dec (1 * 1 * -1) 0); [|lra].
  destruct (Rlt_dec (1 * 1 * 0) 0); [lra|]. destruct (Rlt_dec 0 (1 * 1 * 0)); [lra|].
  replace (1 * 1 * 0 / (1 * 1 * -1)) with 0 by field. rewrite atan_0, wrap_id by lra. f_equal; f_equal; ring.
Qed.
Print Assumptions C39_angle_refuted.

Example C39_ex : exists scale p_vc q_cv p_ic q_ic0, scale <> 0 /\ qnorm2 q_ic0 <> 0 /\
  pose_residual p_vc q_cv (pose_init true scale p_vc q_cv p_ic q_ic0) = (v3zero, v3zero, 0) /\ scale = 2 /\
  q_cv = Quat 0 3 0 4 /\ p_vc = V3 1 2 3.
Proof.
  exists 2, (V3 1 2 3), (Quat 0 3 0 4), (V3 0 1 0), (Quat 1 1 1 1).
  assert (Hq : qnorm2 (Quat 1 1 1 1) <> 0) by (unfold qnorm2; cbn; lra).
  split; [lra|]. split; [exact Hq|]. split; [apply C39_pose; [lra|exact Hq]|]. repeat split.
Qed.
Example C39_angle_ex : 0 < 2 /\ 0 < PI / 3 < PI /\ - PI < 3 * PI / 4 < PI /\
  angle_residual (PI / 3) (3 * PI / 4) (spherical_init 30 2 (PI / 3) (3 * PI / 4) (V3 1 1 1)) = (Some 0, Some 0).
Proof.
  pose proof PI_RGT_0. split; [lra|]. split; [lra|]. split; [lra|]. apply C39_angle; lra.
Qed.
