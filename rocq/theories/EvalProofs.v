(** Lemmas about Eval.v. *)

From Coq Require Import Reals ZArith List Bool Lra Lia.
From Verif Require Import Geom GeomProofs Eval.
Import ListNotations.

Local Open Scope R_scope.

(** ** Rigid transforms *)

Definition unit_tf (a : tf) : Prop := qnorm2 (tq a) = 1.
Definition tone : tf := Tf qone v3zero.

(** The rotation of a quaternion without the assumption of unit length. *)
Definition rotv (q : quat) (v : v3) : v3 :=
  let w := qw q in let x := qx q in let y := qy q in let z := qz q in
  V3 ((w*w + x*x - y*y - z*z) * v3x v + 2 * (x*y - w*z) * v3y v + 2 * (x*z + w*y) * v3z v)
     (2 * (x*y + w*z) * v3x v + (w*w - x*x + y*y - z*z) * v3y v + 2 * (y*z - w*x) * v3z v)
     (2 * (x*z - w*y) * v3x v + 2 * (y*z + w*x) * v3y v + (w*w - x*x - y*y + z*z) * v3z v).

Lemma rot_rotv : forall q v, qnorm2 q = 1 -> m3vec (qrot q) v = rotv q v.
Proof.
  intros [w x y z] [a b c] H. unfold qnorm2 in H. cbn in H.
  apply v3_eq; cbn; unfold v3dot; cbn.
  - replace (w*w + x*x - y*y - z*z) with (1 - 2 * (y*y + z*z)) by lra. ring.
  - replace (w*w - x*x + y*y - z*z) with (1 - 2 * (x*x + z*z)) by lra. ring.
  - replace (w*w - x*x - y*y + z*z) with (1 - 2 * (x*x + y*y)) by lra. ring.
Qed.

Lemma rotv_mul : forall a b v, rotv (qmul a b) v = rotv a (rotv b v).
Proof. intros [? ? ? ?] [? ? ? ?] [? ? ?]. apply v3_eq; cbn; ring. Qed.

Lemma rotv_norm : forall q v, v3norm2 (rotv q v) = qnorm2 q * qnorm2 q * v3norm2 v.
Proof. intros [? ? ? ?] [? ? ?]. unfold v3norm2, v3dot, qnorm2. cbn. ring. Qed.

Lemma unit_mul : forall a b, unit_tf a -> unit_tf b -> unit_tf (tmul a b).
Proof. intros a b Ha Hb. unfold unit_tf in *. cbn. rewrite qnorm2_mul, Ha, Hb. ring. Qed.
Lemma unit_inv : forall a, unit_tf a -> unit_tf (tinv a).
Proof. intros a Ha. unfold unit_tf in *. cbn. rewrite qnorm2_conj. exact Ha. Qed.
Lemma unit_one : unit_tf tone.
Proof. unfold unit_tf, qnorm2. cbn. ring. Qed.

Lemma quat_eq : forall a b, qw a = qw b -> qx a = qx b -> qy a = qy b -> qz a = qz b -> a = b.
Proof. intros [? ? ? ?] [? ? ? ?]. cbn. intros. subst. reflexivity. Qed.

(** The transform of a point. *)
Definition tmul' (a b : tf) : tf := Tf (qmul (tq a) (tq b)) (v3add (rotv (tq a) (tt b)) (tt a)).
Definition tinv' (a : tf) : tf := Tf (qconj (tq a)) (v3neg (rotv (qconj (tq a)) (tt a))).
Lemma tmul_eq : forall a b, unit_tf a -> tmul a b = tmul' a b.
Proof. intros a b H. unfold tmul, tmul'. rewrite rot_rotv by exact H. reflexivity. Qed.
Lemma tinv_eq : forall a, unit_tf a -> tinv a = tinv' a.
Proof. intros a H. unfold tinv, tinv'. rewrite rot_rotv by (rewrite qnorm2_conj; exact H). reflexivity. Qed.

Lemma tf_eq : forall a b, tq a = tq b -> tt a = tt b -> a = b.
Proof. intros [? ?] [? ?]. cbn. intros. subst. reflexivity. Qed.

Lemma qmul_assoc : forall a b c, qmul (qmul a b) c = qmul a (qmul b c).
Proof. intros [? ? ? ?] [? ? ? ?] [? ? ? ?]. apply quat_eq; cbn; ring. Qed.

Lemma rotv_add : forall q a b, rotv q (v3add a b) = v3add (rotv q a) (rotv q b).
Proof. intros [? ? ? ?] [? ? ?] [? ? ?]. apply v3_eq; cbn; ring. Qed.
Lemma rotv_sub : forall q a b, rotv q (v3sub a b) = v3sub (rotv q a) (rotv q b).
Proof. intros [? ? ? ?] [? ? ?] [? ? ?]. apply v3_eq; cbn; ring. Qed.
Lemma rotv_neg : forall q a, rotv q (v3neg a) = v3neg (rotv q a).
Proof. intros [? ? ? ?] [? ? ?]. apply v3_eq; cbn; ring. Qed.
Lemma v3add_assoc : forall a b c, v3add (v3add a b) c = v3add a (v3add b c).
Proof. intros [? ? ?] [? ? ?] [? ? ?]. apply v3_eq; cbn; ring. Qed.

Lemma tmul_assoc : forall a b c, unit_tf a -> unit_tf b -> tmul (tmul a b) c = tmul a (tmul b c).
Proof.
  intros a b c Ha Hb. rewrite (tmul_eq (tmul a b) c) by (apply unit_mul; assumption).
  rewrite (tmul_eq a b), (tmul_eq b c), (tmul_eq a (tmul' b c)) by assumption.
  apply tf_eq; cbn [tmul' tq tt].
  - apply qmul_assoc.
  - rewrite rotv_mul, rotv_add, v3add_assoc. reflexivity.
Qed.

Lemma qconj_l : forall q, qnorm2 q = 1 -> qmul (qconj q) q = qone.
Proof. intros [w x y z] H. unfold qnorm2 in H. cbn in H. apply quat_eq; cbn; lra. Qed.
Lemma qconj_r : forall q, qnorm2 q = 1 -> qmul q (qconj q) = qone.
Proof. intros [w x y z] H. unfold qnorm2 in H. cbn in H. apply quat_eq; cbn; lra. Qed.
Lemma rotv_one : forall v, rotv qone v = v.
Proof. intros [? ? ?]. apply v3_eq; cbn; ring. Qed.
Lemma v3add_neg_r : forall a, v3add a (v3neg a) = v3zero.
Proof. intros [? ? ?]. apply v3_eq; cbn; ring. Qed.
Lemma v3add_neg_l : forall a, v3add (v3neg a) a = v3zero.
Proof. intros [? ? ?]. apply v3_eq; cbn; ring. Qed.
Lemma rotv_zero : forall q, rotv q v3zero = v3zero.
Proof. intros [? ? ? ?]. apply v3_eq; cbn; ring. Qed.

Lemma tinv_l : forall a, unit_tf a -> tmul (tinv a) a = tone.
Proof.
  intros a Ha. rewrite tmul_eq by (apply unit_inv; exact Ha). rewrite tinv_eq by exact Ha.
  apply tf_eq; cbn [tmul' tinv' tq tt tone].
  - apply qconj_l, Ha.
  - apply v3add_neg_r.
Qed.
Lemma tinv_r : forall a, unit_tf a -> tmul a (tinv a) = tone.
Proof.
  intros a Ha. rewrite tmul_eq by exact Ha. rewrite tinv_eq by exact Ha.
  apply tf_eq; cbn [tmul' tinv' tq tt tone].
  - apply qconj_r, Ha.
  - rewrite rotv_neg, <- rotv_mul, qconj_r, rotv_one by exact Ha. apply v3add_neg_l.
Qed.
Lemma tmul_one_l : forall a, tmul tone a = a.
Proof.
  intros [[? ? ? ?] [? ? ?]]. rewrite tmul_eq by exact unit_one. apply tf_eq.
  - apply quat_eq; cbn; ring.
  - apply v3_eq; cbn; ring.
Qed.
Lemma tmul_one_r : forall a, unit_tf a -> tmul a tone = a.
Proof.
  intros [[? ? ? ?] [? ? ?]] H. rewrite tmul_eq by exact H. apply tf_eq.
  - apply quat_eq; cbn; ring.
  - apply v3_eq; cbn; ring.
Qed.
Lemma tinv_mul : forall a b, unit_tf a -> unit_tf b -> tinv (tmul a b) = tmul (tinv b) (tinv a).
Proof.
  intros a b Ha Hb.
  assert (Hab := unit_mul a b Ha Hb). assert (Hia := unit_inv a Ha). assert (Hib := unit_inv b Hb).
  rewrite <- (tmul_one_l (tmul (tinv b) (tinv a))), <- (tinv_l (tmul a b)) by exact Hab.
  rewrite (tmul_assoc (tinv (tmul a b))) by (try apply unit_inv; assumption).
  rewrite (tmul_assoc a b) by assumption. rewrite <- (tmul_assoc b (tinv b)) by assumption.
  rewrite (tinv_r b) by assumption. rewrite tmul_one_l, tinv_r by assumption.
  rewrite tmul_one_r by (apply unit_inv; assumption). reflexivity.
Qed.

(** ** Distances *)

Lemma v3norm_nonneg : forall a, 0 <= v3norm a.
Proof. intros. apply sqrt_pos. Qed.

Lemma cauchy : forall a b, v3dot a b <= v3norm a * v3norm b.
Proof.
  intros a b. unfold v3norm. rewrite <- sqrt_mult by apply v3norm2_nonneg.
  destruct (Rle_dec (v3dot a b) 0) as [H|H].
  - eapply Rle_trans; [exact H|]. apply sqrt_pos.
  - rewrite <- (sqrt_square (v3dot a b)) by lra. apply sqrt_le_1.
    + apply Rle_0_sqr.
    + apply Rmult_le_pos; apply v3norm2_nonneg.
    + destruct a as [a1 a2 a3], b as [b1 b2 b3]. unfold v3norm2, v3dot. cbn.
      assert (H1 := Rle_0_sqr (a1*b2 - a2*b1)). assert (H2 := Rle_0_sqr (a1*b3 - a3*b1)).
      assert (H3 := Rle_0_sqr (a2*b3 - a3*b2)). unfold Rsqr in *. lra.
Qed.

Lemma v3norm_add : forall a b, v3norm (v3add a b) <= v3norm a + v3norm b.
Proof.
  intros a b. assert (Ha := v3norm_nonneg a). assert (Hb := v3norm_nonneg b).
  rewrite <- (sqrt_square (v3norm a + v3norm b)) by lra. unfold v3norm at 1. apply sqrt_le_1.
  - apply v3norm2_nonneg.
  - apply Rle_0_sqr.
  - assert (H := cauchy a b).
    assert (Ea : v3norm a * v3norm a = v3norm2 a) by (apply sqrt_sqrt, v3norm2_nonneg).
    assert (Eb : v3norm b * v3norm b = v3norm2 b) by (apply sqrt_sqrt, v3norm2_nonneg).
    replace (v3norm2 (v3add a b)) with (v3norm2 a + v3norm2 b + 2 * v3dot a b)
      by (destruct a, b; unfold v3norm2, v3dot; cbn; ring).
    replace ((v3norm a + v3norm b) * (v3norm a + v3norm b))
      with (v3norm a * v3norm a + v3norm b * v3norm b + 2 * (v3norm a * v3norm b)) by ring.
    rewrite Ea, Eb. lra.
Qed.

Definition dist (a b : v3) : R := v3norm (v3sub a b).
Lemma dist_triangle : forall a b c, dist a c <= dist a b + dist b c.
Proof.
  intros a b c. unfold dist. replace (v3sub a c) with (v3add (v3sub a b) (v3sub b c)).
  - apply v3norm_add.
  - destruct a, b, c. apply v3_eq; cbn; ring.
Qed.
Lemma dist_self : forall a, dist a a = 0.
Proof. intros. unfold dist. rewrite v3sub_self. unfold v3norm, v3norm2, v3dot. cbn.
  replace (0 * 0 + 0 * 0 + 0 * 0) with 0 by ring. apply sqrt_0. Qed.
Lemma dist_sym : forall a b, dist a b = dist b a.
Proof. intros [? ? ?] [? ? ?]. unfold dist, v3norm. f_equal. unfold v3norm2, v3dot. cbn. ring. Qed.
Lemma dist_nonneg : forall a b, 0 <= dist a b.
Proof. intros. apply v3norm_nonneg. Qed.
Lemma dist_zero : forall a b, dist a b = 0 -> a = b.
Proof.
  intros [a b c] [d e f] H. unfold dist, v3norm in H. apply sqrt_eq_0 in H; [|apply v3norm2_nonneg].
  unfold v3norm2, v3dot in H. cbn in H.
  assert (H1 := Rle_0_sqr (a - d)). assert (H2 := Rle_0_sqr (b - e)). assert (H3 := Rle_0_sqr (c - f)).
  unfold Rsqr in *.
  apply v3_eq; cbn; apply Rminus_diag_uniq; apply Rsqr_0_uniq; unfold Rsqr; lra.
Qed.

(** A rigid transform keeps distances. *)
Lemma dist_tmul : forall x a b, unit_tf x -> dist (tt (tmul x a)) (tt (tmul x b)) = dist (tt a) (tt b).
Proof.
  intros x a b H. rewrite !tmul_eq by exact H. cbn [tmul' tt]. unfold dist, v3norm. f_equal.
  replace (v3sub (v3add (rotv (tq x) (tt a)) (tt x)) (v3add (rotv (tq x) (tt b)) (tt x)))
    with (rotv (tq x) (v3sub (tt a) (tt b))).
  - rewrite rotv_norm, H. ring.
  - rewrite rotv_sub. destruct (rotv (tq x) (tt a)), (rotv (tq x) (tt b)), (tt x). apply v3_eq; cbn; ring.
Qed.

(** ** Angles *)

Lemma unit_components : forall q, qnorm2 q = 1 -> qw q * qw q <= 1 /\ qx q * qx q + qy q * qy q <= 1 - qw q * qw q.
Proof.
  intros [w x y z] H. unfold qnorm2 in H. cbn in *.
  assert (H1 := Rle_0_sqr x). assert (H2 := Rle_0_sqr y). assert (H3 := Rle_0_sqr z). unfold Rsqr in *. lra.
Qed.

Lemma abs_le_1 : forall w, w * w <= 1 -> Rabs w <= 1.
Proof.
  intros w H. apply Rsqr_incr_0_var; [|lra]. rewrite <- Rsqr_abs. unfold Rsqr. lra.
Qed.

Lemma acos_anti : forall x y, -1 <= x -> x <= y -> y <= 1 -> acos y <= acos x.
Proof.
  intros x y Hx Hxy Hy. destruct (acos_bound x), (acos_bound y).
  apply Rnot_lt_le. intros Hlt. apply cos_decreasing_1 in Hlt; try assumption.
  rewrite !cos_acos in Hlt by lra. lra.
Qed.

Lemma acos_double : forall w, 0 <= w <= 1 -> 2 * acos w = acos (2 * (w * w) - 1).
Proof.
  intros w Hw. destruct (acos_bound w) as [H0 H1].
  assert (Hh : acos w <= PI / 2).
  { rewrite <- acos_0. apply acos_anti; lra. }
  rewrite <- (acos_cos (2 * acos w)) by lra. f_equal.
  rewrite cos_2a. assert (E := sin2_cos2 (acos w)). unfold Rsqr in E. rewrite cos_acos in * by lra. lra.
Qed.

Lemma grav_dot : forall q, v3dot e_z (m3vec (qrot q) e_z) = 1 - 2 * (qx q * qx q + qy q * qy q).
Proof. intros [w x y z]. unfold v3dot. cbn. unfold v3dot. cbn. ring. Qed.

Lemma acos_zero : forall x, acos (Rmin 1 x) = 0 -> -1 <= x -> 1 <= x.
Proof.
  intros x H Hx. destruct (Rle_dec 1 x) as [H1|H1]; [exact H1|]. exfalso.
  rewrite Rmin_right in H by lra. assert (E : cos (acos x) = x) by (apply cos_acos; lra).
  rewrite H, cos_0 in E. lra.
Qed.

(** ** The loop *)

Local Open Scope Z_scope.

(** The ground truth with a start time behind [off], each with the first estimate that is not
    older; 3.9 ms is the difference of the clocks. *)
Definition partner (es : list estimate) (g : truth) : option estimate :=
  find (fun e => g_stamp g + 3900000 <=? e_stamp e) es.
Definition pairs (start off : Z) (gs : list truth) (es : list estimate) : list (truth * estimate) :=
  flat_map (fun g => if off <=? g_stamp g + 3900000 - start
                     then match partner es g with Some e => [(g, e)] | None => [] end
                     else []) gs.
Inductive in_order : list truth -> Prop :=
| in_order_nil : in_order []
| in_order_cons : forall g gs, Forall (fun h => g_stamp g <= g_stamp h) gs -> in_order gs -> in_order (g :: gs).

Lemma seek_find : forall g es, match seek (g_time g) es with [] => None | e :: _ => Some e end = partner es g.
Proof.
  intros g es. unfold partner. induction es as [|e es IH]; [reflexivity|]. cbn [seek find].
  unfold g_time, clock_offset in *. rewrite Z.gtb_ltb.
  destruct (Z.ltb_spec (e_stamp e) (g_stamp g + 3900000)) as [H|H], (Z.leb_spec (g_stamp g + 3900000) (e_stamp e)) as [H'|H'];
    try lia; [exact IH|reflexivity].
Qed.

Lemma seek_partner : forall g h es, g_stamp g <= g_stamp h -> partner (seek (g_time g) es) h = partner es h.
Proof.
  intros g h es Hle. unfold partner. induction es as [|e es IH]; [reflexivity|]. cbn [seek].
  rewrite Z.gtb_ltb. destruct (Z.ltb_spec (e_stamp e) (g_time g)) as [H|H]; [|reflexivity].
  rewrite IH. cbn [find]. unfold g_time, clock_offset in H.
  destruct (Z.leb_spec (g_stamp h + 3900000) (e_stamp e)); [lia|reflexivity].
Qed.

Lemma pairs_seek : forall start off g gs es, Forall (fun h => g_stamp g <= g_stamp h) gs ->
  pairs start off gs (seek (g_time g) es) = pairs start off gs es.
Proof.
  intros start off g gs es H. unfold pairs. induction H as [|h gs Hh _ IH]; [reflexivity|].
  cbn [flat_map]. rewrite IH, seek_partner by exact Hh. reflexivity.
Qed.

Lemma pairs_no_estimate : forall start off gs, pairs start off gs [] = [].
Proof.
  intros. induction gs as [|g gs IH]; [reflexivity|]. unfold pairs in *. cbn [flat_map].
  rewrite IH. destruct (off <=? _); reflexivity.
Qed.

Section Loop.
Variable B : tf.

Fixpoint visit (start : Z) (s : run_state) (ps : list (truth * estimate)) : run_state * list row :=
  match ps with
  | [] => (s, [])
  | (g, e) :: r =>
    let '(s1, o) := compare B start s g e in
    let '(s2, rows) := visit start s1 r in
    (s2, match o with Some w => w :: rows | None => rows end)
  end.

Lemma loop_visit : forall start off gs, in_order gs -> forall s es,
  loop B start off s gs es = visit start s (pairs start off gs es).
Proof.
  intros start off gs Ho. induction Ho as [|g gs Hg _ IH]; intros s es; [reflexivity|].
  cbn [loop pairs flat_map]. fold (pairs start off gs es).
  assert (F := seek_find g es). destruct (seek (g_time g) es) as [|e es'] eqn:E.
  - rewrite <- F. rewrite <- (pairs_seek start off g gs es Hg), E, pairs_no_estimate.
    destruct (off <=? _); reflexivity.
  - rewrite <- F. rewrite <- E, !IH, !(pairs_seek start off g gs es Hg).
    unfold g_time at 1, clock_offset. rewrite Z.geb_leb.
    destruct (off <=? g_stamp g + 3900000 - start); [|reflexivity].
    cbn [app visit]. destruct (compare B start s g e) as [s1 o]. rewrite IH, (pairs_seek start off g gs es Hg). reflexivity.
Qed.

(** Which comparisons are written. *)
Definition synchronous (p : truth * estimate) : Prop := Z.abs (g_stamp (fst p) + 3900000 - e_stamp (snd p)) < 5000000.
Definition last_written (ps : list (truth * estimate)) (ks : list nat) (k : nat) : Z :=
  match rev (filter (fun j => j <? k)%nat ks) with
  | [] => 0
  | j :: _ => match nth_error ps j with Some (_, e) => e_stamp e | None => 0 end
  end.

Fixpoint travelled (l : list v3) : R :=
  match l with
  | a :: (b :: _) as r => (v3norm (v3sub b a) + travelled r)%R
  | _ => 0%R
  end.
Definition position (p : truth * estimate) : v3 := tt (g_pose (fst p)).

Lemma travelled_snoc : forall l a b, travelled (l ++ [a; b]) = (travelled (l ++ [a]) + v3norm (v3sub b a))%R.
Proof.
  induction l as [|x l IH]; intros a b; [cbn; ring|].
  destruct l as [|y l]; [cbn; ring|].
  change ((x :: y :: l) ++ [a; b]) with (x :: y :: (l ++ [a; b])).
  change ((x :: y :: l) ++ [a]) with (x :: y :: (l ++ [a])).
  assert (H := IH a b). cbn [app] in H. cbn [travelled]. cbn [travelled] in H. rewrite H. ring.
Qed.

(** The row written for the [k]-th pair. *)
Definition row_for (start : Z) (ps : list (truth * estimate)) (k : nat) (r : row) : Prop :=
  exists g0 e0 g e, nth_error ps 0 = Some (g0, e0) /\ nth_error ps k = Some (g, e) /\
    let W := tmul (tmul (e_pose e0) B) (tinv (g_pose g0)) in
    r = Row (g_stamp g + 3900000 - start) (travelled (map position (firstn (S k) ps)))
            (trans_error B W (e_pose e) (g_pose g)) (rot_error B W (e_pose e) (g_pose g))
            (grav_error B W (e_pose e) (g_pose g)) (variances (e_cov e)).

(** The state after the pairs [pre], if the ones with index in [ks] were written. *)
Definition after (ps pre : list (truth * estimate)) (ks : list nat) (s : run_state) : Prop :=
  ctr s = length pre /\ last_time s = last_written ps ks (length pre) /\
  ds s = travelled (map position pre) /\
  match pre with
  | [] => True
  | (g0, e0) :: _ => T_WaWg s = tmul (tmul (e_pose e0) B) (tinv (g_pose g0))
  end /\
  (forall pre' g e, pre = pre' ++ [(g, e)] -> T_WgBg_last s = g_pose g).

Lemma filter_all : forall n ks, Forall (fun k => k < n)%nat ks -> filter (fun j => j <? n)%nat ks = ks.
Proof.
  intros n ks H. induction H as [|k ks Hk _ IH]; [reflexivity|]. cbn [filter].
  apply Nat.ltb_lt in Hk. rewrite Hk, IH. reflexivity.
Qed.
Lemma filter_none : forall n ks, Forall (fun k => n <= k)%nat ks -> filter (fun j => j <? n)%nat ks = [].
Proof.
  intros n ks H. induction H as [|k ks Hk _ IH]; [reflexivity|]. cbn [filter].
  apply Nat.ltb_ge in Hk. rewrite Hk, IH. reflexivity.
Qed.

Inductive increasing : list nat -> Prop :=
| inc_nil : increasing []
| inc_cons : forall k ks, Forall (fun j => k < j)%nat ks -> increasing ks -> increasing (k :: ks).

Lemma compare_after : forall start ps pre g e post ks s s1 o,
  ps = pre ++ (g, e) :: post -> Forall (fun k => k < length pre)%nat ks -> after ps pre ks s ->
  compare B start s g e = (s1, o) ->
  match o with
  | Some w => (synchronous (g, e) /\ 49000000 < e_stamp e - last_written ps ks (length pre)) /\
              row_for start ps (length pre) w /\ after ps (pre ++ [(g, e)]) (ks ++ [length pre]) s1
  | None => ~ (synchronous (g, e) /\ 49000000 < e_stamp e - last_written ps ks (length pre)) /\
            after ps (pre ++ [(g, e)]) ks s1
  end.
Proof.
  intros start ps pre g e post ks s s1 o Hps Hks (Hc & Hl & Hd & Hw & Hp) E.
  unfold compare in E.
  set (world := match ctr s with O => tmul (tmul (e_pose e) B) (tinv (g_pose g)) | _ => T_WaWg s end) in E.
  set (prev := match ctr s with O => g_pose g | _ => T_WgBg_last s end) in E.
  set (d := (ds s + _)%R) in E.
  set (wr := (Z.abs _ <? _) && _) in E.
  injection E as <- <-.
  assert (Hfirst : exists g0 e0, nth_error ps 0 = Some (g0, e0) /\ world = tmul (tmul (e_pose e0) B) (tinv (g_pose g0)) /\
                     match pre ++ [(g, e)] with [] => True | (g0', e0') :: _ => g0' = g0 /\ e0' = e0 end).
  { unfold world. rewrite Hc, Hps. destruct pre as [|[g0 e0] pre'].
    - exists g, e. cbn. auto.
    - exists g0, e0. cbn [app nth_error length]. rewrite Hw. auto. }
  assert (Hdist : d = travelled (map position (pre ++ [(g, e)]))).
  { unfold d, prev. rewrite Hc, Hd, map_app. cbn [map]. destruct pre as [|p pre0] eqn:Ep.
    - cbn [length map app travelled]. assert (Hz := dist_self (tt (g_pose g))). unfold dist in Hz. rewrite Hz. ring.
    - destruct (@exists_last _ (p :: pre0)) as (pre' & [g' e'] & Eq); [discriminate|]. rewrite Eq in *.
      rewrite app_length, Nat.add_1_r. rewrite (Hp pre' g' e' eq_refl).
      rewrite map_app, <- app_assoc. cbn [map app position fst]. rewrite travelled_snoc. reflexivity. }
  assert (Hwr : wr = true <-> synchronous (g, e) /\ 49000000 < e_stamp e - last_written ps ks (length pre)).
  { unfold wr, synchronous, g_time, clock_offset, sync_threshold, row_spacing. cbn [fst snd].
    rewrite Bool.andb_true_iff, Z.ltb_lt, Z.gtb_ltb, Z.ltb_lt, Hl. tauto. }
  assert (Hlast1 : last_written ps ks (length (pre ++ [(g, e)])) = last_written ps ks (length pre)).
  { unfold last_written. rewrite app_length, !filter_all; [reflexivity|exact Hks|].
    eapply Forall_impl; [|exact Hks]. cbn. intros a Ha. lia. }
  assert (Hlast2 : last_written ps (ks ++ [length pre]) (length (pre ++ [(g, e)])) = e_stamp e).
  { unfold last_written. rewrite app_length, filter_all.
    - rewrite rev_app_distr. cbn [rev app]. rewrite Hps, nth_error_app2, Nat.sub_diag by lia. reflexivity.
    - apply Forall_app. split; [eapply Forall_impl; [|exact Hks]; cbn; intros a Ha; lia|].
      constructor; [cbn; lia|constructor]. }
  destruct Hfirst as (g0 & e0 & H0 & Hworld & Hpre).
  assert (Hafter : forall ks' s', ctr s' = S (ctr s) -> ds s' = d -> T_WaWg s' = world -> T_WgBg_last s' = g_pose g ->
            last_time s' = last_written ps ks' (length (pre ++ [(g, e)])) -> after ps (pre ++ [(g, e)]) ks' s').
  { intros ks' s' A1 A2 A3 A4 A5. split; [rewrite A1, Hc, app_length; cbn; lia|]. split; [exact A5|].
    split; [rewrite A2; exact Hdist|]. split.
    - rewrite A3, Hworld. destruct (pre ++ [(g, e)]) as [|[g0' e0'] l]; [exact I|]. destruct Hpre as [-> ->]. reflexivity.
    - intros pre' g' e' Eq. apply app_inj_tail in Eq as [_ Eq]. injection Eq as <- <-. exact A4. }
  destruct wr.
  - split; [apply Hwr; reflexivity|]. split.
    + exists g0, e0, g, e. split; [exact H0|]. split.
      * rewrite Hps, nth_error_app2, Nat.sub_diag by lia. reflexivity.
      * cbv zeta. rewrite <- Hworld. unfold g_time, clock_offset. rewrite Hdist. do 2 f_equal.
        rewrite Hps. replace (S (length pre)) with (length (pre ++ [(g, e)])) by (rewrite app_length; cbn; lia).
        change (pre ++ (g, e) :: post) with (pre ++ [(g, e)] ++ post). rewrite app_assoc, firstn_app, Nat.sub_diag, firstn_all.
        cbn [firstn]. rewrite app_nil_r. reflexivity.
    + apply Hafter; try reflexivity. cbn [last_time]. rewrite Hlast2. reflexivity.
  - split; [intros C; apply Hwr in C; discriminate|].
    apply Hafter; try reflexivity. cbn [last_time]. rewrite Hlast1. exact Hl.
Qed.

Lemma last_written_app : forall ps ks ks' k, Forall (fun j => k <= j)%nat ks' ->
  last_written ps (ks ++ ks') k = last_written ps ks k.
Proof. intros ps ks ks' k H. unfold last_written. rewrite filter_app, (filter_none k ks' H), app_nil_r. reflexivity. Qed.

Lemma visit_rows : forall start ps post pre ks s s2 rows,
  ps = pre ++ post -> Forall (fun k => k < length pre)%nat ks -> after ps pre ks s ->
  visit start s post = (s2, rows) ->
  ctr s2 = length ps /\
  exists ks', Forall2 (row_for start ps) ks' rows /\ increasing ks' /\ Forall (fun k => length pre <= k)%nat ks' /\
    forall k g e, (length pre <= k)%nat -> nth_error ps k = Some (g, e) ->
      (In k ks' <-> synchronous (g, e) /\ 49000000 < e_stamp e - last_written ps (ks ++ ks') k).
Proof.
  intros start ps post. induction post as [|[g e] post IH]; intros pre ks s s2 rows Hps Hks Ha E; cbn [visit] in E.
  - injection E as <- <-. rewrite app_nil_r in Hps. subst ps. split; [apply Ha|].
    exists []. split; [constructor|]. split; [constructor|]. split; [constructor|].
    intros k g e Hk Hn. assert (nth_error pre k = None) as Hno by (apply nth_error_None; lia).
    rewrite Hno in Hn. discriminate.
  - destruct (compare B start s g e) as [s1 o] eqn:Ec.
    destruct (visit start s1 post) as [s3 rows1] eqn:Ev. injection E as <- <-.
    assert (H := compare_after start ps pre g e post ks s s1 o Hps Hks Ha Ec).
    assert (Hps' : ps = (pre ++ [(g, e)]) ++ post) by (rewrite <- app_assoc; exact Hps).
    assert (Hlen : length (pre ++ [(g, e)]) = S (length pre)) by (rewrite app_length; cbn; lia).
    assert (Hn0 : nth_error ps (length pre) = Some (g, e)).
    { rewrite Hps, nth_error_app2, Nat.sub_diag by lia. reflexivity. }
    destruct o as [w|].
    + destruct H as (Hyes & Hrow & Ha1).
      destruct (IH (pre ++ [(g, e)]) (ks ++ [length pre]) s1 s3 rows1 Hps') as (Hc & ks1 & F & Hi & Hge & Hiff); try assumption.
      { apply Forall_app. split; [eapply Forall_impl; [|exact Hks]; cbn; intros a Hlt; lia|].
        constructor; [lia|constructor]. }
      split; [exact Hc|]. rewrite Hlen in Hge, Hiff. exists (length pre :: ks1).
      split; [constructor; assumption|].
      split; [constructor; [eapply Forall_impl; [|exact Hge]; cbn; intros a Hlt; lia|exact Hi]|].
      split; [constructor; [lia|eapply Forall_impl; [|exact Hge]; cbn; intros a Hlt; lia]|].
      intros k g' e' Hk Hn. destruct (Nat.eq_dec k (length pre)) as [->|Hne].
      * rewrite Hn0 in Hn. injection Hn as <- <-. split; [intros _|intros _; left; reflexivity].
        rewrite last_written_app; [exact Hyes|]. constructor; [lia|]. eapply Forall_impl; [|exact Hge]. cbn. intros a Hlt. lia.
      * specialize (Hiff k g' e' ltac:(lia) Hn). rewrite <- app_assoc in Hiff. cbn [app] in Hiff.
        rewrite <- Hiff. cbn [In]. split; [intros [Hx|Hx]; [lia|exact Hx]|intros Hx; right; exact Hx].
    + destruct H as (Hno & Ha1).
      destruct (IH (pre ++ [(g, e)]) ks s1 s3 rows1 Hps') as (Hc & ks1 & F & Hi & Hge & Hiff); try assumption.
      { eapply Forall_impl; [|exact Hks]. cbn. intros a Hlt. lia. }
      split; [exact Hc|]. rewrite Hlen in Hge, Hiff. exists ks1.
      split; [exact F|]. split; [exact Hi|].
      split; [eapply Forall_impl; [|exact Hge]; cbn; intros a Hlt; lia|].
      intros k g' e' Hk Hn. destruct (Nat.eq_dec k (length pre)) as [->|Hne].
      * rewrite Hn0 in Hn. injection Hn as <- <-. split; intros Hx.
        -- rewrite Forall_forall in Hge. specialize (Hge _ Hx). lia.
        -- exfalso. apply Hno. rewrite last_written_app in Hx; [exact Hx|]. eapply Forall_impl; [|exact Hge]. cbn. intros a Hlt. lia.
      * apply Hiff; [lia|exact Hn].
Qed.
End Loop.
