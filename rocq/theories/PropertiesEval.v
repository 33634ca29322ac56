(** C67: what the evaluation tool compares and what it reports. *)

From Coq Require Import Reals ZArith List Bool Lra Lia.
From Verif Require Import Geom GeomProofs Eval EvalProofs.
Import ListNotations.
Local Open Scope Z_scope.

(** ** Which pairs are compared and written

    [pairs]: every ground truth message from the start offset on, with the first estimate that is
    not older.  [row_for]: the row of the k-th pair (time, distance travelled so far, errors
    after aligning the world frames with the first pair, variances).  A pair is written iff its
    stamps are less than 5 ms apart and the estimate is more than 49 ms younger than the last
    one written. *)

Theorem C67_rows : forall B start off gs es s rows, in_order gs ->
  loop B start off run_state_new gs es = (s, rows) ->
  let ps := pairs start off gs es in
  ctr s = length ps /\
  exists ks, Forall2 (row_for B start ps) ks rows /\ increasing ks /\
    forall k g e, nth_error ps k = Some (g, e) ->
      (In k ks <-> synchronous (g, e) /\ 49000000 < e_stamp e - last_written ps ks k).
Proof.
  intros B start off gs es s rows Ho E ps. rewrite loop_visit in E by exact Ho. fold ps in E.
  destruct (visit_rows B start ps ps [] [] run_state_new s rows eq_refl) as (Hc & ks & F & Hi & _ & Hiff); try assumption.
  - constructor.
  - repeat split. intros pre' g e H. destruct pre'; discriminate.
  - split; [exact Hc|]. exists ks. split; [exact F|]. split; [exact Hi|].
    intros k g e Hn. apply Hiff; [apply Nat.le_0_l|exact Hn].
Qed.
Print Assumptions C67_rows.

(** Rows of one run are more than 39 ms of ground truth apart and their distances grow. *)
Lemma increasing_split : forall ks i k k', increasing ks -> nth_error ks i = Some k -> nth_error ks (S i) = Some k' ->
  (k < k')%nat /\ exists a, filter (fun j => j <? k')%nat ks = a ++ [k].
Proof.
  intros ks i k k' Hi. revert i. induction Hi as [|x ks Hx Hi IH]; intros i Hk Hk'; [destruct i; discriminate|].
  destruct i as [|i].
  - cbn in Hk. injection Hk as ->. cbn [nth_error] in Hk'. destruct ks as [|y ks]; [discriminate|].
    cbn in Hk'. injection Hk' as ->. inversion Hx as [|? ? Hlt Hx']; subst. split; [exact Hlt|].
    exists []. cbn [filter app]. apply Nat.ltb_lt in Hlt. rewrite Hlt, Nat.ltb_irrefl.
    rewrite filter_none; [reflexivity|]. inversion Hi as [|? ? Hy _]; subst.
    eapply Forall_impl; [|exact Hy]. cbn. intros; lia.
  - change (nth_error ks i = Some k) in Hk. change (nth_error ks (S i) = Some k') in Hk'. destruct (IH i Hk Hk') as (Hlt & a & Ea). split; [exact Hlt|].
    cbn [filter]. rewrite Ea. rewrite Forall_forall in Hx.
    assert (Hin : In k' ks) by (eapply nth_error_In, Hk'). specialize (Hx _ Hin). apply Nat.ltb_lt in Hx. rewrite Hx.
    exists (x :: a). reflexivity.
Qed.

Lemma travelled_app : forall l l', (travelled l <= travelled (l ++ l'))%R.
Proof.
  induction l as [|a l IH]; intros l'.
  - cbn [app travelled]. induction l' as [|b l' IH']; [apply Rle_refl|]. destruct l' as [|c l']; [apply Rle_refl|].
    change (travelled (b :: c :: l')) with (v3norm (v3sub c b) + travelled (c :: l'))%R.
    assert (H := v3norm_nonneg (v3sub c b)). lra.
  - destruct l as [|b l].
    + cbn [app]. destruct l' as [|c l']; [apply Rle_refl|]. change (travelled [a]) with 0%R.
      change (travelled (a :: c :: l')) with (v3norm (v3sub c a) + travelled (c :: l'))%R.
      assert (H := v3norm_nonneg (v3sub c a)). specialize (IH (c :: l')). cbn [app] in IH. change (travelled []) with 0%R in IH. lra.
    + specialize (IH l'). cbn [app] in *. cbn [travelled]. cbn [travelled] in IH. lra.
Qed.

Lemma Forall2_nth : forall {A B} (P : A -> B -> Prop) l m i y, Forall2 P l m -> nth_error m i = Some y ->
  exists x, nth_error l i = Some x /\ P x y.
Proof.
  intros A B P l m i y H. revert i. induction H as [|a b l m Hab _ IH]; intros i Hn; [destruct i; discriminate|].
  destruct i as [|i]; [cbn in Hn; injection Hn as <-; exists a; split; [reflexivity|exact Hab]|]. apply IH, Hn.
Qed.

Theorem C67_spacing : forall B start off gs es s rows i r r', in_order gs ->
  loop B start off run_state_new gs es = (s, rows) ->
  nth_error rows i = Some r -> nth_error rows (S i) = Some r' ->
  w_time r + 39000000 < w_time r' /\ (w_dist r <= w_dist r')%R.
Proof.
  intros B start off gs es s rows i r r' Ho E Hr Hr'.
  destruct (C67_rows B start off gs es s rows Ho E) as (_ & ks & F & Hi & Hiff).
  set (ps := pairs start off gs es) in *.
  destruct (Forall2_nth _ _ _ _ _ F Hr) as (k & Hk & g0 & e0 & g & e & H0 & Hg & ->).
  destruct (Forall2_nth _ _ _ _ _ F Hr') as (k' & Hk' & g0' & e0' & g' & e' & H0' & Hg' & ->).
  destruct (increasing_split ks i k k' Hi Hk Hk') as (Hlt & a & Ea).
  assert (W : In k' ks) by (eapply nth_error_In, Hk'). apply (Hiff k' g' e' Hg') in W as [Hs' Hgap].
  assert (W : In k ks) by (eapply nth_error_In, Hk). apply (Hiff k g e Hg) in W as [Hs _].
  unfold last_written in Hgap. rewrite Ea, rev_app_distr in Hgap. cbn [rev app] in Hgap. rewrite Hg in Hgap.
  unfold synchronous in Hs, Hs'. cbn [fst snd] in Hs, Hs'. cbn [w_time w_dist]. split; [lia|].
  assert (Ef : exists l, firstn (S k') ps = firstn (S k) ps ++ l).
  { exists (skipn (S k) (firstn (S k') ps)). rewrite <- (firstn_skipn (S k) (firstn (S k') ps)) at 1.
    f_equal. rewrite firstn_firstn. f_equal. lia. }
  destruct Ef as [l El]. rewrite El, map_app. apply travelled_app.
Qed.
Print Assumptions C67_spacing.

(** The distance is at least that between the first ground truth compared and this one. *)
Lemma travelled_far : forall l a, (dist (last (a :: l) a) a <= travelled (a :: l))%R.
Proof.
  induction l as [|b l IH]; intros a; [cbn [last travelled]; rewrite dist_self; apply Rle_refl|].
  change (last (a :: b :: l) a) with (last (b :: l) a).
  change (travelled (a :: b :: l)) with (v3norm (v3sub b a) + travelled (b :: l))%R.
  assert (E : last (b :: l) a = last (b :: l) b).
  { clear. revert b. induction l as [|c l IH]; intros b; [reflexivity|]. 
    change (last (b :: c :: l) a) with (last (c :: l) a). change (last (b :: c :: l) b) with (last (c :: l) b).
    rewrite (IH c). clear. revert c. induction l as [|d l IH]; intros c; [reflexivity|].
    change (last (c :: d :: l) c) with (last (d :: l) c). change (last (c :: d :: l) b) with (last (d :: l) b).
    destruct l as [|f l]; [reflexivity|]. specialize (IH d). 
    change (last (d :: f :: l) d) with (last (f :: l) d) in IH. change (last (d :: f :: l) b) with (last (f :: l) b) in IH.
    change (last (d :: f :: l) c) with (last (f :: l) c). change (last (d :: f :: l) b) with (last (f :: l) b).
    rewrite <- IH. clear. revert f. induction l as [|h l IH]; intros f; [reflexivity|]. exact (IH h). }
  rewrite E. assert (T := dist_triangle (last (b :: l) b) b a). specialize (IH b). unfold dist at 3 in T. lra.
Qed.

Theorem C67_distance : forall B start off gs es s rows r, in_order gs ->
  loop B start off run_state_new gs es = (s, rows) -> In r rows ->
  exists g0 e0 g e, nth_error (pairs start off gs es) 0 = Some (g0, e0) /\ In (g, e) (pairs start off gs es) /\
    w_time r = g_stamp g + 3900000 - start /\
    (v3norm (v3sub (tt (g_pose g)) (tt (g_pose g0))) <= w_dist r)%R.
Proof.
  intros B start off gs es s rows r Ho E Hin.
  destruct (C67_rows B start off gs es s rows Ho E) as (_ & ks & F & _ & _).
  set (ps := pairs start off gs es) in *.
  apply In_nth_error in Hin as [i Hi]. destruct (Forall2_nth _ _ _ _ _ F Hi) as (k & _ & g0 & e0 & g & e & H0 & Hk & ->).
  exists g0, e0, g, e. split; [exact H0|]. split; [eapply nth_error_In, Hk|]. split; [reflexivity|]. cbn [w_dist].
  destruct ps as [|p ps']; [discriminate|]. cbn in H0. injection H0 as ->.
  cbn [firstn map]. change (position (g0, e0)) with (tt (g_pose g0)).
  set (l := map position (firstn k ps')). assert (El : last (tt (g_pose g0) :: l) (tt (g_pose g0)) = tt (g_pose g)).
  { unfold l. clear - Hk. revert g0 e0 ps' Hk. induction k as [|k IH]; intros g0 e0 ps' Hk.
    - cbn in Hk. injection Hk as <- <-. reflexivity.
    - cbn [nth_error] in Hk. destruct ps' as [|[g1 e1] ps']; [destruct k; discriminate|].
      cbn [firstn map]. change (position (g1, e1)) with (tt (g_pose g1)).
      specialize (IH g1 e1 ps' Hk). 
      set (m := map position (firstn k ps')) in *. set (x := tt (g_pose g1)) in *. set (y := tt (g_pose g0)).
      change (last (y :: x :: m) y) with (last (x :: m) y). rewrite <- IH. clear.
      revert x. induction m as [|z m IH]; intros x; [reflexivity|].
      change (last (x :: z :: m) y) with (last (z :: m) y). change (last (x :: z :: m) x) with (last (z :: m) x).
      destruct m as [|u m]; [reflexivity|].
      assert (G : forall (d d' : v3) u m, last (u :: m) d = last (u :: m) d').
      { clear. intros d d' u m. revert u. induction m as [|h m IH]; intros u; [reflexivity|]. exact (IH h). }
      exact (G y x z (u :: m)). }
  rewrite <- El. apply travelled_far.
Qed.
Print Assumptions C67_distance.

(** ** Errors *)

Section Errors.
Local Open Scope R_scope.
Variable B : tf.
Hypothesis HB : unit_tf B.

Lemma gt_unit : forall W g, unit_tf W -> unit_tf g -> unit_tf (gt_pose B W g).
Proof. intros. unfold gt_pose. apply unit_mul; [apply unit_mul; assumption|apply unit_inv, HB]. Qed.

Lemma dT_eq : forall W e g, unit_tf W -> unit_tf e -> unit_tf g ->
  dT B W e g = tq (tmul e (tinv (gt_pose B W g))) /\ qnorm2 (dT B W e g) = 1.
Proof.
  intros W e g HW He Hg.
  assert (H : unit_tf (tmul e (tinv (gt_pose B W g)))) by (apply unit_mul; [exact He|apply unit_inv, gt_unit; assumption]).
  unfold dT. rewrite qnormalize_id by exact H. split; [reflexivity|exact H].
Qed.

Lemma no_error : forall W e g, unit_tf W -> unit_tf e -> unit_tf g -> e = gt_pose B W g ->
  trans_error B W e g = 0 /\ rot_error B W e g = 0 /\ grav_error B W e g = 0.
Proof.
  intros W e g HW He Hg E. destruct (dT_eq W e g HW He Hg) as [Ed _].
  rewrite <- E, tinv_r in Ed by exact He. cbn in Ed.
  unfold trans_error, rot_error, grav_error. rewrite Ed, <- E. split; [apply dist_self|].
  cbn [qone qw]. rewrite Rabs_R1, Rmin_left, acos_1 by lra. split; [ring|].
  rewrite grav_dot. cbn. replace (1 - 2 * (0 * 0 + 0 * 0)) with 1 by ring. rewrite Rmin_left, acos_1 by lra. reflexivity.
Qed.

Lemma aligned : forall X g0 g, unit_tf X -> unit_tf g0 -> unit_tf g ->
  tmul (tmul (tmul (tmul X g0) (tinv B)) B) (tinv g0) = X.
Proof.
  intros X g0 g HX H0 Hg. assert (HiB := unit_inv B HB). assert (Hi0 := unit_inv g0 H0).
  assert (HXg := unit_mul X g0 HX H0).
  rewrite (tmul_assoc (tmul X g0) (tinv B) B) by assumption. rewrite tinv_l by exact HB.
  rewrite tmul_one_r by assumption. rewrite tmul_assoc by assumption. rewrite tinv_r by assumption.
  apply tmul_one_r, HX.
Qed.

Lemma aligned_first : forall e g, unit_tf e -> unit_tf g -> gt_pose B (tmul (tmul e B) (tinv g)) g = e.
Proof.
  intros e g He Hg. unfold gt_pose. assert (HiB := unit_inv B HB). assert (Hig := unit_inv g Hg).
  assert (HeB := unit_mul e B He HB).
  rewrite (tmul_assoc (tmul e B) (tinv g) g), tinv_l, tmul_one_r by assumption.
  rewrite tmul_assoc, tinv_r by assumption. apply tmul_one_r, He.
Qed.

(** Bounds of the two angles. *)
Lemma angles : forall W e g, unit_tf W -> unit_tf e -> unit_tf g ->
  0 <= grav_error B W e g <= rot_error B W e g /\ rot_error B W e g <= PI.
Proof.
  intros W e g HW He Hg. destruct (dT_eq W e g HW He Hg) as [_ Hn]. unfold grav_error, rot_error.
  set (q := dT B W e g) in *. destruct (unit_components q Hn) as [H1 H2].
  assert (Ha := abs_le_1 _ H1). assert (Hp := Rabs_pos (qw q)).
  rewrite grav_dot. assert (0 <= qx q * qx q + qy q * qy q) as H3.
  { assert (A := Rle_0_sqr (qx q)). assert (C := Rle_0_sqr (qy q)). unfold Rsqr in *. lra. }
  rewrite !Rmin_right by lra. rewrite acos_double by lra.
  assert (Ew : Rabs (qw q) * Rabs (qw q) = qw q * qw q).
  { rewrite <- Rabs_mult. apply Rabs_pos_eq. apply Rle_0_sqr. }
  rewrite Ew. split; [split|].
  - apply acos_bound.
  - assert (D := Rle_0_sqr (qw q)). unfold Rsqr in D. apply acos_anti; lra.
  - apply acos_bound.
Qed.

Lemma cosines : forall W e g, unit_tf W -> unit_tf e -> unit_tf g ->
  let a := qrot (tq e) in let b := qrot (tq (gt_pose B W g)) in
  let axis v := v3dot (m3vec a v) (m3vec b v) in
  cos (rot_error B W e g) = (axis (V3 1 0 0) + axis (V3 0 1 0) + axis (V3 0 0 1) - 1) / 2 /\
  cos (grav_error B W e g) = v3dot (m3vec (m3tr a) (V3 0 0 1)) (m3vec (m3tr b) (V3 0 0 1)).
Proof.
  intros W e g HW He Hg a b axis. destruct (dT_eq W e g HW He Hg) as [Ed Hn].
  assert (Hgt := gt_unit W g HW Hg). unfold grav_error, rot_error.
  set (q := dT B W e g) in *. destruct (unit_components q Hn) as [H1 H2].
  assert (Ha := abs_le_1 _ H1). assert (Hp := Rabs_pos (qw q)).
  rewrite grav_dot. assert (0 <= qx q * qx q + qy q * qy q) as H3.
  { assert (A := Rle_0_sqr (qx q)). assert (C := Rle_0_sqr (qy q)). unfold Rsqr in *. lra. }
  rewrite !Rmin_right by lra. rewrite acos_double by lra.
  assert (Ew : Rabs (qw q) * Rabs (qw q) = qw q * qw q).
  { rewrite <- Rabs_mult. apply Rabs_pos_eq. apply Rle_0_sqr. }
  rewrite Ew. assert (D := Rle_0_sqr (qw q)). unfold Rsqr in D. rewrite !cos_acos by lra.
  unfold axis, a, b. rewrite !rot_rotv by assumption. cbn [tmul tinv tq] in Ed.
  unfold unit_tf in He, Hgt. set (p := tq (gt_pose B W g)) in *. set (u := tq e) in *.
  rewrite Ed. clearbody p u. clear - He Hgt. split.
  - unfold rotv, v3dot, qnorm2 in *. destruct u as [a b c d], p as [w x y z]. cbn in *.
    transitivity (((4 * ((a*w + b*x + c*y + d*z) * (a*w + b*x + c*y + d*z)) - (a*a+b*b+c*c+d*d) * (w*w+x*x+y*y+z*z)) - 1) / 2); [|field].
    rewrite He, Hgt. field.
  - assert (R : forall q, qnorm2 q = 1 -> m3vec (m3tr (qrot q)) (V3 0 0 1) = rotv (qconj q) (V3 0 0 1)).
    { clear. intros q H. replace (m3tr (qrot q)) with (qrot (qconj q)).
      - apply rot_rotv. unfold qnorm2 in *. cbn. rewrite <- H. ring.
      - destruct q as [w x y z]. unfold qrot, m3tr. cbn. f_equal; apply v3_eq; cbn; ring. }
    rewrite !R by assumption. unfold rotv, v3dot, qnorm2 in *. destruct u as [a b c d], p as [w x y z]. cbn in *.
    transitivity ((a*a+b*b+c*c+d*d) * (w*w+x*x+y*y+z*z) - 2 * ((- a*x + b*w - c*z + d*y)*(- a*x + b*w - c*z + d*y) + (- a*y + b*z + c*w - d*x)*(- a*y + b*z + c*w - d*x))); [|ring].
    rewrite He, Hgt. ring.
Qed.

(** No translation and no rotation error: the poses agree (a quaternion and its negative are
    the same attitude). *)
Lemma error_zero : forall W e g, unit_tf W -> unit_tf e -> unit_tf g ->
  trans_error B W e g = 0 -> rot_error B W e g = 0 ->
  tt e = tt (gt_pose B W g) /\ (tq e = tq (gt_pose B W g) \/ tq e = qscale (-1) (tq (gt_pose B W g))).
Proof.
  intros W e g HW He Hg Ht Hr. split; [apply dist_zero, Ht|].
  destruct (dT_eq W e g HW He Hg) as [Ed Hn]. unfold rot_error in Hr. set (q := dT B W e g) in *.
  destruct (unit_components q Hn) as [H1 _].
  assert (Ha := abs_le_1 _ H1). assert (Hp := Rabs_pos (qw q)).
  assert (H2 : 1 <= Rabs (qw q)) by (apply acos_zero; lra).
  assert (Hw : qw q * qw q = 1).
  { assert (Ew : Rabs (qw q) * Rabs (qw q) = qw q * qw q).
    { rewrite <- Rabs_mult. apply Rabs_pos_eq. apply Rle_0_sqr. }
    rewrite <- Ew. replace (Rabs (qw q)) with 1 by lra. ring. }
  assert (Hv : qx q = 0 /\ qy q = 0 /\ qz q = 0).
  { unfold qnorm2 in Hn. assert (A := Rle_0_sqr (qx q)). assert (C := Rle_0_sqr (qy q)). assert (D := Rle_0_sqr (qz q)).
    unfold Rsqr in *. repeat split; apply Rsqr_0_uniq; unfold Rsqr; lra. }
  destruct Hv as (Hx & Hy & Hz).
  cbn [tmul tq tinv] in Ed. assert (Hgt := gt_unit W g HW Hg). unfold unit_tf in Hgt.
  assert (Ee : tq e = qmul q (tq (gt_pose B W g))).
  { rewrite Ed, qmul_assoc, qconj_l by exact Hgt. destruct (tq e). apply quat_eq; cbn; ring. }
  assert (Hs : qw q = 1 \/ qw q = -1).
  { destruct (Rle_dec 0 (qw q)); [left|right]; [rewrite Rabs_pos_eq in * by lra|rewrite Rabs_left in * by lra]; lra. }
  rewrite Ee. destruct q as [w x y z], (tq (gt_pose B W g)) as [a b c d]. cbn in Hx, Hy, Hz, Hs. subst x y z.
  destruct Hs as [-> | ->]; [left|right]; apply quat_eq; cbn; ring.
Qed.

(** Changes of frame. *)
Lemma moved_gt : forall Y Z W g, unit_tf Y -> unit_tf Z -> unit_tf W -> unit_tf g ->
  gt_pose B (tmul (tmul Y W) (tinv Z)) (tmul Z g) = tmul Y (gt_pose B W g).
Proof.
  intros Y Z W g HY HZ HW Hg. unfold gt_pose. assert (HiZ := unit_inv Z HZ). assert (HYW := unit_mul Y W HY HW).
  rewrite <- (tmul_assoc Y (tmul W g) (tinv B)) by (try apply unit_mul; assumption). f_equal.
  rewrite (tmul_assoc (tmul Y W) (tinv Z)) by assumption. rewrite <- (tmul_assoc (tinv Z) Z g) by assumption.
  rewrite tinv_l by exact HZ. rewrite tmul_one_l. apply tmul_assoc; assumption.
Qed.

Lemma moved_errors : forall Y Z W e g, unit_tf Y -> unit_tf Z -> unit_tf W -> unit_tf e -> unit_tf g ->
  let W' := tmul (tmul Y W) (tinv Z) in
  trans_error B W' (tmul Y e) (tmul Z g) = trans_error B W e g /\
  rot_error B W' (tmul Y e) (tmul Z g) = rot_error B W e g /\
  (qx (tq Y) = 0 -> qy (tq Y) = 0 -> grav_error B W' (tmul Y e) (tmul Z g) = grav_error B W e g).
Proof.
  intros Y Z W e g HY HZ HW He Hg W'.
  assert (HW' : unit_tf W') by (apply unit_mul; [apply unit_mul; assumption|apply unit_inv, HZ]).
  assert (Hgt := gt_unit W g HW Hg).
  destruct (dT_eq W e g HW He Hg) as [Ed Hn].
  destruct (dT_eq W' (tmul Y e) (tmul Z g) HW' (unit_mul _ _ HY He) (unit_mul _ _ HZ Hg)) as [Ed' Hn'].
  unfold W' in Ed' at 2. rewrite moved_gt in Ed' by assumption. rewrite tinv_mul in Ed' by assumption.
  cbn [tmul tq tinv] in Ed, Ed'.
  assert (E : dT B W' (tmul Y e) (tmul Z g) = qmul (qmul (tq Y) (dT B W e g)) (qconj (tq Y))).
  { rewrite Ed', Ed, !qmul_assoc. reflexivity. }
  split.
  - unfold trans_error. unfold W'. rewrite moved_gt by assumption. exact (dist_tmul Y e (gt_pose B W g) HY).
  - unfold rot_error, grav_error. rewrite E, !grav_dot. set (q := dT B W e g) in *.
    assert (Hy : qnorm2 (tq Y) = 1) by exact HY.
    destruct (tq Y) as [a b c d], q as [w x y z]. unfold qnorm2 in Hy, Hn. cbn in *. split.
    + do 4 f_equal. transitivity ((a*a + b*b + c*c + d*d) * w); [ring|]. rewrite Hy. ring.
    + intros -> ->. do 4 f_equal.
      transitivity ((a*a + 0*0 + 0*0 + d*d) * (a*a + 0*0 + 0*0 + d*d) * (x*x + y*y)); [ring|]. rewrite Hy. ring.
Qed.
End Errors.

Definition unit_truth (g : truth) : Prop := unit_tf (g_pose g).
Definition unit_estimate (e : estimate) : Prop := unit_tf (e_pose e).

Lemma partner_in : forall es g e, partner es g = Some e -> In e es.
Proof. intros es g e H. unfold partner in H. apply find_some in H. tauto. Qed.

Lemma pairs_in : forall start off gs es g e, In (g, e) (pairs start off gs es) ->
  In g gs /\ In e es /\ partner es g = Some e.
Proof.
  intros start off gs es g e H. unfold pairs in H. apply in_flat_map in H as (h & Hh & Hin).
  destruct (off <=? _); [|contradiction]. destruct (partner es h) as [e'|] eqn:E; [|contradiction].
  destruct Hin as [Hin|[]]. injection Hin as <- <-. split; [exact Hh|]. split; [eapply partner_in, E|exact E].
Qed.

(** If the estimates are the ground truth seen from another world frame, at least in the pairs
    compared, all errors are zero. *)
Definition C67_exact_full : Prop :=
  forall B X start off gs es s rows r, unit_tf B -> unit_tf X -> in_order gs ->
  Forall unit_truth gs -> Forall unit_estimate es ->
  (forall g e, In (g, e) (pairs start off gs es) -> synchronous (g, e) ->
     e_pose e = tmul (tmul X (g_pose g)) (tinv B)) ->
  loop B start off run_state_new gs es = (s, rows) -> In r rows ->
  w_trans r = 0%R /\ w_rot r = 0%R /\ w_grav r = 0%R.

Theorem C67_exact_partial : forall B X start off gs es s rows r, unit_tf B -> unit_tf X -> in_order gs ->
  Forall unit_truth gs -> Forall unit_estimate es ->
  (forall g e, In (g, e) (pairs start off gs es) -> e_pose e = tmul (tmul X (g_pose g)) (tinv B)) ->
  loop B start off run_state_new gs es = (s, rows) -> In r rows ->
  w_trans r = 0%R /\ w_rot r = 0%R /\ w_grav r = 0%R.
Proof.
  intros B X start off gs es s rows r HB HX Ho Hug Hue Hex E Hin.
  destruct (C67_rows B start off gs es s rows Ho E) as (_ & ks & F & _ & _).
  apply In_nth_error in Hin as [i Hi]. destruct (Forall2_nth _ _ _ _ _ F Hi) as (k & _ & g0 & e0 & g & e & H0 & Hk & ->).
  apply nth_error_In in H0, Hk. destruct (pairs_in _ _ _ _ _ _ H0) as (Hg0 & He0 & _).
  destruct (pairs_in _ _ _ _ _ _ Hk) as (Hg & He & _). rewrite Forall_forall in Hug, Hue.
  specialize (Hug _ Hg0) as U0. specialize (Hug _ Hg). specialize (Hue _ He). unfold unit_truth, unit_estimate in *.
  cbn [w_trans w_rot w_grav]. rewrite (Hex _ _ H0), (aligned B HB X _ (g_pose g0)) by assumption.
  apply no_error; try assumption. rewrite (Hex _ _ Hk). reflexivity.
Qed.
Print Assumptions C67_exact_partial.

(** The world frames are aligned with the first pair compared, whether or not its stamps
    agree. *)
Definition at_x (x : R) : tf := Tf qone (V3 x 0 0).
Lemma at_x_unit : forall x, unit_tf (at_x x).
Proof. intros. unfold unit_tf, qnorm2. cbn. ring. Qed.
Lemma at_x_mul : forall x y, tmul (at_x x) (at_x y) = at_x (y + x).
Proof.
  intros. rewrite tmul_eq by apply at_x_unit. unfold tmul'. cbn [at_x tq tt]. rewrite rotv_one. apply tf_eq.
  - apply quat_eq; cbn; ring.
  - cbn [tt]. apply v3_eq; cbn; ring.
Qed.
Lemma tinv_one : tinv tone = tone.
Proof. rewrite <- (tmul_one_r (tinv tone)) by (apply unit_inv, unit_one). apply tinv_l, unit_one. Qed.
Lemma at_x_inv : forall x, tinv (at_x x) = at_x (- x).
Proof.
  intros. rewrite tinv_eq by apply at_x_unit. unfold tinv'. cbn [at_x tq tt].
  replace (qconj qone) with qone by (apply quat_eq; cbn; ring). rewrite rotv_one. apply tf_eq; [reflexivity|].
  cbn [tt]. apply v3_eq; cbn; ring.
Qed.
Definition no_cov : nat -> R := fun _ => 0%R.
Definition gap_truth : list truth :=
  [Truth 1000000000 (at_x 0); Truth 11000000000 (at_x 0); Truth 12000000000 (at_x 1)].
Definition gap_estimates : list estimate :=
  [Estimate 1000000000 (at_x 0) no_cov; Estimate 12004000000 (at_x 1) no_cov].

Theorem C67_exact_refuted : ~ C67_exact_full.
Proof.
  intros H.
  assert (U := at_x_unit).
  assert (U1 : unit_tf tone) by exact unit_one.
  destruct (loop tone 1003900000 10000000000 run_state_new gap_truth gap_estimates) as [s rows] eqn:E.
  assert (Er : rows = [Row 11000000000 (0 + v3norm (v3sub (tt (at_x 0)) (tt (at_x 0))) + v3norm (v3sub (tt (at_x 1)) (tt (at_x 0))))%R
                        (trans_error tone (tmul (tmul (at_x 1) tone) (tinv (at_x 0))) (at_x 1) (at_x 1))
                        (rot_error tone (tmul (tmul (at_x 1) tone) (tinv (at_x 0))) (at_x 1) (at_x 1))
                        (grav_error tone (tmul (tmul (at_x 1) tone) (tinv (at_x 0))) (at_x 1) (at_x 1))
                        (variances no_cov)]).
  { unfold loop in E. cbn in E. injection E as _ <-. reflexivity. }
  assert (Hr : In (hd (Row 0 0 0 0 0 []) rows) rows) by (rewrite Er; left; reflexivity).
  assert (Hps : pairs 1003900000 10000000000 gap_truth gap_estimates =
                [(Truth 11000000000 (at_x 0), Estimate 12004000000 (at_x 1) no_cov);
                 (Truth 12000000000 (at_x 1), Estimate 12004000000 (at_x 1) no_cov)]) by reflexivity.
  specialize (H tone tone 1003900000 10000000000 gap_truth gap_estimates s rows (hd (Row 0 0 0 0 0 []) rows) U1 U1).
  assert (Z0 : w_trans (hd (Row 0 0 0 0 0 []) rows) = 0%R).
  { apply H; try assumption.
    - repeat (constructor; [repeat constructor; cbn; lia|]). constructor.
    - repeat (constructor; [apply U|]). constructor.
    - repeat (constructor; [apply U|]). constructor.
    - rewrite Hps. intros g e [Hp|[Hp|[]]] Hs; injection Hp as <- <-.
      + unfold synchronous in Hs. cbn in Hs. lia.
      + cbn [g_pose e_pose]. rewrite tinv_one, tmul_one_l, tmul_one_r by apply U. reflexivity. }
  rewrite Er in Z0. cbn [hd w_trans] in Z0. apply dist_zero in Z0. apply (f_equal v3x) in Z0. revert Z0.
  unfold gt_pose. rewrite tinv_one. change tone with (at_x 0). rewrite at_x_inv, !at_x_mul.
  cbn. lra.
Qed.
Print Assumptions C67_exact_refuted.

(** The first pair itself never has an error. *)
Theorem C67_first : forall B e g, unit_tf B -> unit_tf e -> unit_tf g ->
  let W := tmul (tmul e B) (tinv g) in
  trans_error B W e g = 0%R /\ rot_error B W e g = 0%R /\ grav_error B W e g = 0%R.
Proof.
  intros B e g HB He Hg W. apply no_error; try assumption.
  - apply unit_mul; [apply unit_mul; assumption|apply unit_inv, Hg].
  - symmetry. apply aligned_first; assumption.
Qed.
Print Assumptions C67_first.

(** What the errors are.  With the aligned ground truth [t] of a row and the estimate [e]: the
    distance of the positions; the angle of the rotation between the attitudes (its cosine is
    half of the trace minus one, the trace is the sum of the products of corresponding axes);
    the angle between the directions of the world's z axis seen from the bodies.  Both angles
    lie between 0 and pi by [C67_angles].  The variances are the diagonal. *)
Theorem C67_errors : forall B start off gs es s rows r, unit_tf B -> in_order gs ->
  Forall unit_truth gs -> Forall unit_estimate es ->
  loop B start off run_state_new gs es = (s, rows) -> In r rows ->
  exists g0 e0 g e, nth_error (pairs start off gs es) 0 = Some (g0, e0) /\ In (g, e) (pairs start off gs es) /\
    w_time r = g_stamp g + 3900000 - start /\
    let t := tmul (tmul (tmul (tmul (e_pose e0) B) (tinv (g_pose g0))) (g_pose g)) (tinv B) in
    let Re := qrot (tq (e_pose e)) in let Rt := qrot (tq t) in
    let axis v := v3dot (m3vec Re v) (m3vec Rt v) in
    w_trans r = v3norm (v3sub (tt (e_pose e)) (tt t)) /\
    cos (w_rot r) = ((axis (V3 1 0 0) + axis (V3 0 1 0) + axis (V3 0 0 1) - 1) / 2)%R /\
    cos (w_grav r) = v3dot (m3vec (m3tr Re) (V3 0 0 1)) (m3vec (m3tr Rt) (V3 0 0 1)) /\
    w_var r = map (fun i => e_cov e (6 * i + i)%nat) (seq 0 6).
Proof.
  intros B start off gs es s rows r HB Ho Hug Hue E Hin.
  destruct (C67_rows B start off gs es s rows Ho E) as (_ & ks & F & _ & _).
  apply In_nth_error in Hin as [i Hi]. destruct (Forall2_nth _ _ _ _ _ F Hi) as (k & _ & g0 & e0 & g & e & H0 & Hk & ->).
  exists g0, e0, g, e. apply nth_error_In in Hk. split; [exact H0|]. split; [exact Hk|]. split; [reflexivity|].
  apply nth_error_In in H0. destruct (pairs_in _ _ _ _ _ _ H0) as (Hg0 & He0 & _).
  destruct (pairs_in _ _ _ _ _ _ Hk) as (Hg & He & _). rewrite Forall_forall in Hug, Hue.
  cbn [w_trans w_rot w_grav w_var]. split; [reflexivity|].
  destruct (cosines B HB (tmul (tmul (e_pose e0) B) (tinv (g_pose g0))) (e_pose e) (g_pose g)) as [C1 C2].
  - apply unit_mul; [apply unit_mul; [apply Hue, He0|exact HB]|apply unit_inv, Hug, Hg0].
  - apply Hue, He.
  - apply Hug, Hg.
  - split; [exact C1|]. split; [exact C2|reflexivity].
Qed.
Print Assumptions C67_errors.

(** Every row: the error of the gravity direction is at most the attitude error, which is at
    most a half turn; without translation and attitude error the estimate is the aligned ground
    truth. *)
Theorem C67_angles : forall B start off gs es s rows r, unit_tf B -> in_order gs ->
  Forall unit_truth gs -> Forall unit_estimate es ->
  loop B start off run_state_new gs es = (s, rows) -> In r rows ->
  (0 <= w_grav r /\ w_grav r <= w_rot r /\ w_rot r <= PI)%R.
Proof.
  intros B start off gs es s rows r HB Ho Hug Hue E Hin.
  destruct (C67_rows B start off gs es s rows Ho E) as (_ & ks & F & _ & _).
  apply In_nth_error in Hin as [i Hi]. destruct (Forall2_nth _ _ _ _ _ F Hi) as (k & _ & g0 & e0 & g & e & H0 & Hk & ->).
  apply nth_error_In in H0, Hk. destruct (pairs_in _ _ _ _ _ _ H0) as (Hg0 & He0 & _).
  destruct (pairs_in _ _ _ _ _ _ Hk) as (Hg & He & _). rewrite Forall_forall in Hug, Hue.
  cbn [w_rot w_grav]. destruct (angles B HB (tmul (tmul (e_pose e0) B) (tinv (g_pose g0))) (e_pose e) (g_pose g)) as [[? ?] ?].
  - apply unit_mul; [apply unit_mul; [apply Hue, He0|exact HB]|apply unit_inv, Hug, Hg0].
  - apply Hue, He.
  - apply Hug, Hg.
  - auto.
Qed.
Print Assumptions C67_angles.

Theorem C67_zero : forall B W e g, unit_tf B -> unit_tf W -> unit_tf e -> unit_tf g ->
  trans_error B W e g = 0%R -> rot_error B W e g = 0%R ->
  let t := tmul (tmul W g) (tinv B) in
  tt e = tt t /\ (tq e = tq t \/ tq e = qscale (-1) (tq t)).
Proof. intros B W e g HB HW He Hg Ht Hr. exact (error_zero B HB W e g HW He Hg Ht Hr). Qed.
Print Assumptions C67_zero.

(** ** Independence of the frames *)

Definition move_truth (Z0 : tf) (g : truth) : truth := Truth (g_stamp g) (tmul Z0 (g_pose g)).
Definition move_estimate (Y : tf) (e : estimate) : estimate := Estimate (e_stamp e) (tmul Y (e_pose e)) (e_cov e).

(** Same row, except that the gravity error may differ. *)
Definition same_but_gravity (r r' : row) : Prop :=
  w_time r' = w_time r /\ w_dist r' = w_dist r /\ w_trans r' = w_trans r /\ w_rot r' = w_rot r /\ w_var r' = w_var r.

Lemma move_seek : forall Y t es, seek t (map (move_estimate Y) es) = map (move_estimate Y) (seek t es).
Proof.
  intros Y t es. induction es as [|e es IH]; [reflexivity|]. cbn [map seek move_estimate e_stamp].
  destruct (t >? e_stamp e); [exact IH|reflexivity].
Qed.

Definition moved_state (Y Z0 : tf) (s s' : run_state) : Prop :=
  ctr s' = ctr s /\ ds s' = ds s /\ last_time s' = last_time s /\
  (ctr s <> 0%nat -> unit_tf (T_WaWg s) /\ T_WaWg s' = tmul (tmul Y (T_WaWg s)) (tinv Z0) /\
                     T_WgBg_last s' = tmul Z0 (T_WgBg_last s)).

Definition yaw_only (Y : tf) : Prop := qx (tq Y) = 0%R /\ qy (tq Y) = 0%R.

Lemma move_compare : forall B Y Z0 start s s' g e s1 o, unit_tf B -> unit_tf Y -> unit_tf Z0 ->
  unit_truth g -> unit_estimate e -> moved_state Y Z0 s s' ->
  compare B start s g e = (s1, o) ->
  exists s1' o', compare B start s' (move_truth Z0 g) (move_estimate Y e) = (s1', o') /\ moved_state Y Z0 s1 s1' /\
    match o, o' with
    | Some r, Some r' => same_but_gravity r r' /\ (yaw_only Y -> w_grav r' = w_grav r)
    | None, None => True
    | _, _ => False
    end.
Proof.
  intros B Y Z0 start s s' g e s1 o HB HY HZ Hg He (Hc & Hd & Hl & Hw) E.
  eexists _, _. split; [reflexivity|]. unfold compare in E. injection E as <- <-.
  rewrite Hc, Hl, Hd. cbn [move_truth move_estimate g_stamp e_stamp g_pose e_pose e_cov].
  change (g_time (move_truth Z0 g)) with (g_time g).
  set (wr := (Z.abs _ <? _) && _).
  set (W := match ctr s with O => tmul (tmul (e_pose e) B) (tinv (g_pose g)) | _ => T_WaWg s end).
  set (W' := match ctr s with O => tmul (tmul (tmul Y (e_pose e)) B) (tinv (tmul Z0 (g_pose g))) | _ => T_WaWg s' end).
  assert (HWu : unit_tf W).
  { unfold W. destruct (ctr s) eqn:En; [apply unit_mul; [apply unit_mul; assumption|apply unit_inv, Hg]|].
    apply Hw. discriminate. }
  assert (EW : W' = tmul (tmul Y W) (tinv Z0)).
  { unfold W', W. destruct (ctr s) eqn:En.
    - assert (Hig := unit_inv _ Hg). assert (HiZ := unit_inv _ HZ). assert (HeB := unit_mul _ _ He HB).
      rewrite tinv_mul by assumption.
      rewrite <- (tmul_assoc _ (tinv (g_pose g)) (tinv Z0)); [|apply unit_mul; [apply unit_mul; assumption|exact HB]|exact Hig].
      f_equal. rewrite (tmul_assoc Y (e_pose e) B) by assumption. apply tmul_assoc; assumption.
    - apply Hw. discriminate. }
  assert (Ep : v3norm (v3sub (tt (tmul Z0 (g_pose g))) (tt match ctr s with O => tmul Z0 (g_pose g) | _ => T_WgBg_last s' end))
             = v3norm (v3sub (tt (g_pose g)) (tt match ctr s with O => g_pose g | _ => T_WgBg_last s end))).
  { destruct (ctr s) eqn:En; [|destruct Hw as (_ & _ & ->); [discriminate|]].
    - exact (dist_tmul Z0 (g_pose g) (g_pose g) HZ).
    - exact (dist_tmul Z0 (g_pose g) (T_WgBg_last s) HZ). }
  fold W W'. rewrite Ep, EW.
  destruct (moved_errors B HB Y Z0 W (e_pose e) (g_pose g)) as (M1 & M2 & M3); try assumption.
  split.
  - repeat split; try reflexivity. exact HWu.
  - destruct wr; [|exact I]. split.
    + repeat split; cbn; assumption.
    + intros [Hx Hy]. cbn. apply M3; assumption.
Qed.

Theorem C67_frames : forall B Y Z0 start off gs es, unit_tf B -> unit_tf Y -> unit_tf Z0 ->
  Forall unit_truth gs -> Forall unit_estimate es -> forall s rows,
  loop B start off run_state_new gs es = (s, rows) ->
  exists s' rows', loop B start off run_state_new (map (move_truth Z0) gs) (map (move_estimate Y) es) = (s', rows') /\
    Forall2 same_but_gravity rows rows' /\
    (yaw_only Y -> rows' = rows).
Proof.
  intros B Y Z0 start off gs es HB HY HZ Hug Hue s rows E.
  assert (G : forall gs, Forall unit_truth gs -> forall es, Forall unit_estimate es -> forall s0 s0' s rows,
    moved_state Y Z0 s0 s0' -> loop B start off s0 gs es = (s, rows) ->
    exists s' rows', loop B start off s0' (map (move_truth Z0) gs) (map (move_estimate Y) es) = (s', rows') /\
      Forall2 same_but_gravity rows rows' /\ (yaw_only Y -> rows' = rows)).
  { clear gs es Hug Hue s rows E. intros gs Hug. induction Hug as [|g gs Hg _ IH]; intros es Hue s0 s0' s rows Hm E.
    - cbn in E. injection E as <- <-. exists s0', []. split; [reflexivity|]. split; [constructor|reflexivity].
    - cbn [loop map] in *. change (g_time (move_truth Z0 g)) with (g_time g) in *. rewrite move_seek.
      assert (Hs : Forall unit_estimate (seek (g_time g) es)).
      { clear - Hue. induction Hue as [|e es He Hes IH]; [constructor|]. cbn [seek].
        destruct (g_time g >? e_stamp e); [exact IH|constructor; assumption]. }
      destruct (seek (g_time g) es) as [|e es'] eqn:Es.
      + injection E as <- <-. exists s0', []. split; [reflexivity|]. split; [constructor|reflexivity].
      + cbn [map]. destruct (g_time g - start >=? off).
        * destruct (compare B start s0 g e) as [s1 o] eqn:Ec.
          destruct (move_compare B Y Z0 start s0 s0' g e s1 o) as (s1' & o' & Ec' & Hm' & Ho); try assumption.
          { inversion Hs; assumption. }
          rewrite Ec'. destruct (loop B start off s1 gs (e :: es')) as [s2 rows1] eqn:El. injection E as <- <-.
          destruct (IH _ Hs _ _ _ _ Hm' El) as (s2' & rows1' & El' & F & Hy). cbn [map] in El'. rewrite El'.
          destruct o as [r|], o' as [r'|]; try contradiction.
          -- destruct Ho as [Ho Hgr]. eexists _, _. split; [reflexivity|]. split; [constructor; assumption|].
             intros Hyaw. rewrite (Hy Hyaw). f_equal. specialize (Hgr Hyaw). destruct Ho as (? & ? & ? & ? & ?).
             destruct r, r'. cbn in *. subst. reflexivity.
          -- eexists _, _. split; [reflexivity|]. split; assumption.
        * exact (IH _ Hs _ _ _ _ Hm E). }
  apply (G gs Hug es Hue run_state_new run_state_new s rows); [|exact E].
  do 3 (split; [reflexivity|]). intros C. destruct (C eq_refl).
Qed.
Print Assumptions C67_frames.

(** ** Termination *)

Lemma loop_late : forall B start off s gs es, Forall (fun g => g_stamp g + 3900000 - start < off) gs ->
  loop B start off s gs es = (s, []).
Proof.
  intros B start off s gs es H. revert es. induction H as [|g gs Hg _ IH]; intros es; [reflexivity|]. cbn [loop].
  destruct (seek (g_time g) es) as [|e es']; [reflexivity|].
  unfold g_time at 1, clock_offset. rewrite Z.geb_leb. destruct (Z.leb_spec off (g_stamp g + 3900000 - start)); [lia|apply IH].
Qed.

Lemma runs_end : forall B single gs es M, gs <> [] -> Forall (fun g => g_stamp g <= M) gs -> forall fuel off,
  (forall g0, hd_error gs = Some g0 -> M - g_stamp g0 < off + Z.of_nat fuel * 10000000000) ->
  exists rows, runs B (S fuel) single off gs es = Some rows.
Proof.
  intros B single gs es M Hne HM fuel. induction fuel as [|fuel IH]; intros off Hb;
    destruct gs as [|g0 gs]; [contradiction| |contradiction|]; specialize (Hb g0 eq_refl) as Hb0.
  - cbn [runs]. rewrite loop_late.
    + cbn. eexists. reflexivity.
    + eapply Forall_impl; [|exact HM]. cbn. intros g Hg. unfold g_time, clock_offset. lia.
  - remember (S fuel) as f eqn:Ef. cbn [runs]. destruct (loop B (g_time g0) off run_state_new (g0 :: gs) es) as [s rows].
    destruct ((ctr s =? 0)%nat || single); [eexists; reflexivity|]. subst f.
    destruct (IH (off + time_step)) as [more Em].
    { intros h Hh. injection Hh as <-. unfold time_step. lia. }
    rewrite Em. eexists. reflexivity.
Qed.

Lemma runs_more : forall B single gs es fuel off rows, runs B fuel single off gs es = Some rows ->
  runs B (S fuel) single off gs es = Some rows.
Proof.
  intros B single gs es fuel. induction fuel as [|fuel IH]; intros off rows E; [discriminate|].
  destruct gs as [|g0 gs]; [discriminate|]. remember (S fuel) as f eqn:Ef. cbn [runs]. rewrite Ef in E. cbn [runs] in E.
  destruct (loop B (g_time g0) off run_state_new (g0 :: gs) es) as [s r].
  destruct ((ctr s =? 0)%nat || single); [exact E|].
  destruct (runs B fuel single (off + time_step) (g0 :: gs) es) as [more|] eqn:Em; [|discriminate].
  rewrite (IH _ _ Em). exact E.
Qed.

Lemma align_suffix : forall t gs gs', align t gs = Some gs' -> gs' <> [] /\ forall g, In g gs' -> In g gs.
Proof.
  intros t gs. induction gs as [|g gs IH]; intros gs' E; [discriminate|]. cbn [align] in E.
  destruct (t >=? g_time g).
  - destruct (IH _ E) as [Hne Hin]. split; [exact Hne|]. intros h Hh. right. apply Hin, Hh.
  - injection E as <-. split; [discriminate|]. auto.
Qed.

Lemma bounded : forall gs : list truth, exists M, Forall (fun g => g_stamp g <= M) gs.
Proof.
  induction gs as [|g gs [M IH]]; [exists 0; constructor|]. exists (Z.max M (g_stamp g)). constructor; [lia|].
  eapply Forall_impl; [|exact IH]. cbn. intros h Hh. lia.
Qed.

(** The tool stops on every recording, with a result that does not depend on the fuel. *)
Theorem C67_terminates : forall B single gs es, exists n x,
  forall fuel, (n <= fuel)%nat -> eval_main B fuel single gs es = Some x.
Proof.
  intros B single gs es. unfold eval_main. destruct es as [|e0 es]; [exists 0%nat, (-1, []); reflexivity|].
  destruct gs as [|g0 gs]; [exists 0%nat, (-1, []); reflexivity|].
  destruct (align (e_stamp e0) (g0 :: gs)) as [gs'|] eqn:Ea; [|exists 0%nat, (0, []); reflexivity].
  destruct (align_suffix _ _ _ Ea) as [Hne _]. destruct (bounded gs') as [M HM].
  set (low := match gs' with g :: _ => g_stamp g | [] => 0 end).
  destruct (runs_end B single gs' (e0 :: es) M Hne HM (Z.to_nat (M - low)) start_time_offset) as [rows Er].
  { intros h Hh. unfold low, start_time_offset. destruct gs' as [|g1 gs1]; [discriminate|]. injection Hh as <-. nia. }
  exists (S (Z.to_nat (M - low))), (0, rows). intros fuel Hle.
  assert (R : runs B fuel single start_time_offset gs' (e0 :: es) = Some rows).
  { induction Hle as [|fuel _ IH]; [exact Er|]. apply runs_more, IH. }
  rewrite R. reflexivity.
Qed.
Print Assumptions C67_terminates.

(** ** What it does not do *)

(** It does not take the estimate that is closest in time (the comment in line 223): an estimate
    1 ms older is passed over for one 4 ms younger. *)
Theorem C67_closest_refuted : exists es g e e', partner es g = Some e /\ In e' es /\
  Z.abs (g_stamp g + 3900000 - e_stamp e') < Z.abs (g_stamp g + 3900000 - e_stamp e) /\ synchronous (g, e).
Proof.
  exists [Estimate 1002900000 (at_x 0) no_cov; Estimate 1007900000 (at_x 0) no_cov], (Truth 1000000000 (at_x 0)),
         (Estimate 1007900000 (at_x 0) no_cov), (Estimate 1002900000 (at_x 0) no_cov).
  split; [reflexivity|]. split; [left; reflexivity|]. unfold synchronous. cbn. lia.
Qed.
Print Assumptions C67_closest_refuted.

(** When no ground truth is younger than the first estimate it says so, and exits with 0. *)
Theorem C67_exit_refuted : exists gs es, align (e_stamp (hd (Estimate 0 tone no_cov) es)) gs = None /\ gs <> [] /\ es <> [] /\
  forall B fuel single, eval_main B fuel single gs es = Some (0, []).
Proof.
  exists [Truth 0 (at_x 0)], [Estimate 1000000000 (at_x 0) no_cov].
  split; [reflexivity|]. split; [discriminate|]. split; [discriminate|]. reflexivity.
Qed.
Print Assumptions C67_exit_refuted.

(** ** An example: three ground truth poses behind the offset, three estimates, two rows. *)
Definition ex_truth : list truth :=
  [Truth 1000000000 (at_x 0); Truth 12000000000 (at_x 0); Truth 12040000000 (at_x 1); Truth 12080000000 (at_x 2)].
Definition ex_estimates : list estimate :=
  [Estimate 1000000000 (at_x 5) no_cov; Estimate 12004000000 (at_x 5) no_cov;
   Estimate 12044000000 (at_x 6) no_cov; Estimate 12084000000 (at_x 7) no_cov].
Example C67_ex :
  pairs 1003900000 10000000000 ex_truth ex_estimates =
    [(Truth 12000000000 (at_x 0), Estimate 12004000000 (at_x 5) no_cov);
     (Truth 12040000000 (at_x 1), Estimate 12044000000 (at_x 6) no_cov);
     (Truth 12080000000 (at_x 2), Estimate 12084000000 (at_x 7) no_cov)] /\
  map w_time (snd (loop tone 1003900000 10000000000 run_state_new ex_truth ex_estimates)) = [11000000000; 11080000000] /\
  in_order ex_truth /\ Forall unit_truth ex_truth /\ Forall unit_estimate ex_estimates /\
  (forall g e, In (g, e) (pairs 1003900000 10000000000 ex_truth ex_estimates) ->
     e_pose e = tmul (tmul (at_x 5) (g_pose g)) (tinv tone)) /\
  (exists rows, eval_main tone 3 false ex_truth ex_estimates = Some (0, rows)).
Proof.
  assert (Hp : pairs 1003900000 10000000000 ex_truth ex_estimates =
    [(Truth 12000000000 (at_x 0), Estimate 12004000000 (at_x 5) no_cov);
     (Truth 12040000000 (at_x 1), Estimate 12044000000 (at_x 6) no_cov);
     (Truth 12080000000 (at_x 2), Estimate 12084000000 (at_x 7) no_cov)]) by reflexivity.
  assert (U := at_x_unit).
  split; [exact Hp|]. split; [reflexivity|].
  split; [repeat (constructor; [repeat constructor; cbn; lia|]); constructor|].
  split; [repeat (constructor; [apply U|]); constructor|].
  split; [repeat (constructor; [apply U|]); constructor|].
  split; [|eexists; reflexivity].
  rewrite Hp. intros g e [H|[H|[H|[]]]]; injection H as <- <-; cbn [g_pose e_pose];
    rewrite at_x_mul, tinv_one, tmul_one_r by apply U; unfold at_x; repeat f_equal; ring.
Qed.
