(** C61: distortion of pose readings. *)

From Coq Require Import Reals List Lra Lia.
From Verif Require Import Handlers Geom GeomProofs Distort DistortSpec DistortProofs.
Import ListNotations.
Local Open Scope R_scope.

(** The only distorted sensor of a process, none of whose messages but the last may be
    stamped 0.  The first pose is read as it is.  Every later one is moved by the sum of the
    drawn velocities times the time passed, then scaled by one plus the sum of the drawn scale
    rates times the time passed, and turned by the product of the small rotations drawn; the
    turning is a rotation, so the reading keeps its norm. *)
Theorem C61_walk : forall m0 ms m, at_time m0 <> 0 -> sensor m0 = 0%nat ->
  (forall x, In x ms -> sensor x = 0%nat /\ at_time x <> 0) -> sensor m = 0%nat ->
  exists s outs p q,
    read_poses (readers_new 1) (m0 :: ms ++ [m]) = (s, (m_pos m0, m_att m0) :: outs ++ [(p, q)]) /\
    length outs = length ms /\
    p = v3scale (1 + walked d_scale (at_time m0) (ms ++ [m]))
          (v3add (m_pos m) (walked3 (at_time m0) (ms ++ [m]))) /\
    q = qmul (m_att m) (turned (at_time m0) (ms ++ [m]) qone) /\
    qnorm2 (turned (at_time m0) (ms ++ [m]) qone) = 1 /\ qnorm2 q = qnorm2 (m_att m).
Proof.
  intros m0 ms m h0 e0 hm em. destruct (run_last m0 ms m h0 e0 hm em) as (s & outs & hr & hl).
  assert (U := after_att_unit (at_time m0) (ms ++ [m])). cbn [after attdrift] in U.
  exists s, outs. eexists; eexists. repeat split; eauto. rewrite qnorm2_mul, U. ring.
Qed.
Print Assumptions C61_walk.

(** Constant rates (standard deviation 0): how far the reading has drifted depends only on
    the time since the first message, not on how many there were. *)
Theorem C61_constant : forall m0 ms m v k, at_time m0 <> 0 -> sensor m0 = 0%nat ->
  (forall x, In x ms -> sensor x = 0%nat /\ at_time x <> 0) -> sensor m = 0%nat ->
  (forall x, In x (ms ++ [m]) -> d_pos (drawn x) = v /\ d_scale (drawn x) = k) ->
  exists s outs q, let T := at_time m - at_time m0 in
    read_poses (readers_new 1) (m0 :: ms ++ [m]) =
      (s, outs ++ [(v3scale (1 + k * T) (v3add (m_pos m) (v3scale T v)), q)]).
Proof.
  intros m0 ms m v k h0 e0 hm em hc. destruct (run_last m0 ms m h0 e0 hm em) as (s & outs & hr & hl).
  exists s, ((m_pos m0, m_att m0) :: outs). eexists. cbv zeta. rewrite hr. cbn [app]. repeat f_equal.
  - rewrite (walked_const d_scale k); [|intros x hx; apply (hc x hx)]. rewrite last_snoc. ring.
  - unfold walked3.
    rewrite (walked_const (fun w => v3x (d_pos w)) (v3x v)); [|intros x hx; destruct (hc x hx) as [-> _]; auto].
    rewrite (walked_const (fun w => v3y (d_pos w)) (v3y v)); [|intros x hx; destruct (hc x hx) as [-> _]; auto].
    rewrite (walked_const (fun w => v3z (d_pos w)) (v3z v)); [|intros x hx; destruct (hc x hx) as [-> _]; auto].
    rewrite last_snoc. unfold v3scale. f_equal; ring.
Qed.
Print Assumptions C61_constant.

(** Any number of sensors, any stamps: if nothing is drawn but zeros, nothing is distorted. *)
Theorem C61_quiet : forall n ms, (forall m, In m ms -> quiet (drawn m)) ->
  snd (read_poses (readers_new n) ms) = map (fun m => (m_pos m, m_att m)) ms.
Proof.
  intros n ms h.
  enough (G : forall s, (forall i d, nth_error (distorters s) i = Some (Some d) -> d = distorter_new) ->
    snd (read_poses s ms) = map (fun m => (m_pos m, m_att m)) ms).
  { apply G. cbn. intros i d. clear. revert i. induction n as [|n IH]; intros [|i]; cbn; try discriminate; eauto.
    congruence. }
  induction ms as [|m r IH]; intros s hs; cbn [read_poses map]; auto.
  assert (hr : forall x, In x r -> quiet (drawn x)) by (intros; apply h; now right).
  assert (hq := h m (or_introl eq_refl)). destruct hq as (q1 & q2 & q3).
  unfold read_pose. destruct (nth_error (distorters s) (sensor m)) as [[d|]|] eqn:E.
  - rewrite (hs _ _ E). destruct (Req_EM_T (tlast s) 0).
    + specialize (IH hr (Readers (at_time m) (distorters s)) hs).
      destruct (read_poses _ r). cbn [snd] in *. now rewrite IH.
    + unfold distort, distort_pos, distort_att, distorter_new. rewrite q1, q2, q3. cbn [posdrift attdrift scaledrift].
      set (dt := at_time m - tlast s).
      assert (Z : V3 (v3x v3zero * dt) (v3y v3zero * dt) (v3z v3zero * dt) = v3zero).
      { unfold v3zero. cbn. f_equal; ring. }
      assert (SQ : qnormalize (small_quat v3zero) = qone).
      { rewrite qnormalize_id by apply small_quat_unit. 
        rewrite <- (small_quat_zero 1). f_equal. unfold v3scale, v3zero. cbn. f_equal; ring. }
      rewrite Z, SQ.
      assert (W : qmul qone qone = qone) by apply qmul_one.
      assert (V : v3add v3zero v3zero = v3zero) by (unfold v3add, v3zero; cbn; f_equal; ring).
      rewrite W, V. replace (1 + 0 * dt) with 1 by ring.
      set (s' := Readers _ _). specialize (IH hr s').
      destruct (read_poses s' r) as [s2 os]. cbn [snd] in *. rewrite IH; [|].
      * f_equal. f_equal; [|apply qmul_one]. destruct (m_pos m). unfold v3scale, v3add, v3zero. cbn. f_equal; ring.
      * cbn [distorters s']. intros i d'. clear - hs E.
        assert (K : forall l, (forall i d, nth_error l i = Some (Some d) -> d = distorter_new) -> forall j i d,
          nth_error (upd l j (Some distorter_new)) i = Some (Some d) -> d = distorter_new).
        { clear. induction l as [|x l IH]; intros hl [|j] [|i] d; cbn; try discriminate; try congruence.
          - exact (hl (S i) d).
          - exact (hl 0%nat d).
          - apply IH. intros k e. apply (hl (S k) e). }
        apply K. exact hs.
  - specialize (IH hr s hs). destruct (read_poses s r). cbn [snd] in *. now rewrite IH.
  - specialize (IH hr s hs). destruct (read_poses s r). cbn [snd] in *. now rewrite IH.
Qed.
Print Assumptions C61_quiet.

(** Any number of distorted sensors: what each of them really walks.  The rates are its own,
    but the time is counted from the last message of any sensor. *)
Theorem C61_shared : forall n m0 ms m, at_time m0 <> 0 -> (sensor m0 < n)%nat ->
  (forall x, In x ms -> (sensor x < n)%nat /\ at_time x <> 0) -> (sensor m < n)%nat ->
  let i := sensor m in
  exists s outs q,
    read_poses (readers_new n) (m0 :: ms ++ [m]) = (s, (m_pos m0, m_att m0) :: outs ++
      [(v3scale (1 + walked_of i d_scale (at_time m0) (ms ++ [m]))
          (v3add (m_pos m) (walked3_of i (at_time m0) (ms ++ [m]))), q)]) /\
    q = qmul (m_att m) (turned_of i (at_time m0) (ms ++ [m]) qone) /\ qnorm2 q = qnorm2 (m_att m).
Proof.
  intros n m0 ms m h0 e0 hm em i. destruct (run_last_of n m0 ms m h0 e0 hm em) as (s & outs & hr).
  exists s, outs. eexists. split; [exact hr|]. split; [reflexivity|].
  rewrite qnorm2_mul, turned_of_norm. unfold qone, qnorm2. cbn. ring.
Qed.
Print Assumptions C61_shared.

(** "A constant rate moves a reading by the time since the sensor's first message" is false
    with two distorted sensors, because they share the variable that holds the time of the
    last message: the first sensor has moved by one after two seconds, and the first reading
    of the second one is already distorted. *)
Definition rate1 : draws := Draws (V3 1 0 0) 0 v3zero.
Definition turns (i : nat) (t : R) : message := Message i t rate1 v3zero qone.
Theorem C61_two_sensors_refuted : exists ms s p1 p2 p3 q1 q2 q3,
  (forall m, In m ms -> at_time m <> 0 /\ drawn m = rate1 /\ m_pos m = v3zero) /\
  map sensor ms = [0; 1; 0]%nat /\ map at_time ms = [1; 2; 3] /\
  read_poses (readers_new 2) ms = (s, [(p1, q1); (p2, q2); (p3, q3)]) /\
  p1 = v3zero /\ p2 = V3 1 0 0 /\ p3 = V3 1 0 0.
Proof.
  exists [turns 0 1; turns 1 2; turns 0 3].
  do 7 eexists. split; [|split; [reflexivity|split; [reflexivity|split]]].
  - intros m [<-|[<-|[<-|[]]]]; cbn; repeat split; lra.
  - unfold read_poses, read_pose, readers_new, turns. cbn [sensor distorters repeat nth_error tlast at_time].
    destruct (Req_EM_T 0 0); [|congruence]. cbn [distorters nth_error tlast at_time].
    destruct (Req_EM_T 1 0); [lra|]. unfold distort, distort_pos, distort_att. cbn [distorters nth_error tlast at_time upd repeat].
    destruct (Req_EM_T 2 0); [lra|]. cbn [distorters nth_error tlast at_time upd].
    reflexivity.
  - cbn. repeat split; unfold v3scale, v3add; cbn; f_equal; ring.
Qed.
Print Assumptions C61_two_sensors_refuted.

(** A reading can lose the position altogether: the scale reaches 0. *)
Theorem C61_scale_refuted : exists w dt d, fst (distort_pos distorter_new w dt v3zero) = d /\
  scaledrift d = 0 /\ forall p, snd (distort_pos distorter_new w dt p) = v3zero.
Proof.
  exists (Draws v3zero (-1) v3zero), 1. eexists. split; [reflexivity|]. split; [cbn; ring|].
  intros p. unfold distort_pos, v3scale, v3zero. cbn. f_equal; ring.
Qed.
Print Assumptions C61_scale_refuted.

Example C61_ex : exists m0 ms m, at_time m0 <> 0 /\ sensor m0 = 0%nat /\
  (forall x, In x ms -> sensor x = 0%nat /\ at_time x <> 0) /\ sensor m = 0%nat /\ ms <> [] /\
  (forall x, In x (ms ++ [m]) -> d_pos (drawn x) = V3 1 0 0 /\ d_scale (drawn x) = 0) /\
  walked3 (at_time m0) (ms ++ [m]) = V3 4 0 0.
Proof.
  exists (turns 0 1), [turns 0 2; turns 0 4], (turns 0 5).
  repeat split; try (cbn; lra); try discriminate.
  - destruct H as [<-|[<-|[]]]; reflexivity.
  - destruct H as [<-|[<-|[]]]; cbn; lra.
  - destruct H as [<-|[<-|[<-|[]]]]; reflexivity.
  - destruct H as [<-|[<-|[<-|[]]]]; reflexivity.
  - unfold walked3. cbn. f_equal; ring.
Qed.
