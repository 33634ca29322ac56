(** Lemmas for the distorter. *)

From Coq Require Import Reals List Lra Lia.
From Verif Require Import Handlers Geom GeomProofs Distort DistortSpec.
Import ListNotations.
Local Open Scope R_scope.

Definition after (t0 : R) (ms : list message) : distorter :=
  Distorter (walked3 t0 ms) (turned t0 ms qone) (1 + walked d_scale t0 ms).
Fixpoint last_time (t : R) (ms : list message) : R :=
  match ms with [] => t | m :: r => last_time (at_time m) r end.

Lemma walked_snoc f ms : forall t m, walked f t (ms ++ [m]) = walked f t ms + f (drawn m) * (at_time m - last_time t ms).
Proof. induction ms as [|x r IH]; intros t m; cbn; [ring|rewrite IH; ring]. Qed.
Lemma turned_snoc ms : forall t q m, turned t (ms ++ [m]) q =
  qmul (turned t ms q) (small_quat (v3scale (at_time m - last_time t ms) (d_att (drawn m)))).
Proof. induction ms as [|x r IH]; intros t q m; cbn; auto. Qed.
Lemma last_snoc ms : forall t m, last_time t (ms ++ [m]) = at_time m.
Proof. induction ms as [|x r IH]; intros t m; cbn; auto. Qed.
Lemma turned_norm ms : forall t q, qnorm2 (turned t ms q) = qnorm2 q.
Proof.
  induction ms as [|x r IH]; intros t q; cbn; auto.
  rewrite IH, qnorm2_mul, small_quat_unit. ring.
Qed.
Lemma after_att_unit t ms : qnorm2 (attdrift (after t ms)) = 1.
Proof. cbn. rewrite turned_norm. unfold qone, qnorm2. cbn. ring. Qed.

(** One call on the walk so far. *)
Lemma distort_after t0 ms m :
  distort (after t0 ms) (drawn m) (at_time m - last_time t0 ms) (m_pos m) (m_att m) =
  (after t0 (ms ++ [m]),
   v3scale (1 + walked d_scale t0 (ms ++ [m])) (v3add (m_pos m) (walked3 t0 (ms ++ [m]))),
   qmul (m_att m) (turned t0 (ms ++ [m]) qone)).
Proof.
  unfold distort, distort_pos, distort_att, after. cbn [posdrift attdrift scaledrift].
  assert (E : forall a, qnormalize (small_quat a) = small_quat a).
  { intros a. apply qnormalize_id, small_quat_unit. }
  rewrite E. unfold walked3. rewrite !walked_snoc, !turned_snoc.
  set (dt := at_time m - last_time t0 ms).
  assert (S : V3 (v3x (d_att (drawn m)) * dt) (v3y (d_att (drawn m)) * dt) (v3z (d_att (drawn m)) * dt) =
              v3scale dt (d_att (drawn m))).
  { apply v3_eq; cbn; ring. }
  rewrite S. replace (1 + walked d_scale t0 ms + d_scale (drawn m) * dt) with (1 + (walked d_scale t0 ms + d_scale (drawn m) * dt)) by ring.
  reflexivity.
Qed.

Definition state_of (t0 : R) (ms : list message) : readers :=
  Readers (last_time t0 ms) [Some (after t0 ms)].

Lemma read_first m : sensor m = 0%nat ->
  read_pose (readers_new 1) m = (state_of (at_time m) [], (m_pos m, m_att m)).
Proof.
  intros e. unfold read_pose, readers_new. rewrite e. cbn [distorters repeat nth_error tlast].
  destruct (Req_EM_T 0 0); [|congruence].
  unfold state_of, after, walked3, distorter_new. cbn. repeat f_equal; try ring.
Qed.

Lemma read_next t0 ms m : sensor m = 0%nat -> last_time t0 ms <> 0 ->
  read_pose (state_of t0 ms) m = (state_of t0 (ms ++ [m]),
    (v3scale (1 + walked d_scale t0 (ms ++ [m])) (v3add (m_pos m) (walked3 t0 (ms ++ [m]))),
     qmul (m_att m) (turned t0 (ms ++ [m]) qone))).
Proof.
  intros e h. unfold read_pose, state_of. rewrite e. cbn [distorters nth_error tlast].
  destruct (Req_EM_T (last_time t0 ms) 0); [contradiction|].
  rewrite distort_after, last_snoc. reflexivity.
Qed.

Lemma read_app s ms ns : read_poses s (ms ++ ns) =
  let '(s1, o1) := read_poses s ms in let '(s2, o2) := read_poses s1 ns in (s2, o1 ++ o2).
Proof.
  revert s. induction ms as [|m r IH]; intros s; cbn [read_poses app].
  - destruct (read_poses s ns); reflexivity.
  - destruct (read_pose s m) as [s1 o]. rewrite IH.
    destruct (read_poses s1 r) as [s2 os]. destruct (read_poses s2 ns). reflexivity.
Qed.

Lemma run_one ms : forall t0, t0 <> 0 ->
  (forall m, In m ms -> sensor m = 0%nat /\ at_time m <> 0) ->
  fst (read_poses (state_of t0 []) ms) = state_of t0 ms /\ last_time t0 ms <> 0.
Proof.
  induction ms as [|m r IH] using rev_ind; intros t0 h0 hm; cbn; auto.
  destruct (IH t0 h0) as [e l]. { intros x hx. apply hm. apply in_or_app; auto. }
  destruct (hm m) as [em tm]. { apply in_or_app; right; now left. }
  rewrite read_app. destruct (read_poses (state_of t0 []) r) as [s1 o1]. cbn [fst] in e. subst s1.
  cbn [read_poses]. rewrite (read_next t0 r m em l). cbn [fst]. rewrite last_snoc. auto.
Qed.

Lemma run_last m0 ms m : at_time m0 <> 0 -> sensor m0 = 0%nat ->
  (forall x, In x ms -> sensor x = 0%nat /\ at_time x <> 0) -> sensor m = 0%nat ->
  exists s outs, read_poses (readers_new 1) (m0 :: ms ++ [m]) = (s, (m_pos m0, m_att m0) :: outs ++
    [(v3scale (1 + walked d_scale (at_time m0) (ms ++ [m])) (v3add (m_pos m) (walked3 (at_time m0) (ms ++ [m]))),
      qmul (m_att m) (turned (at_time m0) (ms ++ [m]) qone))]) /\ length outs = length ms.
Proof.
  intros h0 e0 hm em. cbn [read_poses]. rewrite (read_first m0 e0), read_app.
  destruct (run_one ms (at_time m0) h0 hm) as [e l].
  assert (L : forall s ns, length (snd (read_poses s ns)) = length ns).
  { intros s ns; revert s. induction ns as [|x r IH]; intros s; cbn [read_poses]; auto.
    destruct (read_pose s x) as [s1 o]. specialize (IH s1). destruct (read_poses s1 r). cbn in *. lia. }
  specialize (L (state_of (at_time m0) []) ms).
  destruct (read_poses (state_of (at_time m0) []) ms) as [s1 o1]. cbn [fst snd] in e, L. subst s1.
  cbn [read_poses]. rewrite (read_next _ ms m em l).
  eexists; exists o1; split; [reflexivity|exact L].
Qed.

Lemma walked_const f c ms : (forall m, In m ms -> f (drawn m) = c) -> forall t,
  walked f t ms = c * (last_time t ms - t).
Proof.
  intros h. induction ms as [|m r IH]; intros t; cbn.
  - ring.
  - rewrite (h m (or_introl eq_refl)), IH; [ring|]. intros x hx. apply h. now right.
Qed.
Lemma qmul_one q : qmul q qone = q.
Proof. destruct q. unfold qmul, qone. cbn. f_equal; ring. Qed.
Lemma small_quat_zero k : small_quat (v3scale k v3zero) = qone.
Proof.
  unfold small_quat, v3norm2, v3dot, v3scale, v3zero, qone. cbn.
  replace ((k * 0 * (k * 0) + k * 0 * (k * 0) + k * 0 * (k * 0)) / 4) with 0 by field.
  destruct (Rlt_dec 0 1); [|lra]. rewrite Rminus_0_r, sqrt_1. f_equal; ring.
Qed.
Lemma turned_zero ms : (forall m, In m ms -> d_att (drawn m) = v3zero) -> forall t q, turned t ms q = q.
Proof.
  intros h. induction ms as [|m r IH]; intros t q; cbn; auto.
  rewrite (h m (or_introl eq_refl)), small_quat_zero, qmul_one. apply IH.
  intros x hx. apply h. now right.
Qed.

(** ** Several sensors *)
Definition after_of (i : nat) (t0 : R) (ms : list message) : distorter :=
  Distorter (walked3_of i t0 ms) (turned_of i t0 ms qone) (1 + walked_of i d_scale t0 ms).

Lemma walked_of_snoc i f ms : forall t m, walked_of i f t (ms ++ [m]) = walked_of i f t ms +
  (if Nat.eqb (sensor m) i then f (drawn m) * (at_time m - last_time t ms) else 0).
Proof. induction ms as [|x r IH]; intros t m; cbn; [ring|rewrite IH; ring]. Qed.
Lemma turned_of_snoc i ms : forall t q m, turned_of i t (ms ++ [m]) q =
  (if Nat.eqb (sensor m) i
   then qmul (turned_of i t ms q) (small_quat (v3scale (at_time m - last_time t ms) (d_att (drawn m))))
   else turned_of i t ms q).
Proof. induction ms as [|x r IH]; intros t q m; cbn; auto. Qed.

Lemma after_of_other i t0 ms m : sensor m <> i -> after_of i t0 (ms ++ [m]) = after_of i t0 ms.
Proof.
  intros h. apply PeanoNat.Nat.eqb_neq in h. unfold after_of, walked3_of.
  rewrite !walked_of_snoc, turned_of_snoc, h, !Rplus_0_r. reflexivity.
Qed.
Lemma distort_after_of t0 ms m :
  distort (after_of (sensor m) t0 ms) (drawn m) (at_time m - last_time t0 ms) (m_pos m) (m_att m) =
  (after_of (sensor m) t0 (ms ++ [m]),
   v3scale (1 + walked_of (sensor m) d_scale t0 (ms ++ [m])) (v3add (m_pos m) (walked3_of (sensor m) t0 (ms ++ [m]))),
   qmul (m_att m) (turned_of (sensor m) t0 (ms ++ [m]) qone)).
Proof.
  unfold distort, distort_pos, distort_att, after_of. cbn [posdrift attdrift scaledrift].
  assert (E : forall a, qnormalize (small_quat a) = small_quat a).
  { intros a. apply qnormalize_id, small_quat_unit. }
  rewrite E. unfold walked3_of. rewrite !walked_of_snoc, !turned_of_snoc, PeanoNat.Nat.eqb_refl.
  set (dt := at_time m - last_time t0 ms).
  assert (S : V3 (v3x (d_att (drawn m)) * dt) (v3y (d_att (drawn m)) * dt) (v3z (d_att (drawn m)) * dt) =
              v3scale dt (d_att (drawn m))).
  { apply v3_eq; cbn; ring. }
  rewrite S. set (a := walked_of (sensor m) d_scale t0 ms).
  replace (1 + a + d_scale (drawn m) * dt) with (1 + (a + d_scale (drawn m) * dt)) by ring.
  reflexivity.
Qed.

Definition states_of (n : nat) (t0 : R) (ms : list message) : readers :=
  Readers (last_time t0 ms) (map (fun i => Some (after_of i t0 ms)) (seq 0 n)).

Lemma upd_map {A} (f g : nat -> A) n : forall a k, (forall i, i <> (a + k)%nat -> f i = g i) -> (k < n)%nat ->
  upd (map f (seq a n)) k (g (a + k)%nat) = map g (seq a n).
Proof.
  induction n as [|n IH]; intros a k h hk; [lia|]. cbn. destruct k as [|k]; cbn.
  - rewrite PeanoNat.Nat.add_0_r. f_equal. apply map_ext_in. intros i hi. apply in_seq in hi. apply h. lia.
  - f_equal; [apply h; lia|]. replace (a + S k)%nat with (S a + k)%nat by lia. apply IH; [|lia].
    intros i hi. apply h. lia.
Qed.
Lemma nth_map_seq {A} (f : nat -> A) n : forall a k, (k < n)%nat -> nth_error (map f (seq a n)) k = Some (f (a + k)%nat).
Proof.
  induction n as [|n IH]; intros a k hk; [lia|]. destruct k; cbn.
  - now rewrite PeanoNat.Nat.add_0_r.
  - rewrite IH by lia. do 2 f_equal. lia.
Qed.

Lemma read_first_of n m : (sensor m < n)%nat ->
  read_pose (readers_new n) m = (states_of n (at_time m) [], (m_pos m, m_att m)).
Proof.
  intros e. unfold read_pose, readers_new. cbn [distorters tlast].
  assert (E : repeat (Some distorter_new) n = map (fun i => Some (after_of i (at_time m) [])) (seq 0 n)).
  { assert (D : forall i, after_of i (at_time m) [] = distorter_new).
    { intros i. unfold after_of, walked3_of, distorter_new. cbn. rewrite Rplus_0_r. reflexivity. }
    clear e. generalize 0%nat. induction n as [|n IH]; intros a; cbn; auto. rewrite D, <- IH. reflexivity. }
  rewrite E, nth_map_seq by exact e.
  destruct (Req_EM_T 0 0); [reflexivity|congruence].
Qed.
Lemma read_next_of n t0 ms m : (sensor m < n)%nat -> last_time t0 ms <> 0 ->
  read_pose (states_of n t0 ms) m = (states_of n t0 (ms ++ [m]),
    (v3scale (1 + walked_of (sensor m) d_scale t0 (ms ++ [m])) (v3add (m_pos m) (walked3_of (sensor m) t0 (ms ++ [m]))),
     qmul (m_att m) (turned_of (sensor m) t0 (ms ++ [m]) qone))).
Proof.
  intros e h. unfold read_pose, states_of. cbn [distorters tlast]. rewrite nth_map_seq by exact e.
  cbn [Nat.add]. destruct (Req_EM_T (last_time t0 ms) 0); [contradiction|].
  rewrite distort_after_of, last_snoc. f_equal. f_equal.
  rewrite <- (upd_map (fun i => Some (after_of i t0 ms)) (fun i => Some (after_of i t0 (ms ++ [m]))) n 0 (sensor m)).
  - reflexivity.
  - cbn. intros i hi. rewrite after_of_other; auto.
  - exact e.
Qed.
Lemma run_one_of n ms : forall t0, t0 <> 0 ->
  (forall m, In m ms -> (sensor m < n)%nat /\ at_time m <> 0) ->
  fst (read_poses (states_of n t0 []) ms) = states_of n t0 ms /\ last_time t0 ms <> 0.
Proof.
  induction ms as [|m r IH] using rev_ind; intros t0 h0 hm; cbn [read_poses fst last_time]; auto.
  destruct (IH t0 h0) as [e l]. { intros x hx. apply hm. apply in_or_app; auto. }
  destruct (hm m) as [em tm]. { apply in_or_app; right; now left. }
  rewrite read_app. destruct (read_poses (states_of n t0 []) r) as [s1 o1]. cbn [fst] in e. subst s1.
  cbn [read_poses]. rewrite (read_next_of n t0 r m em l). cbn [fst]. rewrite last_snoc. auto.
Qed.
Lemma run_last_of n m0 ms m : at_time m0 <> 0 -> (sensor m0 < n)%nat ->
  (forall x, In x ms -> (sensor x < n)%nat /\ at_time x <> 0) -> (sensor m < n)%nat ->
  exists s outs, read_poses (readers_new n) (m0 :: ms ++ [m]) = (s, (m_pos m0, m_att m0) :: outs ++
    [(v3scale (1 + walked_of (sensor m) d_scale (at_time m0) (ms ++ [m])) (v3add (m_pos m) (walked3_of (sensor m) (at_time m0) (ms ++ [m]))),
      qmul (m_att m) (turned_of (sensor m) (at_time m0) (ms ++ [m]) qone))]).
Proof.
  intros h0 e0 hm em. cbn [read_poses]. rewrite (read_first_of n m0 e0), read_app.
  destruct (run_one_of n ms (at_time m0) h0 hm) as [e l].
  destruct (read_poses (states_of n (at_time m0) []) ms) as [s1 o1]. cbn [fst] in e. subst s1.
  cbn [read_poses]. rewrite (read_next_of n _ ms m em l).
  eexists; exists o1; reflexivity.
Qed.
Lemma turned_of_norm i ms : forall t q, qnorm2 (turned_of i t ms q) = qnorm2 q.
Proof.
  induction ms as [|x r IH]; intros t q; cbn; auto. rewrite IH.
  destruct (Nat.eqb (sensor x) i); [rewrite qnorm2_mul, small_quat_unit; ring|reflexivity].
Qed.
