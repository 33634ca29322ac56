(** The stored iterator is set in every reachable initialised filter; exact
    condition for a reset by an IMU message (C09). *)

From Coq Require Import ZArith List Lia ZifyBool ZifyNat Bool.
From Verif Require Import Outcome SortedContainer SortedContainerSpec SortedContainerProofs
     Core CoreBasics CoreInv CoreSteps CoreSafety CoreQueue.
Import ListNotations.
Open Scope Z_scope.

Section Reset.
  Variable O : ops.
  Variable d : nat -> dec_begin.
  Notation st := (st O).
  Notation core := (core O).

  Definition it_set (c : core) : Prop := it_last c <> ItEnd.

  Lemma it_after_erase_set : forall i (s : cont st), i <> ItEnd -> it_after_erase O i s <> ItEnd.
  Proof. intros [|k|] s H; unfold it_after_erase; [congruence| |congruence]. destruct (has_key k s); congruence. Qed.

  Lemma PropPToState_it : forall c t c', PropPToState O c t = Ok c' -> it_last c' = it_last c.
  Proof. intros c t c' H. apply PropPToState_frame in H as [-> _]. reflexivity. Qed.

  Lemma GetClosestState_it : forall c t c' os,
    it_set c -> GetClosestState O d c t = Ok (c', os) -> it_set c'.
  Proof.
    intros c t c' os Hi H. unfold GetClosestState in H. inv_bind H. inv_bind H.
    destruct (_ || _); [injection H as <- <-; exact Hi|].
    destruct (interpolate O c t (fst a0)) as [c1 tc] eqn:Ei.
    assert (it_set c1) as Hi1.
    { apply interpolate_frame in Ei as
        [[-> _]|(_ & _ & tl & sl & tn & sn & _ & _ & _ & _ & _ & _ & _ & ->)]; [exact Hi|].
      exact Hi. }
    inv_bind H. apply PropPToState_it in E1. rename a1 into c2.
    assert (it_set c2) as Hi2 by (unfold it_set in *; congruence).
    destruct (GetValueAt (states c2) tc) as [[ks s]|]; [|discriminate].
    destruct (negb _); [injection H as <- <-; exact Hi2|].
    inv_bind H. injection H as <- <-.
    destruct (janitor c2 >? janitor_limit).
    - inv_bind E2. injection E2 as <-. apply CleanUpBuffers_frame in E3 as (_ & _ & E3).
      unfold it_set. cbn. rewrite E3. apply it_after_erase_set. exact Hi2.
    - injection E2 as <-. exact Hi2.
  Qed.

  Lemma meas_body_it : forall c tm m rest a c' a',
    it_set c -> meas_body O d c tm m rest a = Ok (c', a') -> it_set c'.
  Proof.
    intros c tm m rest a c' a' Hi H. unfold meas_body in H.
    destruct (tm <=? 0); [injection H as <- <-; exact Hi|].
    inv_bind H. destruct a0 as [c1 os]. apply GetClosestState_it in E; [|exact Hi].
    destruct os as [[ts s]|]; [|injection H as <- <-; exact E].
    destruct (negb _); [discriminate|].
    destruct (ts <=? 0); [injection H as <- <-; exact E|].
    cbv zeta in H. set (c2 := apply_at O c1 m ts s) in *.
    assert (it_set c2) as H2.
    { unfold c2, apply_at. destruct (apply_meas _ _ _ _ _) as [[[b v] P] g]. destruct b; exact E. }
    inv_bind H. inv_bind H.
    destruct (skipn (GetIteratorAtValue (states c2) ts) (states c2)) as [|[told sold] rs]; [discriminate|].
    inv_bind H. injection H as <- <-. exact H2.
  Qed.

  Lemma meas_loop_it : forall todo c a c' a',
    it_set c -> meas_loop O d c todo a = Ok (c', a') -> it_set c'.
  Proof.
    induction todo as [|[tm m] r IH]; intros c a c' a' Hi H; cbn [meas_loop] in H.
    - injection H as <- <-. exact Hi.
    - inv_bind H. destruct a0 as [c1 a1]. apply meas_body_it in E; eauto.
  Qed.

  Lemma AddMeasurement_it : forall c tm m c' ev,
    it_set c -> AddMeasurement O d c tm m = Ok (c', ev) -> it_set c'.
  Proof.
    intros c tm m c' ev Hi H. unfold AddMeasurement in H.
    destruct (_ || _); [injection H as <- <-; exact Hi|].
    destruct (tm >? _); [injection H as <- <-; exact Hi|].
    destruct (tm <? _); [injection H as <- <-; exact Hi|].
    cbn [Insert] in H. inv_bind H. destruct a as [c1 ap].
    apply meas_loop_it in E; [|exact Hi].
    destruct (negb ap); [injection H as <- <-; exact E|].
    inv_bind H. apply PropPToState_it in E0. destruct (GetLast (states a)) as [[t s]|]; [|discriminate].
    injection H as <- <-. unfold it_set in *. congruence.
  Qed.

  Lemma Handle_it : forall c c' ev,
    it_set c -> HandlePendingMeasurements O d c = Ok (c', ev) -> it_set c'.
  Proof.
    intros c c' ev Hi H. unfold HandlePendingMeasurements in H. destruct (queue c) as [|[tm m] q].
    - injection H as <- <-. exact Hi.
    - eapply AddMeasurement_it; [|exact H]. exact Hi.
  Qed.

  Lemma PropagatePOneStep_it : forall c c', PropagatePOneStep O c = Ok c' -> it_last c' = it_last c.
  Proof. intros c c' H. apply PropagatePOneStep_frame in H as [(i & p & -> & _) _]. reflexivity. Qed.

  Definition itinv (c : core) : Prop := initialized c = true -> it_set c.

  Lemma deref_last_it : forall c t c0 e, deref_last O d c t = Ok (c0, e) -> it_set c0.
  Proof.
    intros c t c0 e H. unfold deref_last in H. inv_bind H.
    destruct a as [|k|]; try discriminate.
    destruct (GetValueAt (states c) k); [|discriminate]. injection H as <- _. discriminate.
  Qed.

  Lemma step_it : forall c k c' ev, itinv c -> step O d c k = Ok (c', ev) -> itinv c'.
  Proof.
    intros c k c' ev Hi H. destruct k as [t s|a g t|a g x b t|t m]; cbn [step] in H.
    - inv_bind H. injection H as <- <-. unfold Init in E. destruct (t =? 0); [discriminate|].
      injection E as <-. intros _. discriminate.
    - unfold ProcessIMU in H. destruct (negb (initialized c)) eqn:En; [injection H as <- <-; exact Hi|].
      inv_bind H. destruct a0 as [c0 [tl sl]]. apply deref_last_it in E.
      destruct (tl =? INVALID_TIME); [injection H as <- <-; intros _; exact E|].
      destruct (_ && predictionMade c0); [injection H as <- <-; intros Hx; discriminate Hx|].
      cbv zeta in H.
      destruct (_ && _); [injection H as <- <-; intros _; discriminate|].
      unfold imu_finish in H. inv_bind H. apply PropagatePOneStep_it in E0.
      cbv zeta in H. inv_bind H. destruct a1 as [c3 ev3]. injection H as <- <-. intros _.
      set (c2 := if (3 <? Size (states a0))%nat then _ else a0) in E1.
      assert (it_set c2) as H2.
      { unfold it_set. unfold c2. destruct (3 <? Size (states a0))%nat; cbn; rewrite E0; discriminate. }
      destruct (predictionMade c2); [|injection E1 as <- <-; exact H2].
      eapply Handle_it; eauto.
    - unfold ProcessExternallyPropagatedState in H.
      destruct (initialized c) eqn:En; cbn [negb] in H; [|injection H as <- <-; exact Hi].
      specialize (Hi En).
      destruct (GetLast (states c)) as [[tl sl]|]; [|injection H as <- <-; intros _; exact Hi].
      destruct (tl =? INVALID_TIME); [injection H as <- <-; intros _; exact Hi|]. cbv zeta in H.
      set (c1 := if acc_spike O a then c else _) in H.
      assert (it_set c1) as Hi1 by (unfold c1; destruct (acc_spike O a); exact Hi). clearbody c1.
      destruct (_ && _).
      { injection H as <- <-. intros _. unfold it_set in *. cbn.
        destruct (it_last c1) as [|k|]; [congruence| |congruence]. destruct (k =? tl); congruence. }
      inv_bind H. apply PropagatePOneStep_it in E.
      inv_bind H. destruct a1 as [c6 ev6]. injection H as <- <-. intros _.
      eapply Handle_it; [|exact E0]. unfold it_set in *. cbn. rewrite E.
      destruct (predictionMade c1); cbn; [exact Hi1|]. destruct (it_last c1); congruence.
    - intros Hi'. eapply AddMeasurement_it; [|exact H]. apply Hi.
      apply AddMeasurement_frame in H as (G & _). congruence.
  Qed.

  Lemma run_it : forall l c c' ev, itinv c -> run O d c l = Ok (c', ev) -> itinv c'.
  Proof.
    induction l as [|k r IH]; intros c c' ev Hi H; cbn [run] in H.
    - injection H as <- <-. exact Hi.
    - inv_bind H. destruct a as [c1 e1]. inv_bind H. destruct a as [c2 e2]. injection H as <- <-.
      eapply IH; [|exact E0]. eapply step_it; eauto.
  Qed.

  Lemma imu_reset_iff : forall l tr c ev a g t c' ev',
    run O d (core_new O tr) l = Ok (c, ev) ->
    initialized c = true -> predictionMade c = true ->
    (forall v, numeric_p O v = true) ->
    ProcessIMU O d c a g t = Ok (c', ev') ->
    exists k s, last_imu_state O c k s /\
      (k <> INVALID_TIME ->
       (t < k - thr_out_of_order <-> initialized c' = false) /\
       (initialized c' = false -> ev' = [] /\ c' = set_flags O c false false)).
  Proof.
    intros l tr c ev a g t c' ev' Hr Hi Hp Hn H.
    assert (it_set c) as Hit.
    { eapply run_it; [|exact Hr|exact Hi]. intros Hx; discriminate Hx. }
    destruct (run_sorted _ _ _ _ _ _ Hr) as [Hs _].
    assert (exists k s, last_imu_state O c k s) as (k & s & Hks).
    { unfold ProcessIMU in H. rewrite Hi in H. cbn [negb] in H.
      inv_bind H. unfold deref_last in E. unfold it_set in Hit.
      destruct (it_last c) as [|k|] eqn:Eit; [congruence| |discriminate]. cbn [bind] in E.
      destruct (GetValueAt (states c) k) as [[k' s']|] eqn:Ev; [|discriminate].
      exists k, s'. split; [exact Eit|]. unfold GetValueAt in Ev.
      pose proof (nth_error_some_lt _ _ _ Ev) as Hlt.
      destruct (find_pos_occupied _ _ Hlt) as [a' Ha'].
      rewrite Ha' in Ev. injection Ev as _ <-. eapply nth_error_In; eauto. }
    exists k, s. split; [exact Hks|]. intros Hk.
    destruct (Z.lt_ge_cases t (k - thr_out_of_order)) as [Hlt|Hge].
    - rewrite (imu_backwards_reset O d c a g t k s Hi Hp Hs Hks Hk Hlt) in H.
      injection H as <- <-. split; [split; auto|]. auto.
    - destruct (imu_no_reset O d c a g t c' ev' Hn Hi) as [G _]; [| |exact H|].
      + intros k' Hk'. destruct Hks as [Hks _]. rewrite Hks in Hk'. injection Hk' as <-. lia.
      + destruct Hks as [Hks _]. congruence.
      + split; [split; [lia|congruence]|congruence].
  Qed.
End Reset.
