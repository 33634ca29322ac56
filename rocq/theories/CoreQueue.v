(** Pending queue (C11), closest state (C14), independence of an initialisation
    from the past (C08). *)

From Coq Require Import ZArith List Lia ZifyBool ZifyNat Bool Permutation.
From Verif Require Import Outcome SortedContainer SortedContainerSpec SortedContainerProofs
     Core CoreBasics CoreInv CoreSteps CoreSafety.
Import ListNotations.
Open Scope Z_scope.

Section Queue.
  Variable O : ops.
  Variable d : nat -> dec_begin.
  Notation st := (st O).
  Notation core := (core O).

  Definition srt (c : core) : Prop := time_sorted (states c) /\ time_sorted (meas c).

  Definition triv_closed : closed O (fun _ => True) (fun _ => True) (fun _ => True) (fun _ => True)
                 (fun _ => True) (fun _ => True) (fun _ => True).
  Proof. constructor; intros; repeat split; exact I. Qed.

  Definition tgood := good O (fun _ => True) (fun _ => True) (fun _ => True) (fun _ => True)
                 (fun _ => True) (fun _ => True).

  Lemma srt_good : forall c, srt c <-> tgood c.
  Proof.
    intros c. split.
    - intros [H1 H2]. constructor; cbn; auto. split; [exact H1|]. intros. repeat split.
    - intros [[H1 _] H2]. split; assumption.
  Qed.

  Lemma top_same : forall (c c' : cont st) n,
    keys c' = keys c -> top c n -> top c' n.
  Proof. intros c c' n Hk Ht. destruct (top_keys c c' n Hk Ht). split; assumption. Qed.

  Lemma GetClosestState_top : forall c t c' os n,
    srt c -> top (states c) n -> GetClosestState O d c t = Ok (c', os) ->
    srt c' /\ top (states c') n.
  Proof.
    intros c t c' os n Hs Ht H. split.
    { apply srt_good. apply srt_good in Hs.
      eapply GetClosestState_good in H as [H _]; [exact H|exact triv_closed|exact Hs]. }
    unfold GetClosestState in H. inv_bind H. inv_bind H.
    destruct (_ || _); [injection H as <- <-; exact Ht|].
    destruct (interpolate O c t (fst a0)) as [c1 tc] eqn:Ei.
    assert (srt c1) as Hs1.
    { apply srt_good. apply srt_good in Hs.
      eapply interpolate_good; [exact triv_closed|exact Hs|exact E|exact E0|exact Ei]. }
    assert (top (states c1) n) as Ht1.
    { apply interpolate_frame in Ei as
        [[-> _]|(_ & Habs & tl & sl & tn & sn & Hb & Ha & _ & _ & Hne & _ & _ & ->)]; [exact Ht|].
      destruct (occupied_dec (states c) t) as [Ho|Hf].
      { rewrite (closest_occupied d _ _ _ _ (proj1 Hs) E E0 Ho) in Habs.
        unfold thr_interp, second in Habs. cbn in Habs. lia. }
      destruct (interp_strict _ _ _ _ _ _ (proj1 Hs) Hf Hb Ha Hne) as (Hlt & Hil & Hin & _).
      cbn [states set_time_P set_states].
      match goal with |- top (insert_list t ?x _) n =>
        pose proof (top_insert (states c) n t x (proj1 Hs) Ht) as Htt end.
      destruct Ht as [_ Hmax]. pose proof (Hmax _ Hin) as Hle. cbn in Hle.
      replace (Z.max n t) with n in Htt by lia. exact Htt. }
    inv_bind H. rename a1 into c2.
    assert (srt c2) as Hs2.
    { apply srt_good. apply srt_good in Hs1.
      eapply PropPToState_good; [exact triv_closed|exact Hs1|exact E1]. }
    apply PropPToState_frame in E1 as [_ Hk].
    pose proof (top_same _ _ _ Hk Ht1) as Ht2.
    destruct (GetValueAt (states c2) tc) as [[ks s]|]; [|discriminate].
    destruct (negb _); [injection H as <- <-; exact Ht2|].
    inv_bind H. injection H as <- <-.
    destruct (janitor c2 >? janitor_limit).
    - inv_bind E1. injection E1 as <-. cbn [states set_janitor].
      apply CleanUpBuffers_frame in E2 as (E2 & _ & _).
      eapply top_clear; [exact (proj1 Hs2)|exact Ht2| |exact E2].
      unfold buffer_age, second. lia.
    - injection E1 as <-. exact Ht2.
  Qed.

  Lemma meas_body_top : forall c tm m rest a c' a' n,
    srt c -> top (states c) n -> meas_body O d c tm m rest a = Ok (c', a') ->
    srt c' /\ top (states c') n.
  Proof.
    intros c tm m rest a c' a' n Hs Ht H. split.
    { apply srt_good. apply srt_good in Hs.
      eapply meas_body_good; [exact triv_closed|exact Hs|exact I|exact H]. }
    unfold meas_body in H.
    destruct (tm <=? 0); [injection H as <- <-; exact Ht|].
    inv_bind H. destruct a0 as [c1 os].
    destruct (GetClosestState_top _ _ _ _ _ Hs Ht E) as [Hs1 Ht1].
    destruct os as [[ts s]|]; [|injection H as <- <-; exact Ht1].
    destruct (negb _); [discriminate|].
    destruct (ts <=? 0); [injection H as <- <-; exact Ht1|].
    cbv zeta in H. set (c2 := apply_at O c1 m ts s) in *.
    assert (keys (states c2) = keys (states c1)) as Hk2.
    { unfold c2, apply_at. destruct (apply_meas _ _ _ _ _) as [[[b v] P] g].
      destruct b; apply upd_key_keys. }
    inv_bind H. inv_bind H.
    destruct (skipn (GetIteratorAtValue (states c2) ts) (states c2)) as [|[told sold] rs] eqn:Es;
      [discriminate|].
    inv_bind H. injection H as <- <-. cbn [states set_states].
    eapply top_same; [|exact Ht1]. rewrite <- Hk2.
    rewrite keys_app. cbn [keys map fst]. fold (keys a2).
    rewrite (reprop_keys O _ _ _ _ _ _ E2).
    rewrite <- (firstn_skipn (GetIteratorAtValue (states c2) ts) (states c2)) at 3.
    rewrite keys_app, Es. reflexivity.
  Qed.

  Lemma meas_loop_top : forall todo c a c' a' n,
    srt c -> top (states c) n -> meas_loop O d c todo a = Ok (c', a') ->
    srt c' /\ top (states c') n.
  Proof.
    induction todo as [|[tm m] r IH]; intros c a c' a' n Hs Ht H; cbn [meas_loop] in H.
    - injection H as <- <-. auto.
    - inv_bind H. destruct a0 as [c1 a1].
      destruct (meas_body_top _ _ _ _ _ _ _ _ Hs Ht E) as [Hs1 Ht1]. eapply IH; eauto.
  Qed.

  Lemma AddMeasurement_top : forall c tm m c' ev n,
    srt c -> top (states c) n -> AddMeasurement O d c tm m = Ok (c', ev) ->
    srt c' /\ top (states c') n.
  Proof.
    intros c tm m c' ev n Hs Ht H. unfold AddMeasurement in H.
    destruct (_ || _); [injection H as <- <-; auto|].
    destruct (tm >? _); [injection H as <- <-; auto|].
    destruct (tm <? _); [injection H as <- <-; auto|].
    cbn [Insert] in H. inv_bind H. destruct a as [c1 ap].
    apply meas_loop_top with (n := n) in E as [Hs1 Ht1].
    2:{ split; [apply Hs|]. cbn. apply insert_list_sorted. apply Hs. }
    2:{ exact Ht. }
    destruct (negb ap); [injection H as <- <-; auto|].
    inv_bind H. rename a into c2.
    assert (srt c2) as Hs2.
    { apply srt_good. apply srt_good in Hs1.
      eapply PropPToState_good; [exact triv_closed|exact Hs1|exact E]. }
    apply PropPToState_frame in E as [_ Hk].
    destruct (GetLast (states c2)) as [[t s]|]; [|discriminate].
    injection H as <- <-. split; [exact Hs2|]. eapply top_same; eauto.
  Qed.

  Lemma AddMeasurement_updates : forall c tm m c' ev,
    AddMeasurement O d c tm m = Ok (c', ev) ->
    forall e, In e ev -> exists t s, e = PubUpdate t s.
  Proof.
    intros c tm m c' ev H. unfold AddMeasurement in H.
    destruct (_ || _); [injection H as <- <-; intros e []|].
    destruct (tm >? _); [injection H as <- <-; intros e []|].
    destruct (tm <? _); [injection H as <- <-; intros e []|].
    cbn [Insert] in H. inv_bind H. destruct a as [c1 ap].
    destruct (negb ap); [injection H as <- <-; intros e []|].
    inv_bind H. destruct (GetLast (states a)) as [[t s]|]; [|discriminate].
    injection H as <- <-. intros e [<-|[]]. eauto.
  Qed.

  Lemma Handle_updates : forall c c' ev,
    HandlePendingMeasurements O d c = Ok (c', ev) ->
    forall e, In e ev -> exists t s, e = PubUpdate t s.
  Proof.
    intros c c' ev H. unfold HandlePendingMeasurements in H. destruct (queue c) as [|[tm m] q].
    - injection H as <- <-. intros e [].
    - eapply AddMeasurement_updates; exact H.
  Qed.

  (** Number of propagated states published. *)
  Definition propagations (ev : list (event O)) : nat :=
    length (filter (fun e => match e with PubPropagation _ _ => true | _ => false end) ev).

  Lemma propagations_updates : forall ev,
    (forall e, In e ev -> exists t s, e = PubUpdate t s) -> propagations ev = 0%nat.
  Proof.
    induction ev as [|e r IH]; intros H; [reflexivity|].
    destruct (H e (or_introl eq_refl)) as (t & s & ->). cbn. apply IH.
    intros e' He'. apply H. right. exact He'.
  Qed.

  Lemma propagations_app : forall e1 e2,
    propagations (e1 ++ e2) = (propagations e1 + propagations e2)%nat.
  Proof. intros. unfold propagations. rewrite filter_app, app_length. reflexivity. Qed.

  (** What the handling of one pending measurement does to the queue, when the
      newest state has stamp [n]. *)
  Definition take_pending (n : Z) (q : list (Z * Meas O)) : list (Z * Meas O) :=
    match q with
    | [] => []
    | e :: q' => if fst e >? n then q' ++ [e] else q'
    end.

  Lemma Handle_step : forall c c' ev n,
    srt c -> top (states c) n -> initialized c = true -> predictionMade c = true ->
    HandlePendingMeasurements O d c = Ok (c', ev) ->
    srt c' /\ top (states c') n /\ initialized c' = true /\ predictionMade c' = true /\
    queue c' = take_pending n (queue c) /\ propagations ev = 0%nat.
  Proof.
    intros c c' ev n Hs Ht Hi Hp H.
    pose proof (propagations_updates _ (Handle_updates _ _ _ H)) as Hev.
    pose proof (Handle_queue _ _ _ _ _ H) as Hq.
    rewrite Hi, Hp, (top_last _ _ (proj1 Hs) Ht) in Hq. cbn [andb] in Hq.
    unfold HandlePendingMeasurements in H. destruct (queue c) as [|[tm m] q] eqn:Eq.
    - injection H as <- <-. auto 6.
    - pose proof H as H'. apply AddMeasurement_frame in H' as (G1 & G2 & _). cbn in G1, G2.
      apply AddMeasurement_top with (n := n) in H as [A1 A2]; [|exact Hs|exact Ht].
      rewrite G1, G2. split; [exact A1|]. split; [exact A2|]. auto.
  Qed.

  Lemma PropagatePOneStep_top : forall c c' n,
    srt c -> top (states c) n -> PropagatePOneStep O c = Ok c' ->
    srt c' /\ top (states c') n /\ queue c' = queue c /\
    (initialized c' = true -> initialized c = true /\ predictionMade c' = predictionMade c).
  Proof.
    intros c c' n Hs Ht E.
    assert (srt c') as Hs'.
    { apply srt_good. apply srt_good in Hs.
      eapply PropagatePOneStep_good; [exact triv_closed|exact Hs|exact E]. }
    apply PropagatePOneStep_frame in E as [(i3 & p3 & Hc3 & Hip) Hk3].
    split; [exact Hs'|]. split; [eapply top_same; eauto|].
    split; [rewrite Hc3; reflexivity|]. rewrite Hc3. cbn.
    destruct Hip as [[-> ->]|[-> _]]; [auto|discriminate].
  Qed.

  (** One IMU message while predictions run and no reset happens: the newest
      stamp is the maximum of the old one and the message's, and the queue loses
      exactly its head, which is put back at the end iff it is still newer than
      every state.  The first alternative: the state of the last IMU message has
      the invalid time, the message is ignored. *)
  Lemma imu_queue_step : forall c a g t c' ev n,
    srt c -> top (states c) n ->
    initialized c = true -> predictionMade c = true ->
    ProcessIMU O d c a g t = Ok (c', ev) -> initialized c' = true ->
    (c' = set_it O c (it_last c') /\ ev = [] /\ occupied (states c) INVALID_TIME) \/
    (srt c' /\ top (states c') (Z.max n t) /\ predictionMade c' = true /\
     queue c' = take_pending (Z.max n t) (queue c) /\ propagations ev = 1%nat).
  Proof.
    intros c a g t c' ev n Hs Ht Hi Hp H Hi'. unfold ProcessIMU in H. rewrite Hi in H. cbn [negb] in H.
    inv_bind H. destruct a0 as [c0 [tl sl]].
    apply deref_last_frame in E as [Hin [i ->]].
    destruct (tl =? INVALID_TIME) eqn:Etl.
    { injection H as <- <-. left. split; [reflexivity|]. split; [reflexivity|].
      exists sl. replace INVALID_TIME with tl by lia. exact Hin. }
    cbn [set_it predictionMade] in H. rewrite Hp, andb_true_r in H.
    destruct (_ <? _); [injection H as <- <-; discriminate Hi'|].
    cbv zeta in H. fold (set_it O c i) in H.
    set (c1 := if acc_spike O a then set_it O c i else _) in H.
    assert (srt c1 /\ states c1 = states c /\ initialized c1 = true /\
            predictionMade c1 = true /\ queue c1 = queue c) as (Hs1 & Hst1 & Hi1 & Hp1 & Hq1).
    { unfold c1. destruct (acc_spike O a); cbn; auto. }
    clearbody c1. rewrite Hp1 in H. cbn [negb andb] in H.
    unfold imu_finish in H. cbn [Insert fst] in H. inv_bind H. rename a0 into c3.
    match type of E with PropagatePOneStep O ?x = _ => set (c2 := x) in * end.
    assert (srt c2) as Hs2.
    { split; [apply insert_list_sorted; apply Hs1|apply Hs1]. }
    assert (top (states c2) (Z.max n t)) as Ht2.
    { cbn. rewrite Hst1. apply top_insert; [apply Hs|exact Ht]. }
    destruct (PropagatePOneStep_top _ _ _ Hs2 Ht2 E) as (Hs3 & Ht3 & Hq3 & Hi3).
    cbn in Hq3. rewrite Hq1 in Hq3.
    cbv zeta in H.
    set (c4 := if (3 <? Size (states c3))%nat then _ else c3) in H.
    assert (srt c4 /\ states c4 = states c3 /\ queue c4 = queue c3 /\ initialized c4 = initialized c3)
      as (Hs4 & Hst4 & Hq4 & Hi4).
    { unfold c4. destruct (3 <? Size (states c3))%nat; cbn; auto. }
    inv_bind H. destruct a0 as [c5 ev5]. injection H as <- <-. right.
    assert (initialized c4 = true) as Hi4'.
    { destruct (predictionMade c4) eqn:Ep4.
      - unfold HandlePendingMeasurements in E0. destruct (queue c4) as [|[tm m] q].
        + injection E0 as <- <-. exact Hi'.
        + apply AddMeasurement_frame in E0 as (G & _). cbn in G. congruence.
      - injection E0 as <- <-. exact Hi'. }
    assert (predictionMade c4 = true) as Hp4.
    { rewrite Hi4 in Hi4'. destruct (Hi3 Hi4') as [_ Hp3]. cbn in Hp3.
      unfold c4. destruct (3 <? Size (states c3))%nat; [reflexivity|congruence]. }
    rewrite Hp4 in E0. rewrite <- Hst4 in Ht3.
    destruct (Handle_step _ _ _ _ Hs4 Ht3 Hi4' Hp4 E0) as (K1 & K2 & K3 & K4 & K5 & K6).
    split; [exact K1|]. split; [exact K2|]. split; [exact K4|]. split; [congruence|].
    cbn. change (S (propagations ev5) = 1%nat). congruence.
  Qed.

  Lemma ext_queue_step : forall c a g x b t c' ev n,
    srt c -> top (states c) n ->
    initialized c = true -> predictionMade c = true ->
    ProcessExternallyPropagatedState O d c a g x b t = Ok (c', ev) -> initialized c' = true ->
    (c' = c /\ ev = []) \/
    (srt c' /\ top (states c') (Z.max n t) /\ predictionMade c' = true /\
     queue c' = take_pending (Z.max n t) (queue c)).
  Proof.
    intros c a g x b t c' ev n Hs Ht Hi Hp H Hi'.
    unfold ProcessExternallyPropagatedState in H. rewrite Hi in H. cbn [negb] in H.
    destruct (GetLast (states c)) as [[tl sl]|]; [|injection H as <- <-; auto].
    destruct (tl =? INVALID_TIME); [injection H as <- <-; auto|]. cbv zeta in H.
    set (c1 := if acc_spike O a then c else _) in H.
    assert (srt c1 /\ states c1 = states c /\ initialized c1 = true /\
            predictionMade c1 = true /\ queue c1 = queue c) as (Hs1 & Hst1 & Hi1 & Hp1 & Hq1).
    { unfold c1. destruct (acc_spike O a); cbn; auto. }
    clearbody c1. rewrite Hp1 in H. cbn [negb andb] in H. right.
    cbn [Insert fst] in H. inv_bind H. rename a0 into c3.
    match type of E with PropagatePOneStep O ?x = _ => set (c2 := x) in * end.
    assert (srt c2) as Hs2.
    { split; [apply insert_list_sorted; apply Hs1|apply Hs1]. }
    assert (top (states c2) (Z.max n t)) as Ht2.
    { cbn. rewrite Hst1. apply top_insert; [apply Hs|exact Ht]. }
    destruct (PropagatePOneStep_top _ _ _ Hs2 Ht2 E) as (Hs3 & Ht3 & Hq3 & Hi3).
    cbn in Hq3. rewrite Hq1 in Hq3.
    inv_bind H. destruct a0 as [c5 ev5]. injection H as <- <-.
    assert (initialized c3 = true) as Hi3'.
    { unfold HandlePendingMeasurements in E0. cbn in E0. destruct (queue c3) as [|[tm m] q].
      - injection E0 as <- <-. exact Hi'.
      - apply AddMeasurement_frame in E0 as (G & _). cbn in G. congruence. }
    assert (srt (set_flags O c3 (initialized c3) true)) as Hs4 by exact Hs3.
    destruct (Handle_step _ _ _ _ Hs4 Ht3 Hi3' eq_refl E0) as (K1 & K2 & K3 & K4 & K5 & K6).
    split; [exact K1|]. split; [exact K2|]. split; [exact K4|]. cbn in K5. congruence.
  Qed.

  (** Measurements delivered by a call sequence. *)
  Definition arrivals (l : list (call O)) : list (Z * Meas O) :=
    flat_map (fun k => match k with CMeas t m => [(t, m)] | _ => [] end) l.

  Lemma take_pending_perm : forall n q, exists gone,
    Permutation (take_pending n q ++ gone) q /\ (forall e, In e gone -> fst e <= n).
  Proof.
    intros n [|e q]; cbn [take_pending].
    - exists []. split; [constructor|]. intros e [].
    - destruct (fst e >? n) eqn:E.
      + exists []. rewrite app_nil_r. split; [|intros e' []].
        symmetry. apply Permutation_cons_append.
      + exists [e]. split; [symmetry; apply Permutation_cons_append|].
        intros e' [<-|[]]. lia.
  Qed.

  Lemma step_queue : forall k c c' ev n,
    is_init O k = false ->
    srt c -> top (states c) n -> initialized c = true -> predictionMade c = true ->
    step O d c k = Ok (c', ev) -> initialized c' = true ->
    exists n', srt c' /\ top (states c') n' /\ n <= n' /\ predictionMade c' = true /\
    exists gone, Permutation (queue c' ++ gone) (queue c ++ arrivals [k]) /\
                 forall e, In e gone -> fst e <= n'.
  Proof.
    intros k c c' ev n Hk Hs Ht Hi Hp H Hi'.
    destruct k as [t s|a g t|a g x b t|t m]; [discriminate| | |]; cbn [step] in H; cbn [arrivals flat_map];
      rewrite ?app_nil_r.
    - destruct (imu_queue_step _ _ _ _ _ _ _ Hs Ht Hi Hp H Hi')
        as [[-> _]|(A1 & A2 & A3 & A4 & _)].
      + exists n. split; [exact Hs|]. split; [exact Ht|]. split; [lia|]. split; [exact Hp|].
        exists []. rewrite app_nil_r. split; [apply Permutation_refl|intros e []].
      + exists (Z.max n t). split; [exact A1|]. split; [exact A2|]. split; [lia|]. split; [exact A3|].
        rewrite A4. apply take_pending_perm.
    - destruct (ext_queue_step _ _ _ _ _ _ _ _ _ Hs Ht Hi Hp H Hi')
        as [[-> _]|(A1 & A2 & A3 & A4)].
      + exists n. split; [exact Hs|]. split; [exact Ht|]. split; [lia|]. split; [exact Hp|].
        exists []. rewrite app_nil_r. split; [apply Permutation_refl|intros e []].
      + exists (Z.max n t). split; [exact A1|]. split; [exact A2|]. split; [lia|]. split; [exact A3|].
        rewrite A4. apply take_pending_perm.
    - destruct (AddMeasurement_top _ _ _ _ _ _ Hs Ht H) as [A1 A2].
      apply AddMeasurement_frame in H as (_ & G2 & _ & _ & G5).
      rewrite Hi, Hp, (top_last _ _ (proj1 Hs) Ht) in G5. cbn [andb] in G5.
      exists n. split; [exact A1|]. split; [exact A2|]. split; [lia|]. split; [congruence|].
      destruct (t >? n) eqn:E.
      + exists []. rewrite app_nil_r, G5. split; [apply Permutation_refl|intros e []].
      + exists [(t, m)]. rewrite G5. split; [apply Permutation_refl|].
        intros e [<-|[]]. cbn. lia.
  Qed.

  Lemma run_queue : forall l c c' ev n,
    forallb (fun k => negb (is_init O k)) l = true ->
    srt c -> top (states c) n -> initialized c = true -> predictionMade c = true ->
    run O d c l = Ok (c', ev) -> initialized c' = true ->
    exists n', srt c' /\ top (states c') n' /\ n <= n' /\ predictionMade c' = true /\
    exists gone, Permutation (queue c' ++ gone) (queue c ++ arrivals l) /\
                 forall e, In e gone -> fst e <= n'.
  Proof.
    induction l as [|k r IH]; intros c c' ev n Hl Hs Ht Hi Hp H Hi'; cbn [run] in H.
    - injection H as <- <-. exists n. split; [exact Hs|]. split; [exact Ht|]. split; [lia|].
      split; [exact Hp|]. exists []. cbn. rewrite !app_nil_r.
      split; [apply Permutation_refl|intros e []].
    - cbn [forallb] in Hl. apply andb_prop in Hl as [Hk Hr].
      inv_bind H. destruct a as [c1 e1]. inv_bind H. destruct a as [c2 e2]. injection H as <- <-.
      assert (initialized c1 = true) as Hi1.
      { destruct (initialized c1) eqn:E1; [reflexivity|].
        rewrite run_uninit in E0 by assumption. injection E0 as <- <-. congruence. }
      destruct (step_queue k c c1 e1 n) as (n1 & A1 & A2 & A3 & A4 & g1 & P1 & Q1); auto.
      { destruct (is_init O k); [discriminate|reflexivity]. }
      destruct (IH c1 c2 e2 n1) as (n2 & B1 & B2 & B3 & B4 & g2 & P2 & Q2); auto.
      exists n2. split; [exact B1|]. split; [exact B2|]. split; [lia|]. split; [exact B4|].
      exists (g2 ++ g1). split.
      + change (arrivals (k :: r)) with (arrivals ([k] ++ r)). unfold arrivals at 1.
        rewrite flat_map_app. fold (arrivals [k]). fold (arrivals r).
        rewrite !app_assoc. rewrite P2. rewrite <- P1.
        rewrite <- !app_assoc. apply Permutation_app_head. apply Permutation_app_comm.
      + intros e He. apply in_app_or in He as [He|He]; [apply Q2; exact He|].
        specialize (Q1 _ He). lia.
  Qed.

  Fixpoint imu_only (l : list (call O)) : Prop :=
    match l with
    | [] => True
    | CImu _ _ _ :: r => imu_only r
    | _ => False
    end.

  Lemma imu_only_noinit : forall l, imu_only l -> forallb (fun k => negb (is_init O k)) l = true.
  Proof. induction l as [|[]]; cbn; tauto. Qed.

  (** Draining: each published propagation handles one pending measurement. *)
  Lemma drain : forall l c c' ev n,
    srt c -> top (states c) n -> initialized c = true -> predictionMade c = true ->
    imu_only l -> run O d c l = Ok (c', ev) -> initialized c' = true ->
    (forall e, In e (queue c) -> fst e <= n) ->
    queue c' = skipn (propagations ev) (queue c).
  Proof.
    induction l as [|k r IH]; intros c c' ev n Hs Ht Hi Hp Hl H Hi' Hq; cbn [run] in H.
    - injection H as <- <-. reflexivity.
    - inv_bind H. destruct a as [c1 e1]. inv_bind H. destruct a as [c2 e2]. injection H as <- <-.
      destruct k as [|a g t| |]; try contradiction. cbn [imu_only] in Hl. cbn [step] in E.
      assert (initialized c1 = true) as Hi1.
      { destruct (initialized c1) eqn:E1; [reflexivity|].
        rewrite run_uninit in E0; [|exact E1|apply imu_only_noinit; exact Hl].
        injection E0 as <- <-. congruence. }
      rewrite propagations_app.
      destruct (imu_queue_step _ _ _ _ _ _ _ Hs Ht Hi Hp E Hi1)
        as [(Hc1 & -> & _)|(A1 & A2 & A3 & A4 & A5)].
      + cbn [propagations filter length plus].
        rewrite (IH c1 c2 e2 n); auto; rewrite Hc1; auto.
      + rewrite A5. cbn [plus].
        destruct (queue c) as [|e q] eqn:Eq; cbn [take_pending] in A4.
        * rewrite (IH c1 c2 e2 (Z.max n t)); auto; rewrite A4.
          -- rewrite skipn_nil. reflexivity.
          -- intros e [].
        * assert (fst e <= n) as He by (apply Hq; left; reflexivity).
          replace (fst e >? Z.max n t) with false in A4 by lia.
          rewrite (IH c1 c2 e2 (Z.max n t)); auto; rewrite A4; [reflexivity|].
          intros e' He'. specialize (Hq e' (or_intror He')). lia.
  Qed.

  (** ** C08 *)
  Definition no_spike (k : call O) : bool :=
    match k with
    | CImu a _ _ => negb (acc_spike O a)
    | CExt a _ _ _ _ => negb (acc_spike O a)
    | _ => true
    end.

  Lemma step_am : forall k c a b, no_spike k = true ->
    exists a' b', step O d (am O a b c) k = rmap (fun x => (am O a' b' (fst x), snd x)) (step O d c k).
  Proof.
    intros k c a b Hk. destruct k as [t s|x g t|x g e p t|t m]; cbn [step no_spike] in *.
    - exists a, b. unfold Init. destruct (t =? 0); reflexivity.
    - apply ProcessIMU_am. destruct (acc_spike O x); [discriminate|reflexivity].
    - apply ProcessExt_am. destruct (acc_spike O x); [discriminate|reflexivity].
    - exists a, b. apply AddMeasurement_am.
  Qed.

  Lemma run_am : forall l c a b, forallb no_spike l = true ->
    exists a' b', run O d (am O a b c) l = rmap (fun x => (am O a' b' (fst x), snd x)) (run O d c l).
  Proof.
    induction l as [|k r IH]; intros c a b Hl; cbn [run].
    - exists a, b. reflexivity.
    - cbn [forallb] in Hl. apply andb_prop in Hl as [Hk Hr].
      destruct (step_am k c a b Hk) as (a1 & b1 & ->).
      destruct (step O d c k) as [[c1 e1]| |]; cbn [rmap bind fst snd];
        [|exists a, b; reflexivity|exists a, b; reflexivity].
      destruct (IH c1 a1 b1 Hr) as (a2 & b2 & ->). exists a2, b2.
      destruct (run O d c1 r) as [[c2 e2]| |]; reflexivity.
  Qed.

  (** What can be observed of a run: its outcome, its publications and the
      buffers, queue and bookkeeping at its end - everything but the remembered
      accelerations. *)
  Record observed := mkobs {
    ob_events : list (event O);
    ob_flags : bool * bool;
    ob_states : cont st;
    ob_meas : cont (Meas O);
    ob_queue : list (Z * Meas O);
    ob_time_P : Z;
    ob_glob : Glob O
  }.
  Definition observe (r : res (core * list (event O))) : res observed :=
    rmap (fun x => mkobs (snd x) (initialized (fst x), predictionMade (fst x)) (states (fst x))
                   (meas (fst x)) (queue (fst x)) (time_P (fst x)) (glob (fst x))) r.

  Lemma init_forgets : forall c1 c2 t s l,
    janitor c1 = janitor c2 -> forallb no_spike l = true ->
    observe (run O d c1 (CInit t s :: l)) = observe (run O d c2 (CInit t s :: l)).
  Proof.
    intros c1 c2 t s l Hj Hl. cbn [run step]. unfold Init.
    destruct (t =? 0); [reflexivity|]. cbn [bind].
    match goal with |- observe (bind (run O d ?x l) _) = observe (bind (run O d ?y l) _) =>
      assert (x = am O (last_am c1) (last_am_ext c1) y) as Hx
        by (unfold am; cbn; rewrite Hj; reflexivity); rewrite Hx; clear Hx;
      destruct (run_am l y (last_am c1) (last_am_ext c1) Hl) as (a' & b' & ->);
      destruct (run O d y l) as [[c' e']| |]; reflexivity
    end.
  Qed.

  (** ** C14 *)
  Lemma closest_state_near : forall c t c' ts s,
    time_sorted (states c) ->
    GetClosestState O d c t = Ok (c', Some (ts, s)) ->
    Z.abs (ts - t) <= thr_closest /\ numeric O (s_val s) = true /\
    (forall el en, latest_before (states c) t el -> earliest_after (states c) t en ->
       fst el <> INVALID_TIME -> fst en <> INVALID_TIME ->
       numeric O (s_val (snd el)) = true -> numeric O (s_val (snd en)) = true ->
       Z.abs (ts - t) <= thr_interp).
  Proof.
    intros c t c' ts s Hs H. unfold GetClosestState in H. inv_bind H. inv_bind H.
    destruct (_ || _) eqn:Eb; [discriminate|]. apply orb_false_elim in Eb as [Einv Eabs].
    destruct (interpolate O c t (fst a0)) as [c1 tc] eqn:Ei.
    inv_bind H. destruct (GetValueAt (states a1) tc) as [[ks s']|]; [|discriminate].
    destruct (numeric O (s_val s')) eqn:En; cbn [negb] in H; [|discriminate].
    inv_bind H. injection H as _ <- <-.
    pose proof Ei as Ei'.
    apply interpolate_frame in Ei as
      [[-> ->]|(-> & Habs & tl & sl & tn & sn & Hb & Ha & _ & _ & Hne & _ & _ & ->)].
    2:{ replace (t - t) with 0 by lia. cbn [Z.abs].
        split; [unfold thr_closest, second; lia|]. split; [exact En|]. intros.
        unfold thr_interp, second. lia. }
    split; [lia|]. split; [exact En|].
    intros [tl sl] [tn sn] Hl Hn Hil Hin Hnl Hnn. cbn [fst snd] in *.
    unfold interpolate in Ei'.
    destruct (Z.abs (fst a0 - t) >? thr_interp) eqn:Et; [|lia]. exfalso.
    destruct (occupied_dec (states c) t) as [Ho|Hf].
    { rewrite (closest_occupied d _ _ _ _ Hs E E0 Ho) in Et. unfold thr_interp, second in Et. lia. }
    assert (GetClosestBefore (states c) t = Some (tl, sl)) as Hb.
    { destruct (GetClosestBefore_spec (states c) t Hs) as (e & He & Hle); [exists (tl, sl); split; apply Hl|].
      rewrite He. f_equal. destruct e as [k x]. destruct Hl as (Hl1 & Hl2 & Hl3), Hle as (K1 & K2 & K3).
      specialize (Hl3 _ K1 K2). specialize (K3 _ Hl1 Hl2). cbn in *.
      assert (k = tl) as -> by lia. f_equal. eapply sorted_unique; eauto. }
    assert (GetClosestAfter (states c) t = Some (tn, sn)) as Ha.
    { destruct (GetClosestAfter (states c) t) as [e|] eqn:He.
      - apply GetClosestAfter_some in He; [|exact Hs].
        f_equal. destruct e as [k x]. destruct Hn as (Hl1 & Hl2 & Hl3), He as (K1 & K2 & K3).
        specialize (Hl3 _ K1 K2). specialize (K3 _ Hl1 Hl2). cbn in *.
        assert (k = tn) as -> by lia. f_equal. eapply sorted_unique; eauto.
      - rewrite GetClosestAfter_none in He by exact Hs. destruct Hn as (Hl1 & Hl2 & _).
        specialize (He _ Hl1). lia. }
    rewrite Hb, Ha, Hnl, Hnn in Ei'. cbn [negb andb] in Ei'.
    replace (tl =? INVALID_TIME) with false in Ei' by lia.
    replace (tn =? INVALID_TIME) with false in Ei' by lia.
    destruct Hl as (_ & Hl & _), Hn as (_ & Hn & _). cbn in Hl, Hn.
    replace (tl =? tn) with false in Ei' by lia. cbn [negb andb] in Ei'.
    injection Ei' as _ Ei'. rewrite <- Ei' in Et. replace (t - t) with 0 in Et by lia.
    unfold thr_interp, second in Et. cbn in Et. lia.
  Qed.
End Queue.
