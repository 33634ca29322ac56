(** Step-level lemmas of the core machine: ignored calls, initialisation, reset,
    out-of-span measurements, pending queue, closest state. *)

From Coq Require Import ZArith List Lia ZifyBool ZifyNat Bool Permutation.
From Verif Require Import Outcome SortedContainer SortedContainerSpec SortedContainerProofs
     Core CoreBasics CoreInv.
Import ListNotations.
Open Scope Z_scope.

Section Steps.
  Variable O : ops.
  Variable d : nat -> dec_begin.
  Notation st := (st O).
  Notation core := (core O).
  Notation call := (call O).

  Definition is_init (k : call) : bool := match k with CInit _ _ => true | _ => false end.

  (** C07 *)
  Lemma step_uninit : forall c k,
    initialized c = false -> is_init k = false -> step O d c k = Ok (c, []).
  Proof.
    intros c k Hi Hk. destruct k as [t s|a g t|a g x b t|t m]; cbn in *; [discriminate| | |].
    - unfold ProcessIMU. rewrite Hi. reflexivity.
    - unfold ProcessExternallyPropagatedState. rewrite Hi. reflexivity.
    - unfold AddMeasurement. rewrite Hi. reflexivity.
  Qed.

  Lemma run_uninit : forall l c,
    initialized c = false -> forallb (fun k => negb (is_init k)) l = true ->
    run O d c l = Ok (c, []).
  Proof.
    induction l as [|k r IH]; intros c Hi Hl; cbn [run]; [reflexivity|].
    cbn [forallb] in Hl. apply andb_prop in Hl as [Hk Hr].
    rewrite step_uninit; [|exact Hi|destruct (is_init k); [discriminate|reflexivity]].
    cbn [bind]. rewrite IH by assumption. reflexivity.
  Qed.

  (** What the measurement path leaves alone. *)
  Definition same_frame (c c' : core) : Prop :=
    initialized c' = initialized c /\ predictionMade c' = predictionMade c /\
    queue c' = queue c /\ last_am c' = last_am c /\ last_am_ext c' = last_am_ext c.

  Lemma same_frame_refl : forall c, same_frame c c.
  Proof. intros c. repeat split. Qed.

  Lemma same_frame_trans : forall a b c, same_frame a b -> same_frame b c -> same_frame a c.
  Proof.
    intros a b c (H1 & H2 & H3 & H4 & H5) (H6 & H7 & H8 & H9 & H10).
    repeat split; congruence.
  Qed.

  Lemma apply_at_frame : forall c m t s, same_frame c (apply_at O c m t s).
  Proof.
    intros c m t s. unfold apply_at.
    destruct (apply_meas O m (glob c) (s_val s) (s_cov s)) as [[[b v] P] g].
    destruct b; repeat split.
  Qed.

  Lemma meas_body_frame : forall c tm m rest a c' a',
    meas_body O d c tm m rest a = Ok (c', a') -> same_frame c c'.
  Proof.
    intros c tm m rest a c' a' H. unfold meas_body in H.
    destruct (tm <=? 0); [injection H as <- <-; apply same_frame_refl|].
    inv_bind H. destruct a0 as [c1 os].
    apply GetClosestState_frame in E as (E1 & E2 & E3 & E4 & E5 & E6).
    assert (same_frame c c1) as H1 by (repeat split; assumption).
    destruct os as [[ts s]|]; [|injection H as <- <-; exact H1].
    destruct (negb _); [discriminate|].
    destruct (ts <=? 0); [injection H as <- <-; exact H1|].
    cbv zeta in H.
    pose proof (apply_at_frame c1 m ts s) as H2. set (c2 := apply_at O c1 m ts s) in *.
    inv_bind H. inv_bind H.
    destruct (skipn (GetIteratorAtValue (states c2) ts) (states c2)) as [|[told sold] rs]; [discriminate|].
    inv_bind H. injection H as <- <-.
    eapply same_frame_trans; [exact H1|]. eapply same_frame_trans; [exact H2|].
    repeat split.
  Qed.

  Lemma meas_loop_frame : forall todo c a c' a',
    meas_loop O d c todo a = Ok (c', a') -> same_frame c c'.
  Proof.
    induction todo as [|[tm m] r IH]; intros c a c' a' H; cbn [meas_loop] in H.
    - injection H as <- <-. apply same_frame_refl.
    - inv_bind H. destruct a0 as [c1 a1]. eapply same_frame_trans.
      + eapply meas_body_frame; exact E.
      + eapply IH; exact H.
  Qed.

  (** Effect of AddMeasurement on flags, queue and static locals. *)
  Lemma AddMeasurement_frame : forall c tm m c' ev,
    AddMeasurement O d c tm m = Ok (c', ev) ->
    initialized c' = initialized c /\ predictionMade c' = predictionMade c /\
    last_am c' = last_am c /\ last_am_ext c' = last_am_ext c /\
    queue c' = (if initialized c && predictionMade c && (tm >? otime (GetLast (states c)))
                then queue c ++ [(tm, m)] else queue c).
  Proof.
    intros c tm m c' ev H. unfold AddMeasurement in H.
    destruct (initialized c) eqn:Ei, (predictionMade c) eqn:Ep; cbn [negb orb andb] in *;
      try (injection H as <- <-; repeat split; congruence).
    destruct (tm >? _) eqn:E1.
    { injection H as <- <-. repeat split; cbn; congruence. }
    destruct (tm <? _) eqn:E2; [injection H as <- <-; repeat split; congruence|].
    cbn [Insert] in H. inv_bind H. destruct a as [c1 applied].
    apply meas_loop_frame in E as (F1 & F2 & F3 & F4 & F5). cbn in F1, F2, F3, F4, F5.
    destruct (negb applied); [injection H as <- <-; repeat split; congruence|].
    inv_bind H. apply PropPToState_frame in E as [E _].
    destruct (GetLast (states a)) as [[t s]|]; [|discriminate].
    injection H as <- <-. rewrite E. cbn. repeat split; congruence.
  Qed.

  (** C08 *)
  Lemma Init_clean : forall c t s c',
    Init O c t s = Ok c' ->
    t <> 0 /\ states c' = [(t, s)] /\ meas c' = [] /\ queue c' = [] /\ time_P c' = t /\
    initialized c' = true /\ predictionMade c' = false /\ glob c' = glob_reset O.
  Proof.
    intros c t s c' H. unfold Init in H. destruct (t =? 0) eqn:E; [discriminate|].
    injection H as <-. cbn. repeat split. lia.
  Qed.

  Lemma Init_same : forall c1 c2 t s,
    last_am c1 = last_am c2 -> last_am_ext c1 = last_am_ext c2 -> janitor c1 = janitor c2 ->
    Init O c1 t s = Init O c2 t s.
  Proof. intros c1 c2 t s H1 H2 H3. unfold Init. rewrite H1, H2, H3. reflexivity. Qed.

  (** Without spikes the remembered accelerations are never read. *)
  Definition am (a b : Acc O) (c : core) : core := set_last_am_ext O (set_last_am O c a) b.

  Ltac am_fields := repeat match goal with
    | |- context [initialized (am ?a ?b ?c)] => change (initialized (am a b c)) with (initialized c)
    | |- context [predictionMade (am ?a ?b ?c)] => change (predictionMade (am a b c)) with (predictionMade c)
    | |- context [states (am ?a ?b ?c)] => change (states (am a b c)) with (states c)
    | |- context [meas (am ?a ?b ?c)] => change (meas (am a b c)) with (meas c)
    | |- context [queue (am ?a ?b ?c)] => change (queue (am a b c)) with (queue c)
    | |- context [time_P (am ?a ?b ?c)] => change (time_P (am a b c)) with (time_P c)
    | |- context [it_last (am ?a ?b ?c)] => change (it_last (am a b c)) with (it_last c)
    | |- context [janitor (am ?a ?b ?c)] => change (janitor (am a b c)) with (janitor c)
    | |- context [glob (am ?a ?b ?c)] => change (glob (am a b c)) with (glob c)
    end.

  Definition rmap {A B} (f : A -> B) (r : res A) : res B := let* x := r in Ok (f x).

  Lemma PropPToState_am : forall c tt a b,
    PropPToState O (am a b c) tt = rmap (am a b) (PropPToState O c tt).
  Proof.
    intros c tt a b. unfold PropPToState, rmap. cbn.
    destruct (it_inc _ _); cbn; try reflexivity.
    destruct (skipn _ _) as [|[k s] r]; cbn; [reflexivity|].
    destruct (propP_loop _ _ _ _ _ _); reflexivity.
  Qed.

  Lemma PropagatePOneStep_am : forall c a b,
    PropagatePOneStep O (am a b c) = rmap (am a b) (PropagatePOneStep O c).
  Proof.
    intros c a b. unfold PropagatePOneStep, rmap. cbn.
    destruct (it_inc _ _); cbn; try reflexivity.
    destruct (_ =? _)%nat; cbn; [reflexivity|].
    destruct (it_deref _ _); cbn; try reflexivity.
    destruct (it_deref _ _); cbn; try reflexivity.
    destruct (pred_cov _ _ _ _ _ _); cbn.
    destruct (numeric_p _ _); reflexivity.
  Qed.

  Lemma CleanUpBuffers_am : forall c a b,
    CleanUpBuffers O d (am a b c) = rmap (am a b) (CleanUpBuffers O d c).
  Proof.
    intros c a b. unfold CleanUpBuffers, rmap. cbn.
    destruct (ClearOlderThan _ (states c) _); cbn; try reflexivity.
    destruct (ClearOlderThan _ (meas c) _); reflexivity.
  Qed.

  Lemma interpolate_am : forall c t tc a b,
    interpolate O (am a b c) t tc = (am a b (fst (interpolate O c t tc)), snd (interpolate O c t tc)).
  Proof.
    intros c t tc a b. unfold interpolate. am_fields.
    destruct (_ >? _); [|reflexivity].
    destruct (GetClosestBefore _ _) as [[tl sl]|]; [|reflexivity].
    destruct (GetClosestAfter _ _) as [[tn sn]|]; [|reflexivity].
    destruct (_ && _); [|reflexivity]. destruct (_ >? _); reflexivity.
  Qed.

  Lemma GetClosestState_am : forall c t a b,
    GetClosestState O d (am a b c) t =
    rmap (fun x => (am a b (fst x), snd x)) (GetClosestState O d c t).
  Proof.
    intros c t a b. unfold GetClosestState. am_fields.
    destruct (GetIteratorClosest _ _ _); cbn; try reflexivity.
    destruct (it_deref _ _); cbn [bind rmap]; try reflexivity.
    destruct (_ || _); [reflexivity|]. 
    rewrite interpolate_am.
    destruct (interpolate O c t (fst a1)) as [c1 tc]. cbn [fst snd].
    rewrite PropPToState_am. unfold rmap.
    destruct (PropPToState O c1 tc) as [c2| |]; cbn [bind]; try reflexivity.
    am_fields.
    destruct (GetValueAt (states c2) tc) as [[ks s]|]; [|reflexivity].
    destruct (negb _); [reflexivity|]. 
    change (janitor (am a b c2)) with (janitor c2).
    destruct (janitor c2 >? janitor_limit).
    - rewrite CleanUpBuffers_am. unfold rmap. destruct (CleanUpBuffers O d c2); reflexivity.
    - reflexivity.
  Qed.

  Lemma apply_at_am : forall c m t s a b,
    apply_at O (am a b c) m t s = am a b (apply_at O c m t s).
  Proof.
    intros c m t s a b. unfold apply_at. cbn.
    destruct (apply_meas _ _ _ _ _) as [[[x y] z] w]. destruct x; reflexivity.
  Qed.

  Lemma meas_body_am : forall c tm m rest ap a b,
    meas_body O d (am a b c) tm m rest ap =
    rmap (fun x => (am a b (fst x), snd x)) (meas_body O d c tm m rest ap).
  Proof.
    intros c tm m rest ap a b. unfold meas_body.
    destruct (tm <=? 0); [reflexivity|]. rewrite GetClosestState_am. unfold rmap.
    destruct (GetClosestState O d c tm) as [[c1 [[ts s]|]]| |]; cbn [bind fst snd]; try reflexivity.
    am_fields.
    destruct (negb _); [reflexivity|]. destruct (ts <=? 0); [reflexivity|].
    cbv zeta. rewrite apply_at_am.
    set (c2 := apply_at O c1 m ts s). am_fields.
    match goal with |- bind ?r _ = _ => destruct r end; cbn [bind]; try reflexivity.
    destruct (it_inc _ _); cbn [bind]; try reflexivity.
    destruct (skipn _ _) as [|[k s'] r]; [reflexivity|].
    destruct (reprop _ _ _ _ _ _); reflexivity.
  Qed.

  Lemma meas_loop_am : forall todo c ap a b,
    meas_loop O d (am a b c) todo ap =
    rmap (fun x => (am a b (fst x), snd x)) (meas_loop O d c todo ap).
  Proof.
    induction todo as [|[tm m] r IH]; intros c ap a b; cbn [meas_loop]; [reflexivity|].
    rewrite meas_body_am. unfold rmap at 1.
    destruct (meas_body O d c tm m r ap) as [[c1 a1]| |]; cbn [bind fst snd]; try reflexivity.
    apply IH.
  Qed.

  Lemma AddMeasurement_am : forall c tm m a b,
    AddMeasurement O d (am a b c) tm m =
    rmap (fun x => (am a b (fst x), snd x)) (AddMeasurement O d c tm m).
  Proof.
    intros c tm m a b. unfold AddMeasurement.
    am_fields.
    destruct (_ || _); [reflexivity|].
    destruct (tm >? _); [reflexivity|]. destruct (tm <? _); [reflexivity|].
    cbn [Insert].
    change (set_meas O (am a b c) (insert_list tm m (meas c)))
      with (am a b (set_meas O c (insert_list tm m (meas c)))).
    rewrite meas_loop_am. unfold rmap at 1.
    destruct (meas_loop O d _ _ false) as [[c1 ap]| |]; cbn [bind fst snd]; try reflexivity.
    destruct (negb ap); [reflexivity|].
    am_fields. 
    rewrite PropPToState_am. unfold rmap at 1.
    destruct (PropPToState O c1 _) as [c2| |]; cbn [bind]; try reflexivity.
    am_fields.
    destruct (GetLast (states c2)) as [[t s]|]; reflexivity.
  Qed.

  Lemma Handle_am : forall c a b,
    HandlePendingMeasurements O d (am a b c) =
    rmap (fun x => (am a b (fst x), snd x)) (HandlePendingMeasurements O d c).
  Proof.
    intros c a b. unfold HandlePendingMeasurements. am_fields.
    destruct (queue c) as [|[tm m] q]; [reflexivity|].
    change (set_queue O (am a b c) q) with (am a b (set_queue O c q)).
    apply AddMeasurement_am.
  Qed.

  Lemma deref_last_am : forall c t a b,
    deref_last O d (am a b c) t =
    rmap (fun x => (am a b (fst x), snd x)) (deref_last O d c t).
  Proof.
    intros c t a b. unfold deref_last. am_fields.
    match goal with |- bind ?r _ = _ => destruct r as [i| |] end; cbn [bind rmap]; try reflexivity.
    destruct i; try reflexivity. destruct (GetValueAt _ _); reflexivity.
  Qed.

  Lemma imu_finish_am : forall c t new ins a b,
    imu_finish O d (am a b c) t new ins =
    rmap (fun x => (am a b (fst x), snd x)) (imu_finish O d c t new ins).
  Proof.
    intros c t new ins a b. unfold imu_finish. rewrite PropagatePOneStep_am. unfold rmap at 1.
    destruct (PropagatePOneStep O c) as [c1| |]; cbn [bind]; try reflexivity.
    am_fields. cbv zeta.
    destruct (3 <? Size (states c1))%nat.
    - change (set_flags O (am a b c1) (initialized c1) true)
        with (am a b (set_flags O c1 (initialized c1) true)).
      am_fields. cbn [predictionMade set_flags].
      fold (set_flags O c1 (initialized c1) true).
      rewrite Handle_am. unfold rmap.
      match goal with |- context [HandlePendingMeasurements O d ?x] =>
        destruct (HandlePendingMeasurements O d x) as [[c3 ev]| |] end; reflexivity.
    - am_fields. destruct (predictionMade c1); [|reflexivity].
      rewrite Handle_am. unfold rmap.
      destruct (HandlePendingMeasurements O d c1) as [[c3 ev]| |]; reflexivity.
  Qed.

  (** [c1] and [c2] differ at most in the remembered accelerations. *)
  Definition eq_am (c1 c2 : core) : Prop := exists a b, c2 = am a b c1.

  Lemma ProcessIMU_am : forall c x g t a b,
    acc_spike O x = false ->
    exists a' b' : Acc O,
    ProcessIMU O d (am a b c) x g t =
    rmap (fun y => (am a' b' (fst y), snd y)) (ProcessIMU O d c x g t).
  Proof.
    intros c x g t a b Hsp. unfold ProcessIMU.
    am_fields.
    destruct (negb (initialized c)); [exists a, b; reflexivity|]. 
    rewrite deref_last_am. unfold rmap at 1.
    destruct (deref_last O d c t) as [[c0 [tl sl]]| |]; cbn [bind fst snd];
      [|exists a, b; reflexivity|exists a, b; reflexivity].
    destruct (tl =? INVALID_TIME); [exists a, b; reflexivity|].
    am_fields.
    destruct (_ && predictionMade c0); [exists a, b; reflexivity|].
    rewrite Hsp. cbv zeta. cbn [predictionMade set_last_am].
    destruct (_ && _); [exists (s_acc sl), b; reflexivity|].
    cbn [states]. exists (s_acc sl), b.
    match goal with |- imu_finish O d ?x _ _ _ = rmap _ (imu_finish O d ?y _ _ _) =>
      change x with (am (s_acc sl) b y) end.
    apply imu_finish_am.
  Qed.

  Lemma ProcessExt_am : forall c x g e p t a b,
    acc_spike O x = false ->
    exists a' b' : Acc O,
    ProcessExternallyPropagatedState O d (am a b c) x g e p t =
    rmap (fun y => (am a' b' (fst y), snd y)) (ProcessExternallyPropagatedState O d c x g e p t).
  Proof.
    intros c x g e p t a b Hsp. unfold ProcessExternallyPropagatedState.
    am_fields.
    destruct (negb (initialized c)); [exists a, b; reflexivity|].
    destruct (GetLast (states c)) as [[tl sl]|]; [|exists a, b; reflexivity].
    destruct (tl =? INVALID_TIME); [exists a, b; reflexivity|].
    rewrite Hsp. cbv zeta. cbn [predictionMade set_last_am set_last_am_ext].
    destruct (_ && _); [exists a, x; reflexivity|].
    exists a, x. change (predictionMade (set_last_am_ext O (am a b c) x)) with (predictionMade c).
    am_fields.
    destruct (predictionMade c);
      (match goal with |- bind (PropagatePOneStep O ?u) _ =
                          rmap _ (bind (PropagatePOneStep O ?w) _) =>
         change (PropagatePOneStep O u) with (PropagatePOneStep O (am a x w)) end;
       rewrite PropagatePOneStep_am; unfold rmap at 1;
       match goal with |- _ = rmap _ (bind ?r _) => destruct r as [c4| |] end;
       cbn [bind]; try reflexivity;
       change (set_flags O (am a x c4) (initialized (am a x c4)) true)
         with (am a x (set_flags O c4 (initialized c4) true));
       rewrite Handle_am; unfold rmap;
       match goal with |- _ = bind (bind ?r _) _ => destruct r as [[c6 ev]| |] end; reflexivity).
  Qed.

  (** C09 *)
  Definition last_imu_state (c : core) (k : Z) (s : st) : Prop :=
    it_last c = ItAt k /\ In (k, s) (states c).

  Lemma imu_backwards_reset : forall c a g t k s,
    initialized c = true -> predictionMade c = true -> time_sorted (states c) ->
    last_imu_state c k s -> k <> INVALID_TIME -> t < k - thr_out_of_order ->
    ProcessIMU O d c a g t = Ok (set_flags O c false false, []).
  Proof.
    intros c a g t k s Hi Hp Hs [Hit Hin] Hk Ht. unfold ProcessIMU. rewrite Hi. cbn [negb].
    unfold deref_last. rewrite Hit. cbn [bind].
    assert (GetValueAt (states c) k = Some (k, s)) as Hv
      by (apply GetValueAt_spec; [exact Hs|split; [exact Hin|reflexivity]]).
    rewrite Hv. cbn [bind].
    replace (k =? INVALID_TIME) with false by lia.
    cbn [set_it predictionMade]. rewrite Hp.
    replace (t - k <? - thr_out_of_order) with true by lia. cbn [andb].
    f_equal. f_equal. unfold set_flags, set_it. cbn. rewrite <- Hit. reflexivity.
  Qed.

  Lemma PropagatePOneStep_flags : forall c c',
    (forall v, numeric_p O v = true) ->
    PropagatePOneStep O c = Ok c' ->
    initialized c' = initialized c /\ predictionMade c' = predictionMade c.
  Proof.
    intros c c' Hn H. unfold PropagatePOneStep in H. inv_bind H.
    destruct (_ =? pos_end (states c))%nat; [injection H as <-; auto|].
    inv_bind H. inv_bind H.
    destruct (pred_cov O _ _ _ _ _) as [sn tP]. rewrite Hn in H. injection H as <-. auto.
  Qed.

  Lemma imu_no_reset : forall c a g t c' ev,
    (forall v, numeric_p O v = true) ->
    initialized c = true ->
    (forall k, it_last c = ItAt k -> k - thr_out_of_order <= t) -> it_last c <> ItEnd ->
    ProcessIMU O d c a g t = Ok (c', ev) ->
    initialized c' = true /\ (predictionMade c = true -> predictionMade c' = true).
  Proof.
    intros c a g t c' ev Hn Hi Ht Hend H. unfold ProcessIMU in H. rewrite Hi in H. cbn [negb] in H.
    inv_bind H. destruct a0 as [c0 [tl sl]]. unfold deref_last in E.
    destruct (it_last c) as [|k|] eqn:Eit; [congruence| |discriminate]. cbn [bind] in E.
    destruct (GetValueAt (states c) k) as [[k' s']|] eqn:Ev; [|discriminate].
    injection E as <- -> ->.
    assert (tl = k) as ->.
    { unfold GetValueAt in Ev. pose proof (nth_error_some_lt _ _ _ Ev) as Hlt.
      destruct (find_pos_occupied _ _ Hlt) as [a' Ha']. congruence. }
    specialize (Ht k eq_refl).
    destruct (k =? INVALID_TIME); [injection H as <- <-; cbn; auto|].
    replace (t - k <? - thr_out_of_order) with false in H by lia. cbn [andb] in H. cbv zeta in H.
    set (c1 := if acc_spike O a then _ else _) in H.
    assert (initialized c1 = true /\ predictionMade c1 = predictionMade c) as [Hi1 Hp1].
    { unfold c1. destruct (acc_spike O a); cbn; auto. }
    clearbody c1.
    destruct (_ && _); [injection H as <- <-; cbn; rewrite Hi1, Hp1; auto|].
    unfold imu_finish in H. inv_bind H. apply PropagatePOneStep_flags in E as [F1 F2]; [|exact Hn].
    cbn in F1, F2. cbv zeta in H.
    set (c2 := if (3 <? Size (states a0))%nat then _ else _) in H.
    assert (initialized c2 = true /\ (predictionMade c = true -> predictionMade c2 = true)) as [Hi2 Hp2].
    { unfold c2. destruct (3 <? Size (states a0))%nat; cbn; [split; [congruence|auto]|].
      split; congruence. }
    clearbody c2. inv_bind H. destruct a1 as [c3 ev3]. injection H as <- <-.
    destruct (predictionMade c2) eqn:Ep.
    - unfold HandlePendingMeasurements in E. destruct (queue c2) as [|[tm m] q].
      + injection E as <- <-. rewrite Ep. auto.
      + apply AddMeasurement_frame in E as (G1 & G2 & _). cbn in G1, G2.
        rewrite G1, G2, Ep. auto.
    - injection E as <- <-. split; [exact Hi2|]. intros H. specialize (Hp2 H). congruence.
  Qed.

  (** C10 *)
  Lemma AddMeasurement_future : forall c tm m e,
    initialized c = true -> predictionMade c = true -> time_sorted (states c) ->
    newest (states c) e -> fst e < tm ->
    AddMeasurement O d c tm m = Ok (set_queue O c (queue c ++ [(tm, m)]), []).
  Proof.
    intros c tm m e Hi Hp Hs [Hin Hmax] Ht. unfold AddMeasurement. rewrite Hi, Hp. cbn [negb orb].
    assert (states c <> []) as Hne by (intros E; rewrite E in Hin; destruct Hin).
    destruct (GetLast_newest (states c) Hs Hne) as [e' [He' [Hin' Hmax']]].
    rewrite He'. destruct e' as [k x]. cbn [otime].
    specialize (Hmax' _ Hin). specialize (Hmax _ Hin'). cbn in *.
    replace (tm >? k) with true by lia. reflexivity.
  Qed.

  Lemma AddMeasurement_old : forall c tm m,
    initialized c = true -> predictionMade c = true -> time_sorted (states c) ->
    states c <> [] -> (forall e, In e (states c) -> tm < fst e) ->
    AddMeasurement O d c tm m = Ok (c, []).
  Proof.
    intros c tm m Hi Hp Hs Hne Hold. unfold AddMeasurement. rewrite Hi, Hp. cbn [negb orb].
    destruct (GetLast_newest (states c) Hs Hne) as [[k x] [He' [Hin' _]]].
    destruct (GetFirst_oldest (states c) Hs Hne) as [[k0 x0] [Hf [Hinf _]]].
    rewrite He', Hf. cbn [otime].
    pose proof (Hold _ Hin'). pose proof (Hold _ Hinf). cbn in *.
    replace (tm >? k) with false by lia. replace (tm <? k0) with true by lia. reflexivity.
  Qed.

  (** C11 *)
  Definition reinit_or_reset (c c' : core) : Prop := initialized c' = false.

  Lemma Handle_queue : forall c c' ev,
    HandlePendingMeasurements O d c = Ok (c', ev) ->
    queue c' = match queue c with
               | [] => []
               | e :: q =>
                   if initialized c && predictionMade c && (fst e >? otime (GetLast (states c)))
                   then q ++ [e] else q
               end.
  Proof.
    intros c c' ev H. unfold HandlePendingMeasurements in H.
    destruct (queue c) as [|[tm m] q] eqn:Eq.
    - injection H as <- <-. exact Eq.
    - apply AddMeasurement_frame in H as (_ & _ & _ & _ & H). cbn in H. exact H.
  Qed.
End Steps.
