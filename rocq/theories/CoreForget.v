(** What survives an initialisation (C08): the remembered acceleration is overwritten by the
    first plausible IMU reading. *)

From Coq Require Import ZArith List Lia ZifyBool ZifyNat Bool.
From Verif Require Import Outcome SortedContainer SortedContainerSpec SortedContainerProofs
     Core CoreBasics CoreInv CoreSteps CoreSafety CoreQueue CoreReset.
Import ListNotations.
Open Scope Z_scope.

Section Forget.
  Variable O : ops.
  Variable d : nat -> dec_begin.
  Notation st := (st O).
  Notation core := (core O).
  Notation am := (am O).

  (** The stored iterator does not point to a state with the invalid time. *)
  Definition it_ok (c : core) : Prop :=
    match it_last c with ItEnd => False | ItAt k => k <> INVALID_TIME | ItDangling => True end.

  Lemma it_ok_eq : forall c c', it_last c' = it_last c -> it_ok c -> it_ok c'.
  Proof. intros c c' H. unfold it_ok. rewrite H. trivial. Qed.

  Lemma GetClosestState_ok : forall c t c' os,
    it_ok c -> GetClosestState O d c t = Ok (c', os) -> it_ok c'.
  Proof.
    intros c t c' os Hi H. unfold GetClosestState in H. inv_bind H. inv_bind H.
    destruct (_ || _); [injection H as <- <-; exact Hi|].
    destruct (interpolate O c t (fst a0)) as [c1 tc] eqn:Ei.
    assert (it_ok c1) as Hi1.
    { apply interpolate_frame in Ei as
        [[-> _]|(_ & _ & tl & sl & tn & sn & _ & _ & _ & _ & _ & _ & _ & ->)]; exact Hi. }
    inv_bind H. apply PropPToState_it in E1. rename a1 into c2.
    assert (it_ok c2) as Hi2 by (eapply it_ok_eq; eauto).
    destruct (GetValueAt (states c2) tc) as [[ks s]|]; [|discriminate].
    destruct (negb _); [injection H as <- <-; exact Hi2|].
    inv_bind H. injection H as <- <-.
    destruct (janitor c2 >? janitor_limit).
    - inv_bind E2. injection E2 as <-. apply CleanUpBuffers_frame in E3 as (_ & _ & E3).
      unfold it_ok in *. cbn. rewrite E3. cbn. destruct (it_last c2) as [|k|]; cbn; [exact Hi2| |exact I].
      match goal with |- context [if ?b then _ else _] => destruct b end; [exact Hi2|exact I].
    - injection E2 as <-. exact Hi2.
  Qed.

  Lemma meas_body_ok : forall c tm m rest a c' a',
    it_ok c -> meas_body O d c tm m rest a = Ok (c', a') -> it_ok c'.
  Proof.
    intros c tm m rest a c' a' Hi H. unfold meas_body in H.
    destruct (tm <=? 0); [injection H as <- <-; exact Hi|].
    inv_bind H. destruct a0 as [c1 os]. apply GetClosestState_ok in E; [|exact Hi].
    destruct os as [[ts s]|]; [|injection H as <- <-; exact E].
    destruct (negb _); [discriminate|].
    destruct (ts <=? 0); [injection H as <- <-; exact E|].
    cbv zeta in H. set (c2 := apply_at O c1 m ts s) in *.
    assert (it_ok c2) as H2.
    { unfold c2, apply_at. destruct (apply_meas _ _ _ _ _) as [[[b v] P] g]. destruct b; exact E. }
    inv_bind H. inv_bind H.
    destruct (skipn (GetIteratorAtValue (states c2) ts) (states c2)) as [|[told sold] rs]; [discriminate|].
    inv_bind H. injection H as <- <-. exact H2.
  Qed.

  Lemma meas_loop_ok : forall todo c a c' a',
    it_ok c -> meas_loop O d c todo a = Ok (c', a') -> it_ok c'.
  Proof.
    induction todo as [|[tm m] r IH]; intros c a c' a' Hi H; cbn [meas_loop] in H.
    - injection H as <- <-. exact Hi.
    - inv_bind H. destruct a0 as [c1 a1]. apply meas_body_ok in E; eauto.
  Qed.

  Lemma AddMeasurement_ok : forall c tm m c' ev,
    it_ok c -> AddMeasurement O d c tm m = Ok (c', ev) -> it_ok c'.
  Proof.
    intros c tm m c' ev Hi H. unfold AddMeasurement in H.
    destruct (_ || _); [injection H as <- <-; exact Hi|].
    destruct (tm >? _); [injection H as <- <-; exact Hi|].
    destruct (tm <? _); [injection H as <- <-; exact Hi|].
    cbn [Insert] in H. inv_bind H. destruct a as [c1 ap].
    apply meas_loop_ok in E; [|exact Hi].
    destruct (negb ap); [injection H as <- <-; exact E|].
    inv_bind H. apply PropPToState_it in E0. destruct (GetLast (states a)) as [[t s]|]; [|discriminate].
    injection H as <- <-. eapply it_ok_eq; eauto.
  Qed.

  Lemma Handle_ok : forall c c' ev,
    it_ok c -> HandlePendingMeasurements O d c = Ok (c', ev) -> it_ok c'.
  Proof.
    intros c c' ev Hi H. unfold HandlePendingMeasurements in H. destruct (queue c) as [|[tm m] q].
    - injection H as <- <-. exact Hi.
    - eapply AddMeasurement_ok; [|exact H]. exact Hi.
  Qed.

  Lemma Handle_lam : forall c c' ev,
    HandlePendingMeasurements O d c = Ok (c', ev) -> last_am c' = last_am c /\ last_am_ext c' = last_am_ext c.
  Proof.
    intros c c' ev H. unfold HandlePendingMeasurements in H. destruct (queue c) as [|[tm m] q].
    - injection H as <- <-. split; reflexivity.
    - apply AddMeasurement_frame in H as (_ & _ & H3 & H4 & _). split; assumption.
  Qed.

  Lemma imu_finish_lam : forall c t new ins c' ev,
    imu_finish O d c t new ins = Ok (c', ev) -> last_am c' = last_am c.
  Proof.
    intros c t new ins c' ev H. unfold imu_finish in H. inv_bind H.
    apply PropagatePOneStep_frame in E as [(i & p & Ea & _) _]. cbv zeta in H. inv_bind H.
    destruct a0 as [c3 e3]. injection H as <- <-.
    assert (last_am a = last_am c) as La by (rewrite Ea; reflexivity).
    set (c2 := if (3 <? Size (states a))%nat then _ else a) in E.
    assert (last_am c2 = last_am c) as L2 by (unfold c2; destruct (3 <? Size (states a))%nat; exact La).
    destruct (predictionMade c2).
    - apply Handle_lam in E as [E _]. congruence.
    - injection E as <- <-. exact L2.
  Qed.

  Lemma ProcessIMU_am_first : forall c x g t a b,
    (acc_spike O x = true -> a = last_am c \/ initialized c = false) ->
    exists a',
      ProcessIMU O d (am a b c) x g t = rmap (fun y => (am a' b (fst y), snd y)) (ProcessIMU O d c x g t) /\
      (forall c' ev, ProcessIMU O d c x g t = Ok (c', ev) ->
         (a = last_am c \/ initialized c = false -> a' = last_am c' \/ initialized c' = false) /\
         (acc_spike O x = false -> (initialized c = true -> it_ok c) -> a' = last_am c' \/ initialized c' = false)).
  Proof.
    intros c x g t a b Hsp. unfold ProcessIMU.
    change (initialized (am a b c)) with (initialized c).
    destruct (initialized c) eqn:Ei; cbn [negb].
    2:{ exists a. split; [reflexivity|]. intros c' ev H. injection H as <- <-. split; right; exact Ei. }
    rewrite deref_last_am. unfold rmap at 1.
    destruct (deref_last O d c t) as [[c0 [tl sl]]| |] eqn:E; cbn [bind fst snd].
    2,3: (exists a; split; [reflexivity|intros c' ev H; discriminate]).
    assert (last_am c0 = last_am c) as L0
      by (apply deref_last_frame in E as [_ [i ->]]; reflexivity).
    assert (it_ok c -> tl <> INVALID_TIME) as Hk.
    { intros Hi. unfold deref_last, it_ok in *. destruct (it_last c) as [|k|]; [contradiction| |discriminate].
      cbn [bind] in E. unfold GetValueAt in E.
      match type of E with context [match ?u with Some _ => _ | None => _ end] => destruct u as [[k' s']|] eqn:Eg end; [|discriminate].
      injection E as _ <- _.
      match type of Eg with ?u = _ => assert (k' = k) as ->; [|exact Hi] end.
      destruct (find_pos_occupied (states c) k) as [a0 Ha0]; [|congruence].
      apply nth_error_Some. congruence. }
    destruct (tl =? INVALID_TIME) eqn:Et.
    { exists a. split; [reflexivity|]. intros c' ev H. injection H as <- <-. split.
      - intros [Ha|Ha]; [left; congruence|discriminate].
      - intros _ Hi. exfalso. apply (Hk (Hi eq_refl)). lia. }
    change (predictionMade (am a b c0)) with (predictionMade c0).
    destruct ((t - tl <? - thr_out_of_order) && predictionMade c0).
    { exists a. split; [reflexivity|]. intros c' ev H. injection H as <- <-. split; intros; right; reflexivity. }
    destruct (acc_spike O x) eqn:Ex; cbv zeta.
    - destruct (Hsp eq_refl) as [->|]; [|discriminate].
      change (predictionMade (am (last_am c) b c0)) with (predictionMade c0).
      change (last_am (am (last_am c) b c0)) with (last_am c). rewrite L0.
      destruct (negb (predictionMade c0) && _).
      + exists (last_am c). split; [reflexivity|]. intros c' ev H. injection H as <- <-.
        split; [intros _; left; symmetry; exact L0|discriminate].
      + exists (last_am c).
        match goal with |- imu_finish O d ?x _ _ _ = rmap _ (imu_finish O d ?y _ _ _) /\ _ =>
          change x with (am (last_am c) b y) end.
        rewrite imu_finish_am. split; [reflexivity|]. intros c' ev H.
        apply imu_finish_lam in H. split; [intros _; left|discriminate].
        rewrite H. symmetry. exact L0.
    - change (predictionMade (set_last_am O (am a b c0) (s_acc sl))) with (predictionMade c0).
      change (predictionMade (set_last_am O c0 (s_acc sl))) with (predictionMade c0).
      destruct (negb (predictionMade c0) && _).
      + exists (s_acc sl). split; [reflexivity|]. intros c' ev H. injection H as <- <-.
        split; intros; left; reflexivity.
      + exists (s_acc sl).
        match goal with |- imu_finish O d ?x _ _ _ = rmap _ (imu_finish O d ?y _ _ _) /\ _ =>
          change x with (am (s_acc sl) b y) end.
        rewrite imu_finish_am. split; [reflexivity|]. intros c' ev H.
        apply imu_finish_lam in H. split; intros; left; rewrite H; reflexivity.
  Qed.

  Lemma ProcessExt_am_keep : forall c x g e p t a b,
    acc_spike O x = false ->
    exists b',
    ProcessExternallyPropagatedState O d (am a b c) x g e p t =
    rmap (fun y => (am a b' (fst y), snd y)) (ProcessExternallyPropagatedState O d c x g e p t).
  Proof.
    intros c x g e p t a b Hsp. unfold ProcessExternallyPropagatedState.
    change (initialized (am a b c)) with (initialized c). change (states (am a b c)) with (states c).
    destruct (negb (initialized c)); [exists b; reflexivity|].
    destruct (GetLast (states c)) as [[tl sl]|]; [|exists b; reflexivity].
    destruct (tl =? INVALID_TIME); [exists b; reflexivity|].
    rewrite Hsp. cbv zeta.
    change (predictionMade (set_last_am_ext O (am a b c) x)) with (predictionMade c).
    change (predictionMade (set_last_am_ext O c x)) with (predictionMade c).
    destruct (negb (predictionMade c) && _); [exists x; reflexivity|].
    exists x.
    destruct (predictionMade c);
      (match goal with |- bind (PropagatePOneStep O ?u) _ =
                          rmap _ (bind (PropagatePOneStep O ?w) _) =>
         change (PropagatePOneStep O u) with (PropagatePOneStep O (am a x w)) end;
       rewrite PropagatePOneStep_am; unfold rmap at 1;
       match goal with |- _ = rmap _ (bind ?r _) => destruct r as [c4| |] end;
       cbn [bind]; try reflexivity;
       change (set_flags O (am a x c4) (initialized (am a x c4)) true)
         with (am a x (set_flags O c4 (initialized c4) true));
       rewrite Handle_am; unfold rmap;
       match goal with |- _ = bind (bind ?r _) _ => destruct r as [[c6 ev]| |] end; reflexivity).
  Qed.

  Lemma ProcessExt_lam : forall c x g e p t c' ev,
    ProcessExternallyPropagatedState O d c x g e p t = Ok (c', ev) ->
    last_am c' = last_am c /\ (initialized c = false -> initialized c' = false) /\
    (it_ok c -> it_ok c').
  Proof.
    intros c x g e p t c' ev H. unfold ProcessExternallyPropagatedState in H.
    destruct (initialized c) eqn:Ei; cbn [negb] in H;
      [|injection H as <- <-; split; [reflexivity|]; split; [intros _; exact Ei|trivial]].
    destruct (GetLast (states c)) as [[tl sl]|];
      [|injection H as <- <-; split; [reflexivity|]; split; [discriminate|trivial]].
    destruct (tl =? INVALID_TIME); [injection H as <- <-; split; [reflexivity|]; split; [discriminate|trivial]|].
    cbv zeta in H. set (c1 := if acc_spike O x then c else _) in H.
    assert (last_am c1 = last_am c) as L1 by (unfold c1; destruct (acc_spike O x); reflexivity).
    assert (it_last c1 = it_last c) as I1 by (unfold c1; destruct (acc_spike O x); reflexivity).
    clearbody c1.
    destruct (_ && _).
    { injection H as <- <-. split; [exact L1|]. split; [discriminate|]. unfold it_ok. cbn. rewrite I1.
      destruct (it_last c) as [|k|]; [trivial| |trivial]. destruct (k =? tl); trivial. }
    inv_bind H. pose proof E as E'. apply PropagatePOneStep_frame in E' as [(i & q & Ea & _) _].
    apply PropagatePOneStep_it in E.
    inv_bind H. destruct a0 as [c6 ev6]. injection H as <- <-.
    pose proof E0 as E1. apply Handle_lam in E1 as [E1 _]. split; [|split; [discriminate|]].
    - rewrite E1. cbn. rewrite Ea. cbn. destruct (predictionMade c1); exact L1.
    - intros Hi. eapply Handle_ok; [|exact E0]. unfold it_ok in *. cbn. rewrite E.
      destruct (predictionMade c1); cbn; rewrite I1; [exact Hi|]. destruct (it_last c); [exact Hi|exact I|exact I].
  Qed.

  (** Has a plausible reading been seen since the last initialisation? *)
  Definition seen (ph : bool) (k : call O) : bool :=
    match k with
    | CInit _ _ => false
    | CImu a _ _ => ph || negb (acc_spike O a)
    | _ => ph
    end.
  Definition fine (ph : bool) (k : call O) : Prop :=
    match k with
    | CInit t _ => t <> INVALID_TIME
    | CImu a _ _ => acc_spike O a = true -> ph = true
    | CExt a _ _ _ _ => acc_spike O a = false
    | CMeas _ _ => True
    end.
  Fixpoint fine_run (ph : bool) (l : list (call O)) : Prop :=
    match l with [] => True | k :: r => fine ph k /\ fine_run (seen ph k) r end.

  Definition rel (ph : bool) (c : core) (a : Acc O) : Prop :=
    if ph then a = last_am c \/ initialized c = false else initialized c = true -> it_ok c.

  Lemma step_first : forall k ph c a b, rel ph c a -> fine ph k ->
    exists a' b', step O d (am a b c) k = rmap (fun x => (am a' b' (fst x), snd x)) (step O d c k) /\
      forall c' ev, step O d c k = Ok (c', ev) -> rel (seen ph k) c' a'.
  Proof.
    intros k ph c a b Hr Hf. destruct k as [t s|x g t|x g e p t|t m]; cbn [step fine seen] in *.
    - exists a, b. unfold Init. destruct (t =? 0); [split; [reflexivity|discriminate]|].
      split; [reflexivity|]. intros c' ev H. injection H as <- <-. intros _. exact Hf.
    - destruct (ProcessIMU_am_first c x g t a b) as (a' & E & H).
      { intros Hs. rewrite (Hf Hs) in Hr. exact Hr. }
      exists a', b. split; [exact E|]. intros c' ev Hc. destruct (H c' ev Hc) as [H1 H2].
      unfold rel in *. destruct ph; cbn [orb]; [apply H1; exact Hr|].
      destruct (acc_spike O x) eqn:Ex; [discriminate (Hf eq_refl)|]. apply H2; [reflexivity|exact Hr].
    - destruct (ProcessExt_am_keep c x g e p t a b Hf) as (b' & E). exists a, b'. split; [exact E|].
      intros c' ev Hc. pose proof Hc as Hc'. apply ProcessExt_lam in Hc as (L & U & I0). unfold rel in *. destruct ph.
      + rewrite L. destruct Hr as [Hr|Hr]; [left; exact Hr|right; auto].
      + intros Hi. apply I0, Hr. destruct (initialized c) eqn:Ei; [reflexivity|].
        rewrite (U eq_refl) in Hi. discriminate.
    - exists a, b. split; [apply AddMeasurement_am|]. intros c' ev Hc. pose proof Hc as Hc'.
      apply AddMeasurement_frame in Hc as (F1 & _ & F3 & _). unfold rel in *. destruct ph.
      + rewrite F3, F1. exact Hr.
      + rewrite F1. intros Hi. eapply AddMeasurement_ok; [exact (Hr Hi)|exact Hc'].
  Qed.

  Lemma run_first : forall l ph c a b, rel ph c a -> fine_run ph l ->
    exists a' b', run O d (am a b c) l = rmap (fun x => (am a' b' (fst x), snd x)) (run O d c l).
  Proof.
    induction l as [|k r IH]; intros ph c a b Hr Hf; cbn [run].
    - exists a, b. reflexivity.
    - destruct Hf as [Hk Hl]. destruct (step_first k ph c a b Hr Hk) as (a1 & b1 & -> & H).
      destruct (step O d c k) as [[c1 e1]| |]; cbn [rmap bind fst snd];
        [|exists a, b; reflexivity|exists a, b; reflexivity].
      destruct (IH _ c1 a1 b1 (H _ _ eq_refl) Hl) as (a2 & b2 & ->). exists a2, b2.
      destruct (run O d c1 r) as [[c2 e2]| |]; reflexivity.
  Qed.

  Lemma init_forgets_first : forall c1 c2 t s l,
    janitor c1 = janitor c2 -> t <> INVALID_TIME -> fine_run false l ->
    observe O (run O d c1 (CInit t s :: l)) = observe O (run O d c2 (CInit t s :: l)).
  Proof.
    intros c1 c2 t s l Hj Ht Hl. cbn [run step]. unfold Init.
    destruct (t =? 0); [reflexivity|]. cbn [bind].
    match goal with |- observe O (bind (run O d ?x l) _) = observe O (bind (run O d ?y l) _) =>
      assert (x = am (last_am c1) (last_am_ext c1) y) as Hx
        by (unfold am; cbn; rewrite Hj; reflexivity); rewrite Hx; clear Hx;
      destruct (run_first l false y (last_am c1) (last_am_ext c1)) as (a' & b' & ->);
        [intros _; exact Ht|exact Hl|];
      destruct (run O d y l) as [[c' e']| |]; reflexivity
    end.
  Qed.

  (** Independent wording: before every spike there is a plausible reading, with no
      initialisation in between. *)
  Definition cleared (l : list (call O)) : Prop :=
    (forall t s, In (CInit t s) l -> t <> INVALID_TIME) /\
    (forall a g x b t, In (CExt a g x b t) l -> acc_spike O a = false) /\
    (forall pre a g t post, l = pre ++ CImu a g t :: post -> acc_spike O a = true ->
       exists p1 a' g' t' p2, pre = p1 ++ CImu a' g' t' :: p2 /\ acc_spike O a' = false /\
         forall u s, ~ In (CInit u s) p2).

  Lemma cleared_fine : forall l done ph,
    (ph = true <-> exists p1 a' g' t' p2, done = p1 ++ CImu a' g' t' :: p2 /\ acc_spike O a' = false /\
         forall u s, ~ In (CInit u s) p2) ->
    cleared (done ++ l) -> fine_run ph l.
  Proof.
    induction l as [|k r IH]; intros done ph Hph (H1 & H2 & H3); cbn [fine_run]; [exact I|]. split.
    - destruct k as [t s|a g t|a g x b t|t m]; cbn [fine].
      + apply (H1 t s). apply in_or_app. right. left. reflexivity.
      + intros Hs. apply Hph. apply (H3 done a g t r eq_refl Hs).
      + apply (H2 a g x b t). apply in_or_app. right. left. reflexivity.
      + exact I.
    - apply (IH (done ++ [k])); [|rewrite <- app_assoc; split; [exact H1|split; [exact H2|exact H3]]].
      assert (forall b, (b = true <-> exists p1 a' g' t' p2, done = p1 ++ CImu a' g' t' :: p2 /\ acc_spike O a' = false /\
                  forall u s, ~ In (CInit u s) p2) -> (forall t s, k <> CInit t s) -> b = true ->
         exists p1 a' g' t' p2, done ++ [k] = p1 ++ CImu a' g' t' :: p2 /\ acc_spike O a' = false /\
                  forall u s, ~ In (CInit u s) p2) as Hkeep.
      { intros b Hb Hk Hb'. apply Hb in Hb' as (p1 & a' & g' & t' & p2 & E & Ha & Hn).
        exists p1, a', g', t', (p2 ++ [k]). split; [rewrite E, <- app_assoc; reflexivity|]. split; [exact Ha|].
        intros u s Hin. apply in_app_or in Hin as [Hin|[Hin|[]]]; [apply (Hn u s Hin)|apply (Hk u s Hin)]. }
      assert (forall P : Prop, (exists p1 a' g' t' p2, done ++ [k] = p1 ++ CImu a' g' t' :: p2 /\ acc_spike O a' = false /\
                  forall u s, ~ In (CInit u s) p2) ->
         (forall a g t, k = CImu a g t -> acc_spike O a = false -> P) ->
         ((forall u s, k <> CInit u s) -> ph = true -> P) -> P) as Hback.
      { intros P (p1 & a' & g' & t' & p2 & E & Ha & Hn) Ha1 Ha2.
        destruct p2 as [|x p2 _] using rev_ind.
        - apply app_inj_tail in E as [_ ->]. apply (Ha1 a' g' t' eq_refl Ha).
        - rewrite app_comm_cons, app_assoc in E. apply app_inj_tail in E as [E ->]. apply Ha2.
          + intros u s Hx. apply (Hn u s). apply in_or_app. right. left. exact Hx.
          + apply Hph. exists p1, a', g', t', p2. split; [exact E|]. split; [exact Ha|].
            intros u s Hin. apply (Hn u s). apply in_or_app. left. exact Hin. }
      destruct k as [t s|a g t|a g x b t|t m]; cbn [seen].
      + split; [discriminate|]. intros He. apply (Hback _ He); [discriminate|].
        intros Hk _. exfalso. apply (Hk t s eq_refl).
      + split.
        * destruct ph; cbn [orb]; [apply Hkeep; [exact Hph|discriminate]|].
          intros Hs. exists done, a, g, t, []. split; [reflexivity|]. split; [|intros u s []].
          destruct (acc_spike O a); [discriminate|reflexivity].
        * intros He. apply (Hback _ He).
          -- intros a0 g0 t0 E0 Ha. injection E0 as -> -> ->. rewrite Ha. apply orb_true_r.
          -- intros _ ->. reflexivity.
      + split; [apply Hkeep; [exact Hph|discriminate]|]. intros He. apply (Hback _ He); [discriminate|trivial].
      + split; [apply Hkeep; [exact Hph|discriminate]|]. intros He. apply (Hback _ He); [discriminate|trivial].
  Qed.
End Forget.
