(** A general invariant theorem for the core machine: whatever predicate on
    readings, values, covariances and tracker memory the numeric operations
    preserve holds of every buffered and every published state of every
    execution.  Sortedness of both buffers is part of the invariant. *)

From Coq Require Import ZArith List Lia ZifyBool ZifyNat Bool.
From Verif Require Import Outcome SortedContainer SortedContainerSpec SortedContainerProofs
     Core CoreBasics.
Import ListNotations.
Open Scope Z_scope.

Section Inv.
  Variable O : ops.
  Variable d : nat -> dec_begin.
  Notation st := (st O).
  Notation core := (core O).

  (** Predicates closed under the numeric operations. *)
  Record closed (PA : Acc O -> Prop) (PG : Gyr O -> Prop) (PV : Val O -> Prop)
         (PC : Cov O -> Prop) (PM : Meas O -> Prop) (PT : Glob O -> Prop)
         (PX : Ext O -> Prop) : Prop := {
    cl_cov_zero : PC (cov_zero O);
    cl_acc_zero : PA (acc_zero O);
    cl_glob_reset : PT (glob_reset O);
    cl_lerp_acc : forall a b dt dp, 0 < dp < dt -> PA a -> PA b -> PA (lerp_acc O a b dt dp);
    cl_lerp_gyr : forall a b dt dp, 0 < dp < dt -> PG a -> PG b -> PG (lerp_gyr O a b dt dp);
    cl_propagate : forall dt a g v a' g',
      PA a -> PG g -> PV v -> PA a' -> PG g' -> PV (propagate O dt a g v a' g');
    cl_predict_cov : forall dt a g v P,
      0 < dt -> PA a -> PG g -> PV v -> PC P -> PC (predict_cov O dt a g v P);
    cl_ext_val : forall x v, PX x -> PV v -> PV (ext_val O x v);
    cl_apply : forall m t v P b v' P' t',
      PM m -> PT t -> PV v -> PC P -> apply_meas O m t v P = (b, v', P', t') ->
      PV v' /\ PC P' /\ PT t'
  }.

  Variables (PA : Acc O -> Prop) (PG : Gyr O -> Prop) (PV : Val O -> Prop)
            (PC : Cov O -> Prop) (PM : Meas O -> Prop) (PT : Glob O -> Prop)
            (PX : Ext O -> Prop).
  Hypothesis Hcl : closed PA PG PV PC PM PT PX.

  Definition good_st (s : st) : Prop :=
    PA (s_acc s) /\ PG (s_gyr s) /\ PV (s_val s) /\ PC (s_cov s).

  Definition good_buf (c : cont st) : Prop :=
    time_sorted c /\ forall t s, In (t, s) c -> good_st s.

  Record good (c : core) : Prop := {
    g_states : good_buf (states c);
    g_meas : time_sorted (meas c);
    g_measP : forall t m, In (t, m) (meas c) -> PM m;
    g_queue : forall t m, In (t, m) (queue c) -> PM m;
    g_am : PA (last_am c);
    g_ame : PA (last_am_ext c);
    g_glob : PT (glob c)
  }.

  Definition good_ev (e : event O) : Prop :=
    match e with PubPropagation _ s => good_st s | PubUpdate _ s => good_st s end.

  (** Inputs: IMU readings that pass the spike test, init states, measurements
      and external states satisfy the predicates. *)
  Definition good_call (k : call O) : Prop :=
    match k with
    | CInit _ s => good_st s
    | CImu a g _ => (acc_spike O a = false -> PA a) /\ PG g
    | CExt a g x _ _ => (acc_spike O a = false -> PA a) /\ PG g /\ PX x
    | CMeas _ m => PM m
    end.

  Lemma good_upd : forall k s c, good_buf c -> good_st s -> good_buf (upd_key O k s c).
  Proof.
    intros k s c [Hs Hg] Hst. split; [apply upd_key_sorted; exact Hs|].
    intros t s' Hin. apply upd_key_In in Hin as [Hin|Heq]; [eauto|].
    injection Heq as -> ->. exact Hst.
  Qed.

  Lemma good_insert : forall t s c, good_buf c -> good_st s -> good_buf (insert_list t s c).
  Proof.
    intros t s c [Hs Hg] Hst. split; [apply insert_list_sorted; exact Hs|].
    intros t' s' Hin. destruct (occupied_dec c t) as [Ho|Hf].
    - rewrite insert_list_occupied in Hin by assumption. eauto.
    - apply insert_list_free in Hin as [Heq|Hin]; [|eauto|exact Hf].
      injection Heq as -> ->. exact Hst.
  Qed.

  Lemma good_prop_val : forall told sold t s,
    good_st sold -> PA (s_acc s) -> PG (s_gyr s) -> PC (s_cov s) ->
    good_st (prop_val O told sold t s).
  Proof.
    intros told sold t s (H1 & H2 & H3 & H4) H5 H6 H7.
    unfold prop_val, with_val, good_st. cbn. repeat split; try assumption.
    apply (cl_propagate _ _ _ _ _ _ _ Hcl); assumption.
  Qed.

  Lemma good_pred_cov : forall told sold t s tP,
    good_st sold -> good_st s -> good_st (fst (pred_cov O told sold t s tP)).
  Proof.
    intros told sold t s tP (H1 & H2 & H3 & H4) (H5 & H6 & H7 & H8). unfold pred_cov.
    destruct (t - told <=? 0) eqn:E; cbn; unfold good_st; cbn; repeat split; try assumption.
    apply (cl_predict_cov _ _ _ _ _ _ _ Hcl); try assumption. lia.
  Qed.

  Lemma good_propP : forall rest told sold tt tP,
    good_st sold -> (forall t s, In (t, s) rest -> good_st s) ->
    forall t s, In (t, s) (fst (propP_loop O told sold rest tt tP)) -> good_st s.
  Proof.
    induction rest as [|[t0 s0] r IH]; intros told sold tt tP Ho Hr t s; cbn; [tauto|].
    destruct (t0 <=? tt); [|cbn; intros [He|He]; [injection He as -> ->|]; eauto using in_eq, in_cons].
    pose proof (good_pred_cov told sold t0 s0 tP Ho (Hr _ _ (or_introl eq_refl))) as Hp.
    destruct (pred_cov O told sold t0 s0 tP) as [s' tP']. cbn in Hp.
    specialize (IH t0 s' tt tP' Hp (fun t s H => Hr t s (or_intror H))).
    destruct (propP_loop O t0 s' r tt tP') as [r' tP'']. cbn in *.
    intros [He|He]; [injection He as <- <-; exact Hp|eauto].
  Qed.

  Lemma good_reprop : forall rest i pe told sold rest',
    good_st sold -> (forall t s, In (t, s) rest -> good_st s) ->
    reprop O i pe told sold rest = Ok rest' ->
    forall t s, In (t, s) rest' -> good_st s.
  Proof.
    induction rest as [|[t0 s0] r IH]; intros i pe told sold rest' Ho Hr H; cbn [reprop] in H.
    - destruct (_ || _); [injection H as <-; intros ? ? []|].
      destruct (told =? INVALID_TIME); [injection H as <-; intros ? ? []|discriminate].
    - destruct (_ || _); [injection H as <-; exact Hr|].
      destruct (told =? INVALID_TIME); [injection H as <-; exact Hr|].
      destruct (t0 =? INVALID_TIME); [injection H as <-; exact Hr|].
      inv_bind H. injection H as <-.
      assert (good_st (prop_val O told sold t0 s0)) as Hp.
      { destruct (Hr _ _ (or_introl eq_refl)) as (H1 & H2 & H3 & H4).
        apply good_prop_val; assumption. }
      intros t s [He|He]; [injection He as <- <-; exact Hp|].
      eapply IH; [exact Hp| |exact E|exact He]. intros ? ? Hin. eapply Hr. right. exact Hin.
  Qed.

  Lemma split_good : forall p c (e : Z * st) rest',
    good_buf c -> skipn p c = e :: tl (skipn p c) ->
    map fst rest' = keys (tl (skipn p c)) ->
    (forall t s, In (t, s) rest' -> good_st s) ->
    good_buf (firstn p c ++ e :: rest').
  Proof.
    intros p c e rest' [Hs Hg] Hsk Hk Hr. split.
    - eapply sorted_same_keys; [|exact Hs].
      rewrite map_app. cbn [map]. rewrite Hk.
      rewrite <- (firstn_skipn p c) at 3. rewrite keys_app. rewrite Hsk at 2. reflexivity.
    - intros t s Hin. apply in_app_or in Hin as [Hin|Hin].
      + eapply Hg. rewrite <- (firstn_skipn p c). apply in_or_app. left. exact Hin.
      + destruct Hin as [->|Hin]; [|eauto].
        eapply Hg. rewrite <- (firstn_skipn p c). apply in_or_app. right. rewrite Hsk. left. reflexivity.
  Qed.

  Lemma set_states_good : forall c s, good c -> good_buf s -> good (set_states O c s).
  Proof. intros c s [] H. constructor; cbn; assumption. Qed.
  Lemma set_time_P_good : forall c t, good c -> good (set_time_P O c t).
  Proof. intros c t []. constructor; cbn; assumption. Qed.
  Lemma set_flags_good : forall c i p, good c -> good (set_flags O c i p).
  Proof. intros c i p []. constructor; cbn; assumption. Qed.
  Lemma set_it_good : forall c i, good c -> good (set_it O c i).
  Proof. intros c i []. constructor; cbn; assumption. Qed.
  Lemma set_janitor_good : forall c i, good c -> good (set_janitor O c i).
  Proof. intros c i []. constructor; cbn; assumption. Qed.

  Lemma PropPToState_good : forall c tt c',
    good c -> PropPToState O c tt = Ok c' -> good c'.
  Proof.
    intros c tt c' Hg H. unfold PropPToState in H. inv_bind H.
    destruct (skipn _ (states c)) as [|[told sold] rest] eqn:Es; [discriminate|].
    pose proof (g_states _ Hg) as [Hs Hst].
    assert (In (told, sold) (states c) /\ forall t s, In (t, s) rest -> In (t, s) (states c)) as [Hio Hir].
    { split.
      - rewrite <- (firstn_skipn (GetIteratorAtValue (states c) (time_P c)) (states c)).
        apply in_or_app. right. rewrite Es. left. reflexivity.
      - intros t s Hin.
        rewrite <- (firstn_skipn (GetIteratorAtValue (states c) (time_P c)) (states c)).
        apply in_or_app. right. rewrite Es. right. exact Hin. }
    assert (forall t s, In (t, s) rest -> good_st s) as Hir' by eauto.
    pose proof (good_propP rest told sold tt (time_P c) (Hst _ _ Hio) Hir') as Hr.
    pose proof (propP_loop_keys O rest told sold tt (time_P c)) as Hk.
    destruct (propP_loop O told sold rest tt (time_P c)) as [rest' tP] eqn:El.
    injection H as <-. apply set_time_P_good. apply set_states_good; [exact Hg|].
    apply split_good; [exact (g_states _ Hg)|rewrite Es; reflexivity| |exact Hr].
    rewrite Es. exact Hk.
  Qed.

  Lemma PropagatePOneStep_good : forall c c',
    good c -> PropagatePOneStep O c = Ok c' -> good c'.
  Proof.
    intros c c' Hg H. unfold PropagatePOneStep in H. inv_bind H.
    destruct (_ =? pos_end (states c))%nat; [injection H as <-; exact Hg|].
    inv_bind H. inv_bind H. rename a0 into eo, a1 into en.
    pose proof (g_states _ Hg) as [Hs Hst].
    assert (good_st (snd eo)) as Ho.
    { unfold it_deref in E0. destruct (nth_error (states c) _) as [[k s]|] eqn:En; [|discriminate].
      injection E0 as <-. apply nth_error_In in En. cbn. eauto. }
    assert (good_st (snd en)) as Hn.
    { unfold it_deref in E1. destruct (nth_error (states c) a) as [[k s]|] eqn:En; [|discriminate].
      injection E1 as <-. apply nth_error_In in En. cbn. eauto. }
    pose proof (good_pred_cov (fst eo) (snd eo) (fst en) (snd en) (time_P c) Ho Hn) as Hp.
    destruct (pred_cov O (fst eo) (snd eo) (fst en) (snd en) (time_P c)) as [sn tP]. cbn in Hp.
    assert (good (set_time_P O (set_states O c (upd_key O (fst en) sn (states c))) tP)) as Hg'.
    { apply set_time_P_good, set_states_good; [exact Hg|]. apply good_upd; [split; assumption|exact Hp]. }
    destruct (numeric_p O (s_val sn)); injection H as <-; [exact Hg'|apply set_flags_good; exact Hg'].
  Qed.

  Lemma ClearOlderThan_In : forall {B} (c : cont B) age c' e,
    ClearOlderThan d c age = Ok c' -> In e c' -> In e c.
  Proof.
    intros B c age c' e H Hin. unfold ClearOlderThan in H.
    destruct (_ <? age); [injection H as <-; exact Hin|].
    inv_bind H. inv_bind H. inv_bind H.
    destruct (_ <? _); injection H as <-; [|exact Hin].
    rewrite <- (firstn_skipn a c). apply in_or_app. right. exact Hin.
  Qed.

  Lemma CleanUpBuffers_good : forall c c',
    good c -> CleanUpBuffers O d c = Ok c' -> good c'.
  Proof.
    intros c c' Hg H. apply CleanUpBuffers_frame in H as (H1 & H2 & ->).
    destruct Hg as [[Hs Hst] Hm HmP Hq Ha Hae Hgl].
    constructor; cbn; try assumption.
    - split; [eapply ClearOlderThan_sorted; eauto|].
      intros t s Hin. eapply Hst. eapply ClearOlderThan_In; eauto.
    - eapply ClearOlderThan_sorted; eauto.
    - intros t m Hin. eapply HmP. eapply ClearOlderThan_In; eauto.
  Qed.

  (** Interpolation happens strictly between two neighbouring states. *)
  Lemma closest_occupied : forall {B} (c : cont B) t p e,
    time_sorted c -> GetIteratorClosest d c t = Ok p -> it_deref c p = Ok e ->
    occupied c t -> fst e = t.
  Proof.
    intros B c t p e Hs Hp He Ho. rewrite GetIteratorClosest_exact in Hp by exact Ho.
    injection Hp as <-. destruct Ho as [a Ha]. apply find_pos_nth in Ha; [|exact Hs].
    unfold it_deref in He. rewrite Ha in He. injection He as <-. reflexivity.
  Qed.

  Lemma interp_strict : forall {B} (c : cont B) t tl sl tn sn,
    time_sorted c -> ~ occupied c t ->
    GetClosestBefore c t = Some (tl, sl) -> GetClosestAfter c t = Some (tn, sn) ->
    tl <> tn ->
    tl < t < tn /\ In (tl, sl) c /\ In (tn, sn) c /\
    (forall e, In e c -> fst e <= tl \/ tn <= fst e).
  Proof.
    intros B c t tl sl tn sn Hs Hf Hb Ha Hne.
    apply GetClosestAfter_some in Ha as (Ha1 & Ha2 & Ha3); [|exact Hs]. cbn in *.
    assert (exists e, In e c /\ fst e < t) as Hex.
    { destruct (existsb (fun e => fst e <? t) c) eqn:Ex.
      - apply existsb_exists in Ex as [e [H1 H2]]. exists e. split; [exact H1|lia].
      - exfalso. assert (forall e, In e c -> t <= fst e) as Hall.
        { intros e He. destruct (fst e <? t) eqn:E; [|lia].
          assert (existsb (fun e => fst e <? t) c = true) as Hc; [|congruence].
          apply existsb_exists. eauto. }
        rewrite GetClosestBefore_none_older in Hb by assumption.
        destruct c as [|[k x] r]; [discriminate|]. cbn in Hb. injection Hb as -> ->.
        pose proof (Hall (tl, sl) (or_introl eq_refl)) as H1. cbn in H1.
        assert (tl <> t) as H2 by (intros ->; apply Hf; exists sl; left; reflexivity).
        pose proof (Ha3 (tl, sl) (or_introl eq_refl)) as H3. cbn in H3.
        apply sorted_cons_inv in Hs as [_ Hs].
        destruct Ha1 as [He|Ha1]; [injection He as -> ->; lia|].
        specialize (Hs _ _ Ha1). lia. }
    destruct (GetClosestBefore_spec c t Hs Hex) as [[k x] [Hb' (Hb1 & Hb2 & Hb3)]].
    rewrite Hb in Hb'. injection Hb' as <- <-. cbn in *.
    repeat split; try assumption.
    intros e He. destruct (Z_lt_le_dec (fst e) t) as [Hlt|Hge]; [left; apply Hb3; assumption|].
    right. apply Ha3; [exact He|].
    assert (fst e <> t); [|lia]. intros <-. apply Hf. destruct e as [k y]. exists y. exact He.
  Qed.

  Lemma interpolate_good : forall c t p e c1 ts,
    good c -> GetIteratorClosest d (states c) t = Ok p -> it_deref (states c) p = Ok e ->
    interpolate O c t (fst e) = (c1, ts) -> good c1.
  Proof.
    intros c t p e c1 ts Hg Hp He Hi.
    apply interpolate_frame in Hi as
      [[-> _]|(_ & Habs & tl & sl & tn & sn & Hb & Ha & _ & _ & Hne & _ & _ & ->)]; [exact Hg|].
    pose proof (g_states _ Hg) as [Hs Hst].
    destruct (occupied_dec (states c) t) as [Ho|Hf].
    { rewrite (closest_occupied _ _ _ _ Hs Hp He Ho) in Habs. unfold thr_interp, second in Habs.
      cbn in Habs. lia. }
    destruct (interp_strict _ _ _ _ _ _ Hs Hf Hb Ha Hne) as (Hlt & Hil & Hin & _).
    destruct (Hst _ _ Hil) as (H1 & H2 & H3 & H4).
    destruct (Hst _ _ Hin) as (H5 & H6 & H7 & H8).
    apply set_time_P_good, set_states_good; [exact Hg|].
    apply good_insert; [split; assumption|].
    apply good_prop_val; cbn.
    - repeat split; assumption.
    - apply (cl_lerp_acc _ _ _ _ _ _ _ Hcl); try assumption; lia.
    - apply (cl_lerp_gyr _ _ _ _ _ _ _ Hcl); try assumption; lia.
    - apply (cl_cov_zero _ _ _ _ _ _ _ Hcl).
  Qed.

  Lemma GetClosestState_good : forall c t c' os,
    good c -> GetClosestState O d c t = Ok (c', os) ->
    good c' /\ (forall ts s, os = Some (ts, s) -> good_st s).
  Proof.
    intros c t c' os Hg H. unfold GetClosestState in H. inv_bind H. inv_bind H.
    destruct (_ || _); [injection H as <- <-; split; [exact Hg|discriminate]|].
    destruct (interpolate O c t (fst a0)) as [c1 tc] eqn:Ei.
    pose proof (interpolate_good _ _ _ _ _ _ Hg E E0 Ei) as Hg1.
    inv_bind H. rename a1 into c2.
    pose proof (PropPToState_good _ _ _ Hg1 E1) as Hg2.
    destruct (GetValueAt (states c2) tc) as [[ks s]|] eqn:Ev; [|discriminate].
    assert (good_st s) as Hgs.
    { unfold GetValueAt in Ev. apply nth_error_In in Ev. destruct (g_states _ Hg2) as [_ Hst]. eauto. }
    destruct (negb _); [injection H as <- <-; split; [exact Hg2|discriminate]|].
    inv_bind H. injection H as <- <-. split.
    - destruct (janitor c2 >? janitor_limit).
      + inv_bind E2. injection E2 as <-. apply set_janitor_good.
        eapply CleanUpBuffers_good; eauto.
      + injection E2 as <-. apply set_janitor_good. exact Hg2.
    - intros ts s' He. injection He as <- <-. exact Hgs.
  Qed.

  Lemma apply_at_good : forall c m t s,
    good c -> PM m -> good_st s -> good (apply_at O c m t s).
  Proof.
    intros c m t s Hg Hm (H1 & H2 & H3 & H4). unfold apply_at.
    destruct (apply_meas O m (glob c) (s_val s) (s_cov s)) as [[[b v] P] g] eqn:E.
    destruct (cl_apply _ _ _ _ _ _ _ Hcl _ _ _ _ _ _ _ _ Hm (g_glob _ Hg) H3 H4 E) as (Hv & HP & Ht).
    assert (good (set_glob O (set_states O c
              (upd_key O t (mkst (s_acc s) (s_gyr s) v P) (states c))) g)) as Hg'.
    { destruct (set_states_good c (upd_key O t (mkst (s_acc s) (s_gyr s) v P) (states c)) Hg)
        as [? ? ? ? ? ? ?].
      - apply good_upd; [exact (g_states _ Hg)|repeat split; assumption].
      - constructor; cbn in *; assumption. }
    destruct b; [apply set_time_P_good|]; exact Hg'.
  Qed.

  Lemma meas_body_good : forall c tm m rest a c' a',
    good c -> PM m -> meas_body O d c tm m rest a = Ok (c', a') -> good c'.
  Proof.
    intros c tm m rest a c' a' Hg Hm H. unfold meas_body in H.
    destruct (tm <=? 0); [injection H as <- <-; exact Hg|].
    inv_bind H. destruct a0 as [c1 os].
    pose proof (GetClosestState_good _ _ _ _ Hg E) as [Hg1 Hs1].
    destruct os as [[ts s]|]; [|injection H as <- <-; exact Hg1].
    destruct (negb _); [discriminate|].
    destruct (ts <=? 0); [injection H as <- <-; exact Hg1|].
    pose proof (apply_at_good c1 m ts s Hg1 Hm (Hs1 _ _ eq_refl)) as Hg2.
    cbv zeta in H. set (c2 := apply_at O c1 m ts s) in *.
    inv_bind H. inv_bind H.
    destruct (skipn (GetIteratorAtValue (states c2) ts) (states c2)) as [|[told sold] rs] eqn:Es;
      [discriminate|].
    inv_bind H. injection H as <- <-.
    apply set_states_good; [exact Hg2|].
    pose proof (g_states _ Hg2) as [Hsrt Hst].
    assert (forall e, In e ((told, sold) :: rs) -> In e (states c2)) as Hsub.
    { intros e He. rewrite <- Es in He.
      rewrite <- (firstn_skipn (GetIteratorAtValue (states c2) ts) (states c2)).
      apply in_or_app. right. exact He. }
    apply split_good; [split; assumption|rewrite Es; reflexivity| |].
    - rewrite Es. exact (reprop_keys O _ _ _ _ _ _ E2).
    - eapply good_reprop; [| |exact E2].
      + eapply Hst. apply Hsub. left. reflexivity.
      + intros t s' Hin. eapply Hst. apply Hsub. right. exact Hin.
  Qed.

  Lemma meas_loop_good : forall todo c a c' a',
    good c -> (forall t m, In (t, m) todo -> PM m) ->
    meas_loop O d c todo a = Ok (c', a') -> good c'.
  Proof.
    induction todo as [|[tm m] r IH]; intros c a c' a' Hg Hm H; cbn [meas_loop] in H.
    - injection H as <- <-. exact Hg.
    - inv_bind H. destruct a0 as [c1 a1].
      eapply IH; [|intros; eapply Hm; right; eauto|exact H].
      eapply meas_body_good; [exact Hg| |exact E]. eapply Hm. left. reflexivity.
  Qed.

  Lemma AddMeasurement_good : forall c tm m c' ev,
    good c -> PM m -> AddMeasurement O d c tm m = Ok (c', ev) ->
    good c' /\ Forall good_ev ev.
  Proof.
    intros c tm m c' ev Hg Hm H. unfold AddMeasurement in H.
    destruct (_ || _); [injection H as <- <-; split; [exact Hg|constructor]|].
    destruct (tm >? _).
    { injection H as <- <-. split; [|constructor].
      destruct Hg. constructor; cbn; try assumption.
      intros t m' Hin. apply in_app_or in Hin as [Hin|[He|[]]]; [eauto|].
      injection He as <- <-. exact Hm. }
    destruct (tm <? _); [injection H as <- <-; split; [exact Hg|constructor]|].
    cbn [Insert] in H. inv_bind H. destruct a as [c1 applied].
    assert (good c1) as Hg1.
    { assert (forall t m', In (t, m') (insert_list tm m (meas c)) -> PM m') as HmP.
      { intros t m' Hin. destruct (occupied_dec (meas c) tm) as [Ho|Hf].
        - rewrite insert_list_occupied in Hin by (assumption || exact (g_meas _ Hg)).
          eapply (g_measP _ Hg); eauto.
        - apply insert_list_free in Hin as [He|Hin]; [|eapply (g_measP _ Hg); eauto|exact Hf].
          injection He as <- <-. exact Hm. }
      eapply meas_loop_good; [| |exact E].
      - destruct Hg. constructor; cbn; try assumption. apply insert_list_sorted. assumption.
      - intros t m' Hin. eapply (HmP t m').
        rewrite <- (firstn_skipn (find_pos tm (insert_list tm m (meas c))) (insert_list tm m (meas c))).
        apply in_or_app. right. exact Hin. }
    destruct (negb applied); [injection H as <- <-; split; [exact Hg1|constructor]|].
    inv_bind H. rename a into c2. pose proof (PropPToState_good _ _ _ Hg1 E0) as Hg2.
    destruct (GetLast (states c2)) as [[t s]|] eqn:El; [|discriminate].
    injection H as <- <-. split; [exact Hg2|]. constructor; [|constructor].
    cbn. destruct (g_states _ Hg2) as [_ Hst]. unfold GetLast in El.
    destruct (states c2) eqn:Est; [discriminate|]. rewrite <- Est in *.
    apply nth_error_In in El. eauto.
  Qed.

  Lemma HandlePending_good : forall c c' ev,
    good c -> HandlePendingMeasurements O d c = Ok (c', ev) ->
    good c' /\ Forall good_ev ev.
  Proof.
    intros c c' ev Hg H. unfold HandlePendingMeasurements in H.
    destruct (queue c) as [|[tm m] q] eqn:Eq.
    - injection H as <- <-. split; [exact Hg|constructor].
    - eapply AddMeasurement_good; [| |exact H].
      + destruct Hg. constructor; cbn; try assumption.
        intros t m' Hin. eapply g_queue0. rewrite Eq. right. exact Hin.
      + eapply (g_queue _ Hg). rewrite Eq. left. reflexivity.
  Qed.

  Lemma deref_last_frame : forall c t c0 tl sl,
    deref_last O d c t = Ok (c0, (tl, sl)) ->
    In (tl, sl) (states c) /\ exists i, c0 = set_it O c i.
  Proof.
    intros c t c0 tl sl H. unfold deref_last in H. inv_bind H.
    destruct a as [|k|]; try discriminate.
    destruct (GetValueAt (states c) k) as [[k' s]|] eqn:Ev; [|discriminate].
    injection H as <- <- <-. split; [|eauto].
    unfold GetValueAt in Ev. apply nth_error_In in Ev. exact Ev.
  Qed.

  Lemma set_last_am_good : forall c a, good c -> PA a -> good (set_last_am O c a).
  Proof. intros c a [] H. constructor; cbn; assumption. Qed.
  Lemma set_last_am_ext_good : forall c a, good c -> PA a -> good (set_last_am_ext O c a).
  Proof. intros c a [] H. constructor; cbn; assumption. Qed.

  Lemma GetValueAt_good : forall c t k s, good c -> GetValueAt (states c) t = Some (k, s) -> good_st s.
  Proof.
    intros c t k s Hg H. unfold GetValueAt in H. apply nth_error_In in H.
    destruct (g_states _ Hg) as [_ Hst]. eauto.
  Qed.

  Lemma imu_finish_good : forall c t new ins c' ev,
    good c -> good_st new -> imu_finish O d c t new ins = Ok (c', ev) ->
    good c' /\ Forall good_ev ev.
  Proof.
    intros c t new ins c' ev Hg Hn H. unfold imu_finish in H.
    inv_bind H. pose proof (PropagatePOneStep_good _ _ Hg E) as Hg1. cbv zeta in H.
    assert (good_st (if ins then match GetValueAt (states a) t with Some (_, s) => s | None => new end
                     else new)) as Hp.
    { destruct ins; [|exact Hn]. destruct (GetValueAt (states a) t) as [[k s]|] eqn:Ev; [|exact Hn].
      eapply GetValueAt_good; eauto. }
    set (c2 := if (3 <? Size (states a))%nat then set_flags O a (initialized a) true else a) in *.
    assert (good c2) as Hg2.
    { unfold c2. destruct (3 <? Size (states a))%nat; [apply set_flags_good|]; exact Hg1. }
    inv_bind H. destruct a0 as [c3 ev3]. injection H as <- <-.
    assert (good c3 /\ Forall good_ev ev3) as [H1 H2].
    { destruct (predictionMade c2).
      - eapply HandlePending_good; eauto.
      - injection E0 as <- <-. split; [exact Hg2|constructor]. }
    split; [exact H1|]. constructor; [exact Hp|exact H2].
  Qed.

  Lemma ProcessIMU_good : forall c a g t c' ev,
    good c -> (acc_spike O a = false -> PA a) -> PG g ->
    ProcessIMU O d c a g t = Ok (c', ev) -> good c' /\ Forall good_ev ev.
  Proof.
    intros c a g t c' ev Hg Ha Hgy H. unfold ProcessIMU in H.
    destruct (negb _); [injection H as <- <-; split; [exact Hg|constructor]|].
    inv_bind H. destruct a0 as [c0 [tl sl]].
    apply deref_last_frame in E as [Hin [i ->]].
    destruct (g_states _ Hg) as [Hs Hst]. pose proof (Hst _ _ Hin) as Hsl.
    pose proof (set_it_good c i Hg) as Hg0. set (c0 := set_it O c i) in *.
    destruct (tl =? INVALID_TIME); [injection H as <- <-; split; [exact Hg0|constructor]|].
    destruct (_ && _); [injection H as <- <-; split; [apply set_flags_good; exact Hg0|constructor]|].
    cbv zeta in H.
    set (c1 := if acc_spike O a then c0 else set_last_am O c0 (s_acc sl)) in *.
    assert (good c1) as Hg1.
    { unfold c1. destruct (acc_spike O a); [exact Hg0|apply set_last_am_good; [exact Hg0|]].
      apply Hsl. }
    assert (PA (if acc_spike O a then last_am c0 else a)) as Ha'.
    { destruct (acc_spike O a); [apply (g_am _ Hg0)|auto]. }
    destruct (_ && _).
    - injection H as <- <-. split; [|constructor].
      apply set_it_good, set_time_P_good, set_states_good; [exact Hg1|].
      destruct (g_states _ Hg1) as [Hs1 Hst1].
      split; [apply UpdateTime_sorted; exact Hs1|].
      intros t' s' Hin'. unfold UpdateTime in Hin'.
      destruct (nth_error (states c1) (find_pos tl (states c1))) as [[k s]|] eqn:En; [|eauto].
      cbn in Hin'.
      assert (good_buf (insert_list t s (erase_key tl (states c1)))) as [_ Hb].
      { apply good_insert.
        - split; [apply erase_key_sorted; exact Hs1|].
          intros t0 s0 H0. apply erase_key_In in H0 as [H0 _]; [eauto|exact Hs1].
        - apply nth_error_In in En. eauto. }
      eauto.
    - assert (good_st (prop_val O tl sl t
                (mkst (if acc_spike O a then last_am c0 else a) g (s_val sl) (cov_zero O)))) as Hn.
      { apply good_prop_val; cbn; try assumption. apply (cl_cov_zero _ _ _ _ _ _ _ Hcl). }
      eapply imu_finish_good; [|exact Hn|exact H].
      apply set_it_good, set_states_good; [exact Hg1|]. cbn [Insert fst].
      apply good_insert; [exact (g_states _ Hg1)|exact Hn].
  Qed.

  Lemma ProcessExt_good : forall c a g x b t c' ev,
    good c -> (acc_spike O a = false -> PA a) -> PG g -> PX x ->
    ProcessExternallyPropagatedState O d c a g x b t = Ok (c', ev) ->
    good c' /\ Forall good_ev ev.
  Proof.
    intros c a g x b t c' ev Hg Ha Hgy Hx H. unfold ProcessExternallyPropagatedState in H.
    destruct (negb _); [injection H as <- <-; split; [exact Hg|constructor]|].
    destruct (GetLast (states c)) as [[tl sl]|] eqn:El;
      [|injection H as <- <-; split; [exact Hg|constructor]].
    destruct (g_states _ Hg) as [Hs Hst].
    assert (good_st sl) as Hsl.
    { unfold GetLast in El. destruct (states c) eqn:Est; [discriminate|]. rewrite <- Est in *.
      apply nth_error_In in El. eauto. }
    destruct (tl =? INVALID_TIME); [injection H as <- <-; split; [exact Hg|constructor]|].
    cbv zeta in H.
    set (c1 := if acc_spike O a then c else set_last_am_ext O c a) in *.
    assert (good c1) as Hg1.
    { unfold c1. destruct (acc_spike O a) eqn:Esp; [exact Hg|apply set_last_am_ext_good; auto]. }
    assert (PA (if acc_spike O a then last_am_ext c else a)) as Ha'.
    { destruct (acc_spike O a); [apply (g_ame _ Hg)|auto]. }
    set (a' := if acc_spike O a then last_am_ext c else a) in *. clearbody a' c1.
    destruct (g_states _ Hg1) as [Hs1 Hst1].
    destruct (_ && _).
    { injection H as <- <-. split; [|constructor].
      apply set_it_good, set_states_good; [exact Hg1|].
      split; [apply UpdateTime_sorted; exact Hs1|].
      intros t' s' Hin'. unfold UpdateTime in Hin'.
      destruct (nth_error (states c1) (find_pos tl (states c1))) as [[k s]|] eqn:En; [|eauto].
      cbn in Hin'.
      assert (good_buf (insert_list t s (erase_key tl (states c1)))) as [_ Hb].
      { apply good_insert.
        - split; [apply erase_key_sorted; exact Hs1|].
          intros t0 s0 H0. apply erase_key_In in H0 as [H0 _]; [eauto|exact Hs1].
        - apply nth_error_In in En. eauto. }
      eauto. }
    set (new := if b then _ else _) in H.
    assert (good_st new) as Hn.
    { unfold new. destruct b.
      - destruct Hsl as (H1 & H2 & H3 & H4). repeat split; cbn; try assumption.
        + apply (cl_ext_val _ _ _ _ _ _ _ Hcl); assumption.
        + apply (cl_cov_zero _ _ _ _ _ _ _ Hcl).
      - apply good_prop_val; cbn; try assumption. apply (cl_cov_zero _ _ _ _ _ _ _ Hcl). }
    clearbody new.
    set (c2 := if predictionMade c1 then c1 else _) in H.
    assert (good c2) as Hg2.
    { unfold c2. destruct (predictionMade c1); [exact Hg1|]. destruct Hg1.
      constructor; cbn; try assumption; try (intros ? ? []).
      - split; [constructor|intros ? ? []].
      - constructor. }
    set (new' := if predictionMade c1 then new else _) in H.
    assert (good_st new') as Hn'.
    { unfold new'. destruct (predictionMade c1); [exact Hn|].
      destruct Hn as (H1 & H2 & H3 & H4). destruct Hsl as (H5 & H6 & H7 & H8).
      repeat split; assumption. }
    clearbody c2 new'.
    inv_bind H. rename a0 into c4.
    assert (good c4) as Hg4.
    { eapply PropagatePOneStep_good; [|exact E]. apply set_states_good; [exact Hg2|].
      cbn [Insert fst]. apply good_insert; [exact (g_states _ Hg2)|exact Hn']. }
    inv_bind H. destruct a0 as [c6 ev6]. injection H as <- <-.
    apply HandlePending_good in E0 as [H1 H2]; [|apply set_flags_good; exact Hg4].
    split; [exact H1|]. constructor; [|exact H2]. cbn.
    destruct (negb _); [|exact Hn'].
    destruct (GetValueAt (states c4) t) as [[k s]|] eqn:Ev; [|exact Hn'].
    eapply GetValueAt_good; [exact Hg4|exact Ev].
  Qed.

  Lemma Init_good : forall c t s c',
    good c -> good_st s -> Init O c t s = Ok c' -> good c'.
  Proof.
    intros c t s c' Hg Hs H. unfold Init in H. destruct (t =? 0); [discriminate|].
    injection H as <-. destruct Hg. constructor; cbn; try assumption; try (intros ? ? []).
    - split; [apply sorted_cons; [constructor|intros ? ? []]|].
      intros t' s' [He|[]]. injection He as <- <-. exact Hs.
    - constructor.
    - apply (cl_glob_reset _ _ _ _ _ _ _ Hcl).
  Qed.

  Lemma step_good : forall c k c' ev,
    good c -> good_call k -> step O d c k = Ok (c', ev) -> good c' /\ Forall good_ev ev.
  Proof.
    intros c [t s|a g t|a g x b t|t m] c' ev Hg Hk H; cbn [step] in H; cbn in Hk.
    - inv_bind H. injection H as <- <-. split; [eapply Init_good; eauto|constructor].
    - destruct Hk as [H1 H2]. eapply ProcessIMU_good; eauto.
    - destruct Hk as (H1 & H2 & H3). eapply ProcessExt_good; eauto.
    - eapply AddMeasurement_good; eauto.
  Qed.

  Lemma run_good : forall l c c' ev,
    good c -> Forall good_call l -> run O d c l = Ok (c', ev) -> good c' /\ Forall good_ev ev.
  Proof.
    induction l as [|k r IH]; intros c c' ev Hg Hl H; cbn [run] in H.
    - injection H as <- <-. split; [exact Hg|constructor].
    - inversion Hl as [|? ? Hk Hr]; subst.
      inv_bind H. destruct a as [c1 e1]. inv_bind H. destruct a as [c2 e2]. injection H as <- <-.
      apply step_good in E as [H1 H2]; [|assumption|assumption].
      apply IH in E0 as [H3 H4]; [|assumption|assumption].
      split; [exact H3|]. apply Forall_app. split; assumption.
  Qed.

  Lemma core_new_good : forall g, PT g -> good (core_new O g).
  Proof.
    intros g Hg. constructor; cbn; try (intros ? ? []).
    - split; [constructor|intros ? ? []].
    - constructor.
    - apply (cl_acc_zero _ _ _ _ _ _ _ Hcl).
    - apply (cl_acc_zero _ _ _ _ _ _ _ Hcl).
    - exact Hg.
  Qed.
End Inv.

(** Sortedness alone needs no hypothesis. *)
Lemma run_sorted : forall O d l g c ev,
  run O d (core_new O g) l = Ok (c, ev) ->
  time_sorted (states c) /\ time_sorted (meas c).
Proof.
  intros O d l g c ev H.
  assert (closed O (fun _ => True) (fun _ => True) (fun _ => True) (fun _ => True)
                 (fun _ => True) (fun _ => True) (fun _ => True)) as Hcl
    by (constructor; intros; repeat split; exact I).
  eapply run_good in H as [H _]; [|exact Hcl|exact (core_new_good _ _ _ _ _ _ _ _ Hcl g I)|].
  - split; [exact (proj1 (g_states _ _ _ _ _ _ _ _ H))|exact (g_meas _ _ _ _ _ _ _ _ H)].
  - apply Forall_forall. intros [] _; cbn; repeat split; auto.
Qed.
