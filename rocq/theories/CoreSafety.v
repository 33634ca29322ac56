(** Absence of undefined iterator use (C15): invariant and progress lemmas. *)

From Coq Require Import ZArith List Lia ZifyBool ZifyNat Bool.
From Verif Require Import Outcome SortedContainer SortedContainerSpec SortedContainerProofs
     Core CoreBasics CoreInv CoreSteps.
Import ListNotations.
Open Scope Z_scope.

Section Top.
  Context {A : Type}.
  Implicit Types (c : cont A) (n t : Z).

  (** [n] is the newest stamp. *)
  Definition top c n : Prop := occupied c n /\ forall e, In e c -> fst e <= n.

  Lemma top_ne : forall c n, top c n -> c <> [].
  Proof. intros c n [[a Ha] _] ->. destruct Ha. Qed.

  Lemma top_keys : forall {B} c (c' : cont B) n,
    map fst c' = keys c -> top c n -> occupied c' n /\ forall e, In e c' -> fst e <= n.
  Proof.
    intros B c c' n Hk [Ho Hm]. split.
    - apply in_keys_occupied. unfold keys. rewrite Hk. apply in_keys_occupied. exact Ho.
    - intros [k x] Hin. cbn. assert (In k (keys c)) as Hk'.
      { rewrite <- Hk. apply in_map_iff. exists (k, x). auto. }
      apply in_keys_occupied in Hk' as [a Ha]. exact (Hm _ Ha).
  Qed.

  Lemma top_last : forall c n, time_sorted c -> top c n -> otime (GetLast c) = n.
  Proof.
    intros c n Hs Ht. pose proof (top_ne _ _ Ht) as Hne.
    destruct (GetLast_newest c Hs Hne) as [[k x] [-> [H1 H2]]]. cbn.
    destruct Ht as [[a Ha] Hm]. specialize (Hm _ H1). specialize (H2 _ Ha). cbn in *. lia.
  Qed.

  Lemma top_exists : forall c, time_sorted c -> c <> [] -> exists n, top c n.
  Proof.
    intros c Hs Hne. destruct (GetLast_newest c Hs Hne) as [[k x] [_ [H1 H2]]].
    exists k. split; [exists x; exact H1|exact H2].
  Qed.

  Lemma insert_occupied_iff : forall c t a k, time_sorted c ->
    (occupied (insert_list t a c) k <-> k = t \/ occupied c k).
  Proof.
    intros c t a k Hs. destruct (occupied_dec c t) as [Ho|Hf].
    - rewrite insert_list_occupied by assumption. split; [auto|]. intros [->|H]; auto.
    - split.
      + intros [x Hx]. apply insert_list_free in Hx as [He|Hx]; [|right; exists x; exact Hx|exact Hf].
        injection He as -> _. left; reflexivity.
      + intros [->|[x Hx]].
        * exists a. apply insert_list_free; auto.
        * exists x. apply insert_list_free; auto.
  Qed.

  Lemma in_fst_occupied : forall c e, In e c -> occupied c (fst e).
  Proof. intros c [k x] H. exists x. exact H. Qed.

  Lemma top_insert : forall c n t a, time_sorted c -> top c n ->
    top (insert_list t a c) (Z.max n t).
  Proof.
    intros c n t a Hs [Ho Hm]. split.
    - apply insert_occupied_iff; [exact Hs|].
      destruct (Z.max_spec n t) as [[_ ->]|[_ ->]]; auto.
    - intros e He. apply in_fst_occupied in He. apply insert_occupied_iff in He as [->|[x Hx]];
        [lia| |exact Hs]. specialize (Hm _ Hx). cbn in Hm. lia.
  Qed.

  Lemma top_clear : forall d c n age c',
    time_sorted c -> top c n -> 0 <= age -> ClearOlderThan d c age = Ok c' ->
    top c' n /\ (forall k, occupied c' k -> occupied c k) /\
    (forall k, occupied c k -> n - age <= k -> occupied c' k).
  Proof.
    intros d c n age c' Hs [[x Hx] Hm] Hage H.
    assert (newest c (n, x)) as Hn by (split; [exact Hx|exact Hm]).
    destruct (ClearOlderThan_cases d c age c' _ Hs Hn Hage H) as (p & -> & Hp & _).
    cbn [fst] in Hp.
    assert (forall k, occupied c k -> n - age <= k -> occupied (skipn p c) k) as Hkeep.
    { intros k [a Ha] Hle. exists a. apply In_nth_error in Ha as [j Hj].
      apply skipn_In_nth. exists j. split; [|exact Hj].
      pose proof (lower_bound_spec c (n - age) _ _ Hs Hj) as Hb. cbn in Hb. lia. }
    assert (forall k a, In (k, a) (skipn p c) -> In (k, a) c) as Hsub.
    { intros k a Ha. rewrite <- (firstn_skipn p c). apply in_or_app. right. exact Ha. }
    split; [|split; [|exact Hkeep]].
    - split; [apply Hkeep; [exists x; exact Hx|lia]|].
      intros [k a] Ha. apply Hm. apply Hsub. exact Ha.
    - intros k [a Ha]. exists a. apply Hsub. exact Ha.
  Qed.

  (** The iterator query, whatever [--begin()] does short of undefined. *)
  Lemma closest_pos : forall d c t,
    time_sorted c -> c <> [] -> d (length c) <> DecUB ->
    exists p e, GetIteratorClosest d c t = Ok p /\ nth_error c p = Some e /\
      (p = lower_bound t c \/ S p = lower_bound t c) /\ (p = 0%nat \/ nearest c t e).
  Proof.
    intros d c t Hs Hne Hd.
    destruct (occupied_dec c t) as [Ho|Hfree].
    - rewrite (GetIteratorClosest_exact d c t Ho). destruct Ho as [a Ha].
      pose proof (find_pos_nth c t a Hs Ha) as Hn.
      exists (find_pos t c), (t, a). repeat split; [exact Hn| |].
      + left. symmetry. eapply lower_bound_at; eauto.
      + right. apply nearest_exact; assumption.
    - apply free_find in Hfree. pose proof (bounds_free c t Hs Hfree) as Hb.
      pose proof (lower_bound_le c t) as Hl.
      assert (0 < length c)%nat as Hpos by (destruct c; [congruence|cbn; lia]).
      destruct (nth_error_lt_some c 0 Hpos) as [e0 He0].
      unfold GetIteratorClosest, pos_end. rewrite Hfree, Nat.eqb_refl. cbn [negb].
      unfold GetIteratorClosestBefore, GetIteratorBeforeBegin, pos_begin, GetIteratorClosestAfter.
      destruct (lower_bound t c) as [|i] eqn:Elb; cbn [it_dec].
      + exists 0%nat, e0. unfold pos_end, pos_begin.
        destruct (d (length c)); [congruence| |]; cbn [bind]; rewrite Nat.eqb_refl;
          repeat split; auto.
      + destruct (nth_error_lt_some c i) as [em Hem]; [lia|].
        assert (exists q, (q = length c \/ q = 0%nat) /\
                  match d (length c) with DecUB => UB | DecEnd => Ok (pos_end c)
                                        | DecBegin => Ok (pos_begin c) end = Ok q)
          as (q & Hq & Hqe).
        { unfold pos_end, pos_begin. destruct (d (length c)); [congruence|eauto|eauto]. }
        rewrite Hqe. cbn [bind]. rewrite <- Hb.
        destruct (i =? q)%nat eqn:E1.
        { assert (i = 0)%nat as -> by lia. exists 0%nat, e0. repeat split; auto. }
        replace (i =? length c)%nat with false by lia.
        destruct (S i =? length c)%nat eqn:E2.
        * exists i, em. repeat split; auto. right.
          eapply nearest_after_all; eauto; lia.
        * destruct (nth_error_lt_some c (S i)) as [ep Hep]; [lia|].
          unfold it_deref. rewrite Hem, Hep. cbn [bind].
          pose proof (nearest_between c t i em ep Hs Hfree Elb Hem Hep) as Hnr.
          destruct (Z.abs (fst ep - t) <? Z.abs (fst em - t)).
          -- exists (S i), ep. repeat split; auto.
          -- exists i, em. repeat split; auto.
  Qed.

  Lemma first_min : forall c e, time_sorted c -> nth_error c 0 = Some e ->
    forall k, occupied c k -> fst e <= k.
  Proof.
    intros c e Hs He k [a Ha]. apply In_nth_error in Ha as [j Hj].
    pose proof (sorted_nth_le _ _ _ _ _ Hs He Hj) as H. cbn in H. apply H. lia.
  Qed.

  Lemma AtValue_occ : forall c k, occupied c k -> GetIteratorAtValue c k = find_pos k c.
  Proof.
    intros c k Ho. apply occupied_find in Ho. unfold GetIteratorAtValue, pos_end.
    replace (find_pos k c =? length c)%nat with false by lia. reflexivity.
  Qed.

  Lemma AtValue_lt : forall c n k, time_sorted c -> top c n -> k <= n ->
    (GetIteratorAtValue c k < length c)%nat.
  Proof.
    intros c n k Hs [[x Hx] Hm] Hle. unfold GetIteratorAtValue, pos_end.
    destruct (find_pos k c =? length c)%nat eqn:E; [|pose proof (find_pos_le c k); lia].
    apply In_nth_error in Hx as [j Hj].
    pose proof (lower_bound_spec c k _ _ Hs Hj) as Hb. cbn in Hb.
    pose proof (nth_error_some_lt _ _ _ Hj). lia.
  Qed.

  Lemma skipn_lt_cons : forall c p, (p < length c)%nat ->
    exists e r, skipn p c = e :: r /\ nth_error c p = Some e /\ (length r = length c - S p)%nat.
  Proof.
    intros c p H. destruct (nth_error_lt_some c p H) as [e He].
    exists e, (skipn (S p) c). split; [apply nth_error_split_at; exact He|].
    split; [exact He|]. rewrite skipn_length. reflexivity.
  Qed.
End Top.

Definition late_limit : Z := buffer_age - thr_closest.   (* 59.9 s *)

Lemma late_limit_le : late_limit <= buffer_age.
Proof. unfold late_limit, thr_closest, second. cbn. lia. Qed.

Section Safety.
  Variable O : ops.
  Variable d : nat -> dec_begin.
  Hypothesis Hd : forall n, (0 < n)%nat -> d n <> DecUB.
  Notation st := (st O).
  Notation core := (core O).

  Lemma d_ne : forall {A} (c : cont A), c <> [] -> d (length c) <> DecUB.
  Proof. intros A c H. apply Hd. destruct c; [congruence|cbn; lia]. Qed.

  (** Invariant of an initialised filter whose newest state has stamp [n];
      [imu] tells whether states come from the IMU callback. *)
  Record sinv (imu : bool) (c : core) (n : Z) : Prop := {
    si_sorted : time_sorted (states c);
    si_msorted : time_sorted (meas c);
    si_top : top (states c) n;
    si_meas : forall k, occupied (meas c) k -> k <= n;
    si_P : time_P c <= n;
    si_it : imu = true -> exists k, it_last c = ItAt k /\ occupied (states c) k /\ n - buffer_age <= k
  }.

  Lemma propP_loop_tP : forall rest told sold tt tP,
    snd (propP_loop O told sold rest tt tP) = tP \/
    In (snd (propP_loop O told sold rest tt tP)) (keys rest).
  Proof.
    induction rest as [|[t s] r IH]; intros told sold tt tP; cbn [propP_loop]; [left; reflexivity|].
    destruct (t <=? tt); [|left; reflexivity].
    destruct (pred_cov O told sold t s tP) as [s' tP'] eqn:E.
    assert (tP' = tP \/ tP' = t) as Ht.
    { unfold pred_cov in E. destruct (t - told <=? 0); injection E as _ <-; auto. }
    specialize (IH t s' tt tP').
    destruct (propP_loop O t s' r tt tP') as [r' tP'']. cbn in *.
    destruct IH as [->|H]; [|right; right; exact H].
    destruct Ht as [->| ->]; [left; reflexivity|right; left; reflexivity].
  Qed.

  Lemma PropPToState_safe : forall imu c n tt,
    sinv imu c n -> exists c', PropPToState O c tt = Ok c' /\ sinv imu c' n /\
      meas c' = meas c /\ keys (states c') = keys (states c).
  Proof.
    intros imu c n tt [Hs Hms Ht Hm HP Hit]. unfold PropPToState.
    pose proof (AtValue_lt (states c) n (time_P c) Hs Ht HP) as Hlt.
    unfold it_inc. replace (_ <? _)%nat with true by lia. cbn [bind].
    destruct (skipn_lt_cons (states c) _ Hlt) as ([told sold] & rest & Hsk & Hn & _).
    rewrite Hsk.
    pose proof (propP_loop_tP rest told sold tt (time_P c)) as HtP.
    pose proof (propP_loop_keys O rest told sold tt (time_P c)) as Hk.
    destruct (propP_loop O told sold rest tt (time_P c)) as [rest' tP] eqn:El. cbn [fst snd] in HtP, Hk.
    set (st' := firstn (GetIteratorAtValue (states c) (time_P c)) (states c) ++ (told, sold) :: rest').
    assert (keys st' = keys (states c)) as Hkk.
    { unfold st'. rewrite keys_app. cbn [keys map fst]. fold (keys rest'). rewrite Hk.
      rewrite <- (firstn_skipn (GetIteratorAtValue (states c) (time_P c)) (states c)) at 3.
      rewrite keys_app, Hsk. reflexivity. }
    eexists. split; [reflexivity|]. repeat split; cbn; try assumption.
    - eapply sorted_same_keys; [exact Hkk|exact Hs].
    - eapply top_keys; [exact Hkk|exact Ht].
    - intros e He. eapply (top_keys (states c) st' n Hkk Ht). exact He.
    - destruct HtP as [->|HtP]; [exact HP|].
      assert (occupied (states c) tP) as [x Hx].
      { apply in_keys_occupied. apply in_map_iff in HtP as [e [<- He]].
        apply in_map_iff. exists e. split; [reflexivity|].
        rewrite <- (firstn_skipn (GetIteratorAtValue (states c) (time_P c)) (states c)).
        apply in_or_app. right. rewrite Hsk. right. exact He. }
      destruct Ht as [_ Hmax]. exact (Hmax _ Hx).
    - intros Hi. destruct (Hit Hi) as (k & H1 & H2 & H3). exists k. repeat split; auto.
      apply in_keys_occupied. rewrite Hkk. apply in_keys_occupied. exact H2.
  Qed.

  Lemma CleanUpBuffers_safe : forall imu c n,
    sinv imu c n -> exists c', CleanUpBuffers O d c = Ok c' /\ sinv imu c' n /\
      (forall k, occupied (states c') k -> occupied (states c) k) /\
      (forall k, occupied (states c) k -> n - buffer_age <= k -> occupied (states c') k) /\
      (forall k, occupied (meas c) k -> n - buffer_age <= k -> occupied (meas c') k).
  Proof.
    intros imu c n [Hs Hms Ht Hm HP Hit].
    assert (0 <= buffer_age) as Hage by (unfold buffer_age, second; lia).
    assert (0 < buffer_age) as Hage' by (unfold buffer_age, second; lia).
    pose proof (top_ne _ _ Ht) as Hne.
    destruct (ClearOlderThan_defined d (states c) buffer_age Hs (d_ne _ Hne)) as [s' Es]; [auto|].
    assert (exists m', ClearOlderThan d (meas c) buffer_age = Ok m') as [m' Em].
    { destruct (meas c) as [|e r] eqn:E0.
      - exists []. unfold ClearOlderThan. cbn. reflexivity.
      - rewrite <- E0 in *. apply ClearOlderThan_defined; auto. apply d_ne. rewrite E0. congruence. }
    unfold CleanUpBuffers. rewrite Es, Em. cbn [bind].
    destruct (top_clear d (states c) n buffer_age s' Hs Ht Hage Es) as (H1 & H2 & H3).
    assert ((forall k, occupied m' k -> occupied (meas c) k) /\
            (forall k, occupied (meas c) k -> n - buffer_age <= k -> occupied m' k)) as [H4 H5].
    { destruct (meas c) as [|e r] eqn:E0.
      - unfold ClearOlderThan in Em. cbn in Em. injection Em as <-. split; auto.
      - rewrite <- E0 in *. assert (meas c <> []) as Hmne by (rewrite E0; congruence).
        destruct (top_exists (meas c) Hms Hmne) as [nm Hnm].
        destruct (top_clear d (meas c) nm buffer_age m' Hms Hnm Hage Em) as (_ & H4 & H5).
        split; [exact H4|]. intros k Hk Hle. apply H5; [exact Hk|].
        destruct Hnm as [Hnm _]. specialize (Hm _ Hnm). lia. }
    eexists. split; [reflexivity|]. split; [|cbn; auto].
    constructor; cbn [states meas time_P it_last set_it set_meas set_states].
    - eapply ClearOlderThan_sorted; eauto.
    - eapply ClearOlderThan_sorted; eauto.
    - exact H1.
    - auto.
    - exact HP.
    - intros Hi. destruct (Hit Hi) as (k & Hk1 & Hk2 & Hk3). exists k.
      rewrite Hk1. cbn [it_after_erase].
      assert (occupied s' k) as Hk' by (apply H3; assumption).
      replace (has_key k s') with true by (symmetry; apply has_key_true; exact Hk'). auto.
  Qed.

  (** The closest state: defined, near, and nothing between it and the query. *)
  Lemma GetClosestState_safe : forall imu c n t,
    sinv imu c n ->
    exists c' os, GetClosestState O d c t = Ok (c', os) /\ sinv imu c' n /\
      (forall k, occupied (meas c) k -> n - buffer_age <= k -> occupied (meas c') k) /\
      (forall ts s, os = Some (ts, s) ->
         Z.abs (ts - t) <= thr_closest /\ ts <= n /\
         (n - buffer_age <= ts -> occupied (states c') ts) /\
         (forall k, occupied (states c') k -> t < k -> ts <= k)).
  Proof.
    intros imu c n t Hinv. pose proof Hinv as [Hs Hms Ht Hm HP Hit].
    pose proof (top_ne _ _ Ht) as Hne. unfold GetClosestState.
    destruct (closest_pos d (states c) t Hs Hne (d_ne _ Hne)) as (p & e & Hp & He & _ & Hnear).
    rewrite Hp. cbn [bind]. unfold it_deref at 1. rewrite He. cbn [bind].
    assert (In e (states c)) as Hein by (eapply nth_error_In; eauto).
    destruct ((fst e =? INVALID_TIME) || (Z.abs (fst e - t) >? thr_closest)) eqn:Eg.
    { exists c, None. split; [reflexivity|]. split; [exact Hinv|]. split; [auto|].
      intros ? ? Hx. discriminate Hx. }
    apply orb_false_iff in Eg as [_ Eg].
    destruct (interpolate O c t (fst e)) as [c1 tc] eqn:Ei.
    assert (sinv imu c1 n /\ meas c1 = meas c /\ occupied (states c1) tc /\
            Z.abs (tc - t) <= thr_closest /\
            (forall k, occupied (states c1) k -> t < k -> tc <= k)) as (Hinv1 & Hm1 & Ho1 & Hc1 & Hb1).
    { apply interpolate_frame in Ei as
        [[-> ->]|(-> & Habs & tl & sl & tn & sn & Hb & Ha & _ & _ & Hneq & _ & _ & ->)].
      - split; [exact Hinv|]. split; [reflexivity|].
        split; [destruct e as [k x]; exists x; exact Hein|].
        split; [lia|]. intros k Hk Hlt.
        destruct Hnear as [->|[_ Hnr]]; [eapply first_min; eauto|].
        destruct Hk as [x Hx]. destruct (Hnr _ Hx) as [Hn1 _]. cbn in Hn1. lia.
      - destruct (occupied_dec (states c) t) as [Ho|Hf].
        { assert (it_deref (states c) p = Ok e) as Hde by (unfold it_deref; rewrite He; reflexivity).
          rewrite (closest_occupied d _ _ _ _ Hs Hp Hde Ho) in Habs.
          unfold thr_interp, second in Habs. cbn in Habs. lia. }
        destruct (interp_strict _ _ _ _ _ _ Hs Hf Hb Ha Hneq) as (Hlt & Hil & Hin & Hgap).
        cbn. split.
        + constructor; cbn; auto.
          * apply insert_list_sorted. exact Hs.
          * pose proof (top_insert (states c) n t
              (prop_val O tl sl t
                      (mkst (lerp_acc O (s_acc sl) (s_acc sn) (tn - tl) (t - tl))
                            (lerp_gyr O (s_gyr sl) (s_gyr sn) (tn - tl) (t - tl))
                            (s_val sl) (cov_zero O))) Hs Ht) as Htt.
            destruct Ht as [_ Hmax]. pose proof (Hmax _ Hin) as Hle. cbn in Hle.
            replace (Z.max n t) with n in Htt by lia. exact Htt.
          * lia.
          * intros Hi. destruct (Hit Hi) as (k & H1 & H2 & H3). exists k. repeat split; auto.
            apply insert_occupied_iff; auto.
        + repeat split.
          * apply insert_occupied_iff; auto.
          * replace (t - t) with 0 by lia. unfold thr_closest, second. cbn. lia.
          * intros k _ Hk. lia. }
    destruct (PropPToState_safe imu c1 n tc Hinv1) as (c2 & HP2 & Hinv2 & Hm2 & Hk2).
    rewrite HP2. cbn [bind].
    assert (forall k, occupied (states c2) k <-> occupied (states c1) k) as Hocc2.
    { intros k. rewrite <- !in_keys_occupied, Hk2. tauto. }
    assert (occupied (states c2) tc) as Ho2 by (apply Hocc2; exact Ho1).
    pose proof Hinv2 as [Hs2 Hms2 Ht2 Hmm2 HPP2 Hit2].
    destruct Ho2 as [s Hso].
    assert (GetValueAt (states c2) tc = Some (tc, s)) as Hv.
    { apply GetValueAt_spec; auto. }
    rewrite Hv.
    assert (tc <= n) as Htcn by (destruct Ht2 as [_ Hmax]; exact (Hmax _ Hso)).
    destruct (negb (numeric O (s_val s))).
    { exists c2, None. split; [reflexivity|]. split; [exact Hinv2|].
      split; [|intros ? ? Hx; discriminate Hx].
      intros k Hk _. rewrite Hm2, Hm1. exact Hk. }
    assert (exists c3, (if janitor c2 >? janitor_limit
                        then let* c' := CleanUpBuffers O d c2 in Ok (set_janitor O c' 0)
                        else Ok (set_janitor O c2 (janitor c2 + 1))) = Ok c3 /\
              sinv imu c3 n /\
              (forall k, occupied (states c3) k -> occupied (states c2) k) /\
              (forall k, occupied (states c2) k -> n - buffer_age <= k -> occupied (states c3) k) /\
              (forall k, occupied (meas c2) k -> n - buffer_age <= k -> occupied (meas c3) k))
      as (c3 & E3 & Hinv3 & Hsub3 & Hkeep3 & Hmk3).
    { destruct (janitor c2 >? janitor_limit).
      - destruct (CleanUpBuffers_safe imu c2 n Hinv2) as (c3 & E3 & [] & H1 & H2 & H3).
        rewrite E3. cbn [bind]. eexists. split; [reflexivity|].
        split; [constructor; cbn; assumption|]. auto.
      - eexists. split; [reflexivity|]. destruct Hinv2. split; [constructor; cbn; assumption|]. auto. }
    rewrite E3. cbn [bind]. exists c3, (Some (tc, s)). split; [reflexivity|]. split; [exact Hinv3|].
    split.
    { intros k Hk Hle. apply Hmk3; [rewrite Hm2, Hm1; exact Hk|exact Hle]. }
    intros ts s' He'. injection He' as <- <-. repeat split; try assumption.
    - intros Hle. apply Hkeep3; [exists s; exact Hso|exact Hle].
    - intros k Hk Hlt. apply Hb1; [|exact Hlt]. apply Hocc2. apply Hsub3. exact Hk.
  Qed.

  Lemma reprop_ok : forall rest i pe told sold,
    (i < pe)%nat -> (pe <= i + 1 + length rest)%nat ->
    exists r, reprop O i pe told sold rest = Ok r.
  Proof.
    induction rest as [|[t s] r IH]; intros i pe told sold H1 H2; cbn [reprop].
    - cbn in H2. replace (S i =? pe)%nat with true by lia. rewrite orb_true_r. eauto.
    - destruct (i =? pe)%nat eqn:E1; [lia|]. cbn [orb].
      destruct (S i =? pe)%nat eqn:E2; [eauto|].
      destruct (told =? INVALID_TIME); [eauto|]. destruct (t =? INVALID_TIME); [eauto|].
      cbn in H2. destruct (IH (S i) pe t (prop_val O told sold t s)) as [r' Hr']; [lia|lia|].
      rewrite Hr'. cbn. eauto.
  Qed.

  Lemma sinv_same_keys : forall imu c n s',
    sinv imu c n -> keys s' = keys (states c) -> sinv imu (set_states O c s') n.
  Proof.
    intros imu c n s' [Hs Hms Ht Hm HP Hit] Hk. constructor; cbn; auto.
    - eapply sorted_same_keys; [exact Hk|exact Hs].
    - eapply top_keys; [exact Hk|exact Ht].
    - intros Hi. destruct (Hit Hi) as (k & H1 & H2 & H3). exists k. repeat split; auto.
      apply in_keys_occupied. rewrite Hk. apply in_keys_occupied. exact H2.
  Qed.

  Lemma apply_at_safe : forall imu c n m t s,
    sinv imu c n -> t <= n ->
    sinv imu (apply_at O c m t s) n /\ meas (apply_at O c m t s) = meas c /\
    keys (states (apply_at O c m t s)) = keys (states c).
  Proof.
    intros imu c n m t s Hinv Hle. unfold apply_at.
    destruct (apply_meas O m (glob c) (s_val s) (s_cov s)) as [[[b v] P] g].
    pose proof (sinv_same_keys imu c n (upd_key O t (mkst (s_acc s) (s_gyr s) v P) (states c))
                  Hinv (upd_key_keys O t _ _)) as [].
    destruct b; cbn; (split; [constructor; cbn in *; assumption|split; [reflexivity|apply upd_key_keys]]).
  Qed.

  Lemma meas_body_safe : forall imu c n tm m rest a,
    sinv imu c n -> occupied (meas c) tm -> n - late_limit <= tm ->
    (forall tn mn r, rest = (tn, mn) :: r -> tm < tn) ->
    exists c' a', meas_body O d c tm m rest a = Ok (c', a') /\ sinv imu c' n /\
      (forall k, occupied (meas c) k -> n - buffer_age <= k -> occupied (meas c') k).
  Proof.
    intros imu c n tm m rest a Hinv Hom Hlate Hrest. unfold meas_body.
    destruct (tm <=? 0). { exists c, a. auto. }
    destruct (GetClosestState_safe imu c n tm Hinv) as (c1 & os & Hc & Hinv1 & Hm1 & Hos).
    rewrite Hc. cbn [bind]. destruct os as [[ts s]|]; [|exists c1, a; auto].
    destruct (Hos ts s eq_refl) as (Hcl & Htsn & Hkeep & Hbetween).
    unfold late_limit in Hlate.
    assert (occupied (meas c1) tm) as Hom1.
    { apply Hm1; [exact Hom|]. unfold thr_closest, second in *. cbn in *. lia. }
    replace (has_key tm (meas c1)) with true by (symmetry; apply has_key_true; exact Hom1).
    cbn [negb]. destruct (ts <=? 0); [exists c1, a; auto|]. cbv zeta.
    destruct (apply_at_safe imu c1 n m ts s Hinv1 Htsn) as (Hinv2 & Hm2 & Hk2).
    set (c2 := apply_at O c1 m ts s) in *.
    assert (forall k, occupied (states c2) k <-> occupied (states c1) k) as Hocc.
    { intros k. rewrite <- !in_keys_occupied, Hk2. tauto. }
    assert (occupied (states c2) ts) as Hots.
    { apply Hocc. apply Hkeep. lia. }
    pose proof (si_sorted _ _ _ Hinv2) as Hs2.
    rewrite (AtValue_occ _ _ Hots). pose proof Hots as Hlt. apply occupied_find in Hlt.
    set (pc := find_pos ts (states c2)) in *.
    destruct (find_pos_occupied (states c2) ts Hlt) as [xs Hxs]. fold pc in Hxs.
    assert (exists pe, match rest with
                       | [] => Ok (pos_end (states c2))
                       | (tn, _) :: _ =>
                           if (GetIteratorClosestAfter (states c2) tn =? pos_end (states c2))%nat
                           then Ok (GetIteratorClosestAfter (states c2) tn)
                           else it_inc (states c2) (GetIteratorClosestAfter (states c2) tn)
                       end = Ok pe /\ (pc < pe)%nat /\ (pe <= length (states c2))%nat) as (pe & -> & Hpe1 & Hpe2).
    { destruct rest as [|[tn mn] r].
      - exists (length (states c2)). unfold pos_end. repeat split; lia.
      - unfold GetIteratorClosestAfter, pos_end.
        pose proof (upper_bound_le (states c2) tn) as Hu.
        destruct (upper_bound tn (states c2) =? length (states c2))%nat eqn:Eu.
        + eexists. split; [reflexivity|]. lia.
        + unfold it_inc. replace (upper_bound tn (states c2) <? length (states c2))%nat with true by lia.
          eexists. split; [reflexivity|]. split; [|lia].
          destruct (nth_error_lt_some (states c2) (upper_bound tn (states c2))) as [[ku xu] Hku]; [lia|].
          pose proof (upper_bound_spec _ tn _ _ Hs2 Hku) as Hub. cbn in Hub.
          specialize (Hrest tn mn r eq_refl).
          assert (ts <= ku) as Hle.
          { apply Hbetween; [|lia]. apply Hocc. exists xu. eapply nth_error_In; eauto. }
          pose proof (sorted_nth_le _ _ _ _ _ Hs2 Hxs Hku) as Hq. cbn in Hq. lia. }
    cbn [bind]. unfold it_inc. replace (pc <? length (states c2))%nat with true by lia. cbn [bind].
    destruct (skipn_lt_cons (states c2) pc Hlt) as ([told sold] & rs & Hsk & _ & Hlen).
    rewrite Hsk.
    destruct (reprop_ok rs pc pe told sold Hpe1) as [rs' Hrs']; [lia|].
    rewrite Hrs'. cbn [bind]. eexists _, _. split; [reflexivity|]. split.
    - apply sinv_same_keys; [exact Hinv2|]. rewrite keys_app. cbn [keys map fst].
      fold (keys rs'). rewrite (reprop_keys O _ _ _ _ _ _ Hrs').
      rewrite <- (firstn_skipn pc (states c2)) at 2. rewrite keys_app, Hsk. reflexivity.
    - cbn. rewrite Hm2. exact Hm1.
  Qed.

  Lemma meas_loop_safe : forall todo imu c n a,
    sinv imu c n -> time_sorted todo ->
    (forall e, In e todo -> occupied (meas c) (fst e) /\ n - late_limit <= fst e) ->
    exists c' a', meas_loop O d c todo a = Ok (c', a') /\ sinv imu c' n.
  Proof.
    induction todo as [|[tm m] r IH]; intros imu c n a Hinv Hsrt Hall; cbn [meas_loop].
    - eauto.
    - apply sorted_cons_inv in Hsrt as [Hsrt Hf].
      destruct (Hall (tm, m) (or_introl eq_refl)) as [Ho Hl]. cbn in Ho, Hl.
      destruct (meas_body_safe imu c n tm m r a Hinv Ho Hl) as (c1 & a1 & Hb & Hinv1 & Hk1).
      { intros tn mn r' ->. eapply Hf. left. reflexivity. }
      rewrite Hb. cbn [bind]. apply IH; [exact Hinv1|exact Hsrt|].
      intros e He. destruct (Hall e (or_intror He)) as [Ho' Hl']. split; [|exact Hl'].
      apply Hk1; [exact Ho'|]. pose proof late_limit_le. lia.
  Qed.

  Lemma AddMeasurement_safe : forall imu c n tm m,
    sinv imu c n -> n - late_limit <= tm ->
    exists c' ev, AddMeasurement O d c tm m = Ok (c', ev) /\ sinv imu c' n.
  Proof.
    intros imu c n tm m Hinv Hlate. unfold AddMeasurement.
    destruct (_ || _); [eauto|].
    rewrite (top_last _ _ (si_sorted _ _ _ Hinv) (si_top _ _ _ Hinv)).
    destruct (tm >? n) eqn:Eg.
    { eexists _, _. split; [reflexivity|]. destruct Hinv. constructor; assumption. }
    destruct (tm <? _); [eauto|]. cbn [Insert].
    set (ms := insert_list tm m (meas c)).
    assert (time_sorted ms) as Hms by (apply insert_list_sorted; apply (si_msorted _ _ _ Hinv)).
    assert (sinv imu (set_meas O c ms) n) as Hinv0.
    { destruct Hinv. constructor; cbn; auto. intros k Hk.
      apply insert_occupied_iff in Hk as [->|Hk]; [lia|auto|assumption]. }
    assert (occupied ms tm) as Hom by (apply insert_occupied_iff; [apply (si_msorted _ _ _ Hinv)|auto]).
    destruct (meas_loop_safe (skipn (find_pos tm ms) ms) imu (set_meas O c ms) n false Hinv0)
      as (c1 & ap & Hl & Hinv1).
    { apply skipn_sorted. exact Hms. }
    { intros e He. pose proof He as He'.
      apply skipn_In_nth in He as [j [Hj1 Hj2]]. split.
      - cbn. apply in_fst_occupied. eapply nth_error_In; eauto.
      - apply occupied_find in Hom. destruct (find_pos_occupied ms tm Hom) as [x Hx].
        pose proof (sorted_nth_le _ _ _ _ _ Hms Hx Hj2) as Hq. cbn in Hq. lia. }
    rewrite Hl. cbn [bind]. destruct (negb ap); [eauto|].
    destruct (PropPToState_safe imu c1 n (otime (GetLast (states c1))) Hinv1) as (c2 & -> & Hinv2 & _).
    cbn [bind].
    destruct (GetLast_newest (states c2) (si_sorted _ _ _ Hinv2) (top_ne _ _ (si_top _ _ _ Hinv2)))
      as [[t s] [-> _]]. eauto.
  Qed.

  Lemma Handle_safe : forall imu c n,
    sinv imu c n -> (forall e, In e (queue c) -> n - late_limit <= fst e) ->
    exists c' ev, HandlePendingMeasurements O d c = Ok (c', ev) /\ sinv imu c' n.
  Proof.
    intros imu c n Hinv Hq. unfold HandlePendingMeasurements.
    destruct (queue c) as [|[tm m] q] eqn:Eq; [eauto|].
    apply AddMeasurement_safe.
    - destruct Hinv. constructor; assumption.
    - exact (Hq (tm, m) (or_introl eq_refl)).
  Qed.

  Lemma PropagatePOneStep_safe : forall imu c n,
    sinv imu c n -> exists c', PropagatePOneStep O c = Ok c' /\ sinv imu c' n /\
      keys (states c') = keys (states c) /\ queue c' = queue c /\
      (initialized c' = false \/ predictionMade c' = predictionMade c) /\ meas c' = meas c.
  Proof.
    intros imu c n Hinv. pose proof Hinv as [Hs Hms Ht Hm HP Hit]. unfold PropagatePOneStep.
    pose proof (AtValue_lt (states c) n (time_P c) Hs Ht HP) as Hlt.
    set (p := GetIteratorAtValue (states c) (time_P c)) in *.
    unfold it_inc, pos_end. replace (p <? length (states c))%nat with true by lia. cbn [bind].
    destruct (S p =? length (states c))%nat eqn:E; [exists c; split; [reflexivity|auto 6]|].
    destruct (nth_error_lt_some (states c) p Hlt) as [eo Heo].
    destruct (nth_error_lt_some (states c) (S p)) as [en Hen]; [lia|].
    unfold it_deref. rewrite Heo, Hen. cbn [bind].
    destruct (pred_cov O (fst eo) (snd eo) (fst en) (snd en) (time_P c)) as [sn tP] eqn:Ep.
    assert (tP <= n) as HtP.
    { unfold pred_cov in Ep. destruct (_ <=? 0); injection Ep as _ <-; [exact HP|].
      destruct Ht as [_ Hmax]. apply Hmax. eapply nth_error_In; eauto. }
    pose proof (sinv_same_keys imu c n (upd_key O (fst en) sn (states c)) Hinv
                  (upd_key_keys O _ _ _)) as [].
    destruct (numeric_p O (s_val sn)); eexists;
      (split; [reflexivity|]); (split; [constructor; cbn in *; assumption|]);
      (split; [apply upd_key_keys|]); cbn; auto 6.
  Qed.

  (** Full invariant between calls. *)
  Definition safe (imu : bool) (c : core) : Prop :=
    initialized c = true ->
    time_sorted (states c) /\ time_sorted (meas c) /\ states c <> [] /\
    (predictionMade c = false -> meas c = []) /\
    (imu = true \/ predictionMade c = true -> exists n, sinv imu c n).

  (** A call that stays inside the envelope in which no undefined iterator use is
      possible; [n] is the newest state's stamp before the call. *)
  Definition admissible (imu : bool) (c : core) (k : call O) : Prop :=
    match k with
    | CInit t _ => t <> 0
    | CImu _ _ t =>
        imu = true /\
        (initialized c = true -> forall n, top (states c) n ->
           (* no large gap before predictions run *)
           (predictionMade c = false -> forall k, it_last c = ItAt k -> Z.abs (t - k) <= thr_gap_imu) /\
           (* not a minute behind, nor are the pending measurements *)
           n - buffer_age <= t /\
           (forall e, In e (queue c) -> Z.max n t - late_limit <= fst e))
    | CExt _ _ _ _ t =>
        imu = false /\
        (initialized c = true -> predictionMade c = true -> forall n, top (states c) n ->
           forall e, In e (queue c) -> Z.max n t - late_limit <= fst e)
    | CMeas t _ =>
        initialized c = true -> predictionMade c = true ->
        forall n, top (states c) n -> n - late_limit <= t
    end.

  Lemma sinv_to_safe : forall imu c n,
    sinv imu c n ->
    (initialized c = true -> predictionMade c = false -> meas c = []) -> safe imu c.
  Proof.
    intros imu c n H Hm Hi. specialize (Hm Hi). pose proof H as [? ? ? ? ? ?]. repeat split; eauto.
    eapply top_ne; eauto.
  Qed.

  Lemma imu_step_safe : forall c a g t,
    safe true c -> admissible true c (CImu a g t) ->
    exists c' ev, ProcessIMU O d c a g t = Ok (c', ev) /\ safe true c'.
  Proof.
    intros c a g t Hsafe Hadm. unfold ProcessIMU. destruct Hadm as [_ Hadm].
    destruct (initialized c) eqn:Hi; cbn [negb]; [|eexists _, _; split; [reflexivity|congruence]].
    destruct (Hsafe Hi) as (Hs & Hms & Hne & Hpm & Hinv).
    destruct (Hinv (or_introl eq_refl)) as [n Hn].
    pose proof Hn as [_ _ Ht Hm HP Hit].
    destruct (Hadm eq_refl n Ht) as (Hgap & Hback & Hq).
    destruct (Hit eq_refl) as (k & Hk1 & [s Hks] & Hk3).
    unfold deref_last. rewrite Hk1. cbn [bind].
    assert (GetValueAt (states c) k = Some (k, s)) as Hv by (apply GetValueAt_spec; auto).
    rewrite Hv. cbn [bind].
    assert (set_it O c (ItAt k) = c) as Hset
      by (clear - Hk1; destruct c; cbn in *; subst; reflexivity).
    rewrite Hset.
    destruct (k =? INVALID_TIME). { eexists _, _; split; [reflexivity|exact Hsafe]. }
    destruct ((t - k <? - thr_out_of_order) && predictionMade c).
    { eexists _, _. split; [reflexivity|]. intros H. discriminate H. }
    cbv zeta.
    set (c1 := if acc_spike O a then c else set_last_am O c (s_acc s)).
    assert (sinv true c1 n /\ predictionMade c1 = predictionMade c /\ queue c1 = queue c /\
            meas c1 = meas c /\ states c1 = states c)
      as (Hn1 & Hp1 & Hq1 & Hm1 & Hs1).
    { unfold c1. destruct (acc_spike O a); [auto|]. destruct Hn. split; [constructor; assumption|auto]. }
    clearbody c1. rewrite Hp1.
    replace (negb (predictionMade c) && (Z.abs (t - k) >? thr_gap_imu)) with false.
    2:{ destruct (predictionMade c); cbn [negb andb]; [reflexivity|].
        specialize (Hgap eq_refl k Hk1). lia. }
    set (new := prop_val O k s t _).
    unfold imu_finish. cbn [Insert fst].
    set (c2 := set_it O (set_states O c1 (insert_list t new (states c1))) (ItAt t)).
    assert (sinv true c2 (Z.max n t)) as Hn2.
    { pose proof Hn1 as [A1 A2 A3 A4 A5 A6]. constructor; cbn.
      - apply insert_list_sorted. exact A1.
      - exact A2.
      - apply top_insert; assumption.
      - intros k' Hk'. specialize (A4 _ Hk'). lia.
      - lia.
      - intros _. exists t. repeat split; [apply insert_occupied_iff; auto|].
        unfold buffer_age, second in *. lia. }
    destruct (PropagatePOneStep_safe true c2 (Z.max n t) Hn2)
      as (c3 & -> & Hn3 & Hk3' & Hq3 & Hp3 & Hm3).
    cbn [bind].
    set (c4 := if (3 <? Size (states c3))%nat then set_flags O c3 (initialized c3) true else c3).
    assert (sinv true c4 (Z.max n t) /\ queue c4 = queue c /\ meas c4 = meas c) as (Hn4 & Hq4 & Hm4).
    { unfold c4. destruct (3 <? Size (states c3))%nat.
      - destruct Hn3. split; [constructor; assumption|]. cbn. rewrite Hq3, Hm3. cbn. auto.
      - split; [exact Hn3|]. rewrite Hq3, Hm3. cbn. auto. }
    destruct (predictionMade c4) eqn:Hp4.
    - destruct (Handle_safe true c4 (Z.max n t) Hn4) as (c5 & ev & E5 & Hn5).
      { intros e He. apply Hq. rewrite <- Hq4. exact He. }
      rewrite E5. cbn [bind]. eexists _, _. split; [reflexivity|].
      eapply sinv_to_safe; [exact Hn5|].
      unfold HandlePendingMeasurements in E5. destruct (queue c4) as [|[tm m] q].
      + injection E5 as <- <-. congruence.
      + apply AddMeasurement_frame in E5 as (_ & G & _). cbn in G. congruence.
    - cbn [bind]. eexists _, _. split; [reflexivity|]. eapply sinv_to_safe; [exact Hn4|].
      intros Hi4 _. rewrite Hm4. apply Hpm.
      unfold c4 in Hi4, Hp4. destruct (3 <? Size (states c3))%nat; [discriminate Hp4|].
      destruct Hp3 as [Hp3|Hp3]; [congruence|]. cbn in Hp3. congruence.
  Qed.

  Lemma ext_step_safe : forall c a g x b t,
    safe false c -> admissible false c (CExt a g x b t) ->
    exists c' ev, ProcessExternallyPropagatedState O d c a g x b t = Ok (c', ev) /\ safe false c'.
  Proof.
    intros c a g x b t Hsafe Hadm. unfold ProcessExternallyPropagatedState.
    destruct Hadm as [_ Hadm].
    destruct (initialized c) eqn:Hi; cbn [negb]; [|eexists _, _; split; [reflexivity|congruence]].
    destruct (Hsafe Hi) as (Hs & Hms & Hne & Hpm & Hinv).
    destruct (GetLast_newest (states c) Hs Hne) as [[tl sl] [-> [Hlin Hlmax]]].
    destruct (tl =? INVALID_TIME). { eexists _, _; split; [reflexivity|exact Hsafe]. }
    cbv zeta.
    set (c1 := if acc_spike O a then c else set_last_am_ext O c a).
    assert (initialized c1 = true /\ predictionMade c1 = predictionMade c /\ queue c1 = queue c /\
            meas c1 = meas c /\ states c1 = states c /\ time_P c1 = time_P c)
      as (Hi1 & Hp1 & Hq1 & Hm1 & Hs1 & HP1).
    { unfold c1. destruct (acc_spike O a); cbn; auto 6. }
    clearbody c1. rewrite Hp1.
    destruct (negb (predictionMade c) && (Z.abs (t - tl) >? thr_gap_ext)) eqn:Eg.
    { eexists _, _. split; [reflexivity|]. intros _. cbn. rewrite Hs1, Hm1.
      apply andb_prop in Eg as [Eg _]. rewrite Hp1.
      repeat split; auto.
      - apply UpdateTime_sorted. exact Hs.
      - unfold UpdateTime.
        destruct (nth_error (states c) (find_pos tl (states c))) as [[k y]|]; [|exact Hne].
        cbn. intros E0.
        assert (occupied (insert_list t y (erase_key tl (states c))) t) as [z Hz].
        { apply insert_occupied_iff; [apply erase_key_sorted; exact Hs|auto]. }
        rewrite E0 in Hz. destruct Hz.
      - intros [H|H]; [discriminate|]. rewrite H in Eg. discriminate. }
    match goal with |- context [Insert (states ?w) t ?nn] => set (new' := nn); set (c2 := w) end.
    assert (exists n, sinv false (set_states O c2 (fst (Insert (states c2) t new'))) n /\
              (forall e, In e (queue c2) -> n - late_limit <= fst e)) as (n & Hn & Hq).
    { unfold c2. clearbody new'. destruct (predictionMade c) eqn:Hp.
      - destruct (Hinv (or_intror eq_refl)) as [n0 [A1 A2 A3 A4 A5 A6]].
        exists (Z.max n0 t). split.
        + constructor; cbn; rewrite ?Hs1, ?Hm1, ?HP1.
          * apply insert_list_sorted. exact A1.
          * exact A2.
          * apply top_insert; assumption.
          * intros k Hk. specialize (A4 _ Hk). lia.
          * lia.
          * discriminate.
        + rewrite Hq1. apply Hadm; auto.
      - exists t. split.
        + constructor; cbn.
          * apply sorted_cons; [constructor|intros ? ? []].
          * constructor.
          * split; [exists new'; left; reflexivity|]. intros e [<-|[]]. cbn. lia.
          * intros k [y []].
          * lia.
          * discriminate.
        + intros e []. }
    destruct (PropagatePOneStep_safe false _ n Hn) as (c4 & -> & Hn4 & _ & Hq4 & _).
    cbn [bind].
    destruct (Handle_safe false (set_flags O c4 (initialized c4) true) n) as (c5 & ev & E5 & Hn5).
    { destruct Hn4. constructor; assumption. }
    { intros e He. apply Hq. cbn in He. rewrite Hq4 in He. exact He. }
    rewrite E5. cbn [bind]. eexists _, _. split; [reflexivity|].
    eapply sinv_to_safe; [exact Hn5|]. intros _.
    unfold HandlePendingMeasurements in E5. cbn [queue set_flags] in E5.
    destruct (queue c4) as [|[tm m] q].
    + injection E5 as <- <-. discriminate.
    + apply AddMeasurement_frame in E5 as (_ & G & _). cbn in G. congruence.
  Qed.

  Lemma step_safe : forall imu c k,
    safe imu c -> admissible imu c k ->
    exists c' ev, step O d c k = Ok (c', ev) /\ safe imu c'.
  Proof.
    intros imu c k Hsafe Hadm. destruct k as [t s|a g t|a g x b t|t m].
    - cbn in Hadm |- *. unfold Init. replace (t =? 0) with false by lia. cbn [bind].
      eexists _, _. split; [reflexivity|].
      eapply sinv_to_safe with (n := t); [|reflexivity].
      constructor; cbn.
      + apply sorted_cons; [constructor|intros ? ? []].
      + constructor.
      + split; [exists s; left; reflexivity|]. intros e [<-|[]]. cbn. lia.
      + intros k [y []].
      + lia.
      + intros _. exists t. repeat split; [exists s; left; reflexivity|].
        unfold buffer_age, second. lia.
    - destruct imu; [|destruct Hadm; discriminate]. apply imu_step_safe; assumption.
    - destruct imu; [destruct Hadm; discriminate|]. apply ext_step_safe; assumption.
    - cbn in Hadm |- *.
      destruct (initialized c) eqn:Hi; [destruct (predictionMade c) eqn:Hp|].
      + destruct (Hsafe Hi) as (Hs & Hms & Hne & Hpm & Hinv).
        destruct (Hinv (or_intror Hp)) as [n Hn].
        destruct (AddMeasurement_safe imu c n t m Hn) as (c' & ev & E & Hn').
        { apply Hadm; auto. apply (si_top _ _ _ Hn). }
        eexists _, _. split; [exact E|]. eapply sinv_to_safe; [exact Hn'|].
        apply AddMeasurement_frame in E as (_ & G & _). congruence.
      + unfold AddMeasurement. rewrite Hi, Hp. eexists _, _. split; [reflexivity|exact Hsafe].
      + unfold AddMeasurement. rewrite Hi. eexists _, _. split; [reflexivity|exact Hsafe].
  Qed.

  (** Executions all of whose calls are admissible when they are made. *)
  Fixpoint admissible_run (imu : bool) (c : core) (l : list (call O)) : Prop :=
    match l with
    | [] => True
    | k :: r => admissible imu c k /\
                forall c' ev, step O d c k = Ok (c', ev) -> admissible_run imu c' r
    end.

  Lemma run_safe : forall l imu c,
    safe imu c -> admissible_run imu c l ->
    exists c' ev, run O d c l = Ok (c', ev) /\ safe imu c'.
  Proof.
    induction l as [|k r IH]; intros imu c Hs Ha; cbn [run]; [eauto|].
    destruct Ha as [Hk Hr]. destruct (step_safe imu c k Hs Hk) as (c1 & e1 & E1 & Hs1).
    rewrite E1. cbn [bind]. destruct (IH imu c1 Hs1 (Hr _ _ E1)) as (c2 & e2 & E2 & Hs2).
    rewrite E2. cbn [bind]. eauto.
  Qed.

  Lemma core_new_safe : forall imu g, safe imu (core_new O g).
  Proof. intros imu g H. discriminate H. Qed.
End Safety.
