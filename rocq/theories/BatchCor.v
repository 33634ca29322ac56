(** Consequences of the batch theorem: C12, C13, C16. *)

From Coq Require Import ZArith List Sorting.Sorted Lia ZifyBool ZifyNat Bool Permutation.
From Verif Require Import Outcome SortedContainer SortedContainerSpec SortedContainerProofs
     Core CoreBasics CoreInv CoreSteps CoreSafety CoreExamples BatchSpec Batch.
Import ListNotations.
Open Scope Z_scope.

Lemma schedule_perm : forall O l n q, sensor_calls O l ->
  Permutation (map snd (fst (schedule O n q l)) ++ snd (schedule O n q l)) (q ++ arrivals O l).
Proof.
  intros O. induction l as [|k l IH]; intros n q Hc.
  - cbn. rewrite app_nil_r. apply Permutation_refl.
  - apply Forall_cons_iff in Hc as [Hk Hc]. destruct k as [|a g t| |tm m]; try destruct Hk; cbn [schedule arrivals].
    + destruct q as [|[tm m] q]; [apply IH; exact Hc|]. destruct (tm >? t).
      * eapply perm_trans; [apply IH; exact Hc|]. rewrite <- app_assoc. symmetry. apply (Permutation_middle q (arrivals O l) (tm, m)).
      * specialize (IH t q Hc). destruct (schedule O t q l) as [p q']. cbn [fst snd map app] in *. constructor. exact IH.
    + destruct (tm >? n).
      * eapply perm_trans; [apply IH; exact Hc|]. rewrite <- app_assoc. apply Permutation_refl.
      * specialize (IH n q Hc). destruct (schedule O n q l) as [p q']. cbn [fst snd map app] in *.
        eapply perm_trans; [constructor; exact IH|]. apply Permutation_middle.
Qed.

Lemma lookup_In : forall O (M : list (Z * Meas O)) t m, NoDup (map fst M) -> (lookup O M t = Some m <-> In (t, m) M).
Proof.
  intros O M t m HN. unfold lookup. induction M as [|[t1 m1] M IH]; cbn; [split; [discriminate|intros []]|].
  inversion HN as [|? ? H1 H2]; subst. destruct (t1 =? t) eqn:E.
  - assert (t1 = t) as -> by lia. split; [intros H; injection H as ->; auto|].
    intros [H|H]; [injection H as ->; reflexivity|]. exfalso. apply H1. apply in_map_iff. exists (t, m). auto.
  - rewrite (IH H2). split; [auto|]. intros [H|H]; [injection H as -> _; lia|exact H].
Qed.
Lemma lookup_perm : forall O (M M' : list (Z * Meas O)) t, NoDup (map fst M) -> Permutation M M' ->
  lookup O M t = lookup O M' t.
Proof.
  intros O M M' t HN HP.
  assert (NoDup (map fst M')) as HN' by (eapply Permutation_NoDup; [apply Permutation_map; exact HP|exact HN]).
  destruct (lookup O M t) as [m|] eqn:E.
  - symmetry. apply lookup_In; [exact HN'|]. apply (Permutation_in _ HP). apply lookup_In; assumption.
  - destruct (lookup O M' t) as [m|] eqn:E'; [|reflexivity]. exfalso.
    apply (lookup_In O M' t m HN') in E'. apply (Permutation_in _ (Permutation_sym HP)) in E'.
    apply (lookup_In O M t m HN) in E'. congruence.
Qed.

Lemma grid_unique : forall P G G', grid P G -> grid P G' -> G = G'.
Proof.
  intros P G G' [S1 I1] [S2 I2].
  assert (forall t, In t G <-> In t G') as H by (intros t; rewrite I1, I2; tauto). clear I1 I2 P.
  revert G' S2 H. induction G as [|x G IH]; intros [|y G'] S2 H.
  - reflexivity.
  - destruct (proj2 (H y)); left; reflexivity.
  - destruct (proj1 (H x)); left; reflexivity.
  - apply StronglySorted_inv in S1 as [S1 F1]. apply StronglySorted_inv in S2 as [S2 F2]. rewrite Forall_forall in F1, F2.
    assert (x = y) as ->.
    { destruct (proj1 (H x) (or_introl eq_refl)) as [->|Hx]; [reflexivity|].
      destruct (proj2 (H y) (or_introl eq_refl)) as [->|Hy]; [reflexivity|]. specialize (F1 _ Hy). specialize (F2 _ Hx). lia. }
    f_equal. apply IH; auto. intros t. split; intros Ht.
    + destruct (proj1 (H t) (or_intror Ht)) as [<-|?]; [specialize (F1 _ Ht); lia|assumption].
    + destruct (proj2 (H t) (or_intror Ht)) as [<-|?]; [specialize (F2 _ Ht); lia|assumption].
Qed.

Section Cor.
  Variable O : ops.
  Variable d : nat -> dec_begin.
  Variables (ra : Z -> Acc O) (rg : Z -> Gyr O).
  Variable fuse : Meas O -> Val O -> Cov O -> Val O * Cov O.
  Hypothesis Hd : forall k, (0 < k)%nat -> d k <> DecUB.
  Hypothesis Hnum : forall v, numeric O v = true.
  Hypothesis Hnum_p : forall v, numeric_p O v = true.
  Hypothesis Happly : forall m g v P, exists r g',
    apply_meas O m g v P = (r, fst (fuse m v P), snd (fuse m v P), g') /\ (r = false -> fuse m v P = (v, P)).

  Lemma session_result : forall c t0 s0 l,
    0 < t0 -> session O ra rg (never_refused O) (last_am c) t0 s0 l ->
    exists c' ev G k,
      run O d c (CInit t0 s0 :: l) = Ok (c', ev) /\
      grid (fun t => In t (t0 :: imu_stamps O l) \/ In t (map fst (taken O t0 l))) G /\
      states c' = skipn k (plain_filter O ra rg fuse (taken O t0 l) s0 G) /\
      (k < length G)%nat /\
      (forall t, In t (firstn k G) -> t < last G t0 - 60 * second) /\
      time_P c' = last G t0 /\
      queue c' = snd (schedule O t0 [] l) /\
      Permutation (taken O t0 l ++ queue c') (arrivals O l).
  Proof.
    intros c t0 s0 l Hpos HS. destruct HS as [Hcalls Hsort Hstart Hread0 Hread Hdist Htime Hplaced Href] eqn:EHS.
    destruct Hread0 as [Hra Hrg].
    destruct (session_batch O d ra rg fuse Hd Hnum Happly t0 s0 Hra Hrg Hnum_p c l Hpos HS) as (c' & ev & n & F & ER & HB & HK & HQ).
    destruct HB as ((HsF & HtF & hist & EF & Hh) & HP & (r & Hk) & _ & HtP & _).
    assert (last (keys F) t0 = n) as Hlast.
    { destruct HtF as [[s Hin] Hmax]. destruct (exists_last (l := F)) as (A & e & EA).
      { intros ->. destruct Hin. }
      clear EF HK HP Hk. subst F. rewrite keys_app. change (keys [e]) with [fst e]. rewrite last_last.
      apply in_app_or in Hin as [Hin|[->|[]]]; [|reflexivity].
      assert (fst e <= n) by (apply Hmax, in_or_app; right; left; reflexivity).
      apply sorted_app in HsF as (_ & _ & Hlt). destruct e as [te se].
      specialize (Hlt (n, s) (te, se) Hin (or_introl eq_refl)). cbn in *. lia. }
    exists c', ev, (keys F), (length hist). split; [exact ER|]. split; [|split; [|split; [|split; [|split; [|split]]]]].
    - split; [apply sorted_keys; exact HsF|exact HK].
    - rewrite <- HP, EF. rewrite skipn_app, skipn_all, Nat.sub_diag. reflexivity.
    - rewrite EF, keys_length, app_length. destruct HtF as [[s Hin] _]. rewrite EF in Hin.
      apply in_app_or in Hin as [Hin|Hin]; [specialize (Hh _ Hin); cbn [fst] in Hh; unfold buffer_age, second in Hh; lia|].
      destruct (states c'); [destruct Hin|cbn; lia].
    - rewrite Hlast. intros t Ht. rewrite EF, keys_app, firstn_app in Ht.
      rewrite <- (keys_length hist), firstn_all, Nat.sub_diag in Ht. cbn [firstn] in Ht. rewrite app_nil_r in Ht.
      apply in_map_iff in Ht as ([t' s'] & <- & Hin). specialize (Hh _ Hin). exact Hh.
    - rewrite Hlast. exact HtP.
    - exact HQ.
    - rewrite HQ. exact (schedule_perm O l t0 [] Hcalls).
  Qed.

  (** Two arrival orders of the same measurements. *)
  Lemma arrival_order : forall c1 c2 t0 s0 l1 l2,
    0 < t0 -> session O ra rg (never_refused O) (last_am c1) t0 s0 l1 ->
    session O ra rg (never_refused O) (last_am c2) t0 s0 l2 ->
    imu_stamps O l1 = imu_stamps O l2 -> Permutation (taken O t0 l1) (taken O t0 l2) ->
    exists c1' ev1 c2' ev2 X k1 k2,
      run O d c1 (CInit t0 s0 :: l1) = Ok (c1', ev1) /\ run O d c2 (CInit t0 s0 :: l2) = Ok (c2', ev2) /\
      states c1' = skipn k1 X /\ states c2' = skipn k2 X /\
      GetLast (states c1') = GetLast (states c2') /\
      forall t s, last (keys X) t0 - 60 * second <= t ->
        (In (t, s) (states c1') <-> In (t, s) X) /\ (In (t, s) (states c2') <-> In (t, s) X).
  Proof.
    intros c1 c2 t0 s0 l1 l2 Hpos HS1 HS2 HI HM.
    destruct (session_result c1 t0 s0 l1 Hpos HS1) as (c1' & ev1 & G1 & k1 & R1 & HG1 & E1 & L1 & D1 & _).
    destruct (session_result c2 t0 s0 l2 Hpos HS2) as (c2' & ev2 & G2 & k2 & R2 & HG2 & E2 & L2 & D2 & _).
    assert (G1 = G2) as <-.
    { apply (grid_unique _ _ _ HG1). destruct HG2 as [A B]. split; [exact A|]. intros t. rewrite B, HI.
      assert (In t (map fst (taken O t0 l1)) <-> In t (map fst (taken O t0 l2))) as ->; [|tauto].
      split; apply Permutation_in; [|symmetry]; apply Permutation_map; exact HM. }
    assert (plain_filter O ra rg fuse (taken O t0 l2) s0 G1 = plain_filter O ra rg fuse (taken O t0 l1) s0 G1) as EX.
    { apply plain_ext. intros t _. symmetry. apply lookup_perm; [apply (se_distinct _ _ _ _ _ _ _ _ HS1)|exact HM]. }
    rewrite EX in E2.
    set (X := plain_filter O ra rg fuse (taken O t0 l1) s0 G1) in *.
    assert (keys X = G1) as HX by apply plain_keys.
    assert (length X = length G1) as HXl by (rewrite <- HX; symmetry; apply keys_length).
    assert (forall k (c : core O), states c = skipn k X -> (k < length G1)%nat ->
      (forall t, In t (firstn k G1) -> t < last G1 t0 - 60 * second) ->
      GetLast (states c) = GetLast X /\
      forall t s, last (keys X) t0 - 60 * second <= t -> (In (t, s) (states c) <-> In (t, s) X)) as Hgen.
    { intros k c E Lk Dk. split.
      - rewrite E. rewrite <- (firstn_skipn k X) at 2. destruct (exists_last (l := skipn k X)) as (A & e & EA).
        { intros E0. apply (f_equal (@length _)) in E0. rewrite skipn_length in E0. cbn in E0. lia. }
        rewrite EA, app_assoc, !GetLast_app. reflexivity.
      - intros t s Ht. rewrite E. split; [apply skipn_In|]. intros Hin. rewrite <- (firstn_skipn k X) in Hin.
        apply in_app_or in Hin as [Hin|Hin]; [|exact Hin]. exfalso.
        rewrite HX in Ht. specialize (Dk t). rewrite <- HX in Dk. unfold keys in Dk. rewrite firstn_map in Dk. 
        assert (In t (map fst (firstn k X))) as Hk by (apply in_map_iff; exists (t, s); auto).
        specialize (Dk Hk). fold (keys X) in Dk. rewrite HX in Dk. lia. }
    destruct (Hgen k1 c1' E1 L1 D1) as [A1 B1]. destruct (Hgen k2 c2' E2 L2 D2) as [A2 B2].
    exists c1', ev1, c2', ev2, X, k1, k2. repeat (split; [first [assumption|congruence]|]).
    intros t s Ht. split; [apply B1|apply B2]; exact Ht.
  Qed.
End Cor.

(** What is published after an update is the newest buffered state, and the covariance has
    been propagated up to it. *)
Ltac ob H x E :=
  match type of H with
  | bind ?r _ = Ok _ => destruct r as [x| |] eqn:E; cbn [bind] in H; try discriminate H
  end.
Section Publish.
  Variable O : ops.
  Variable d : nat -> dec_begin.

  Lemma AddMeasurement_pub : forall c tm m c' ev t s,
    AddMeasurement O d c tm m = Ok (c', ev) -> In (PubUpdate t s) ev -> GetLast (states c') = Some (t, s).
  Proof.
    intros c tm m c' ev t s H Hin. unfold AddMeasurement in H.
    destruct (_ || _); [injection H as _ <-; destruct Hin|].
    destruct (_ >? _); [injection H as _ <-; destruct Hin|].
    destruct (_ <? _); [injection H as _ <-; destruct Hin|].
    destruct (Insert _ _ _) as [ms it]. ob H x E1. destruct x as [c1 ap]. destruct ap; cbn [negb] in H.
    - ob H x E2. destruct (GetLast (states x)) as [[t1 s1]|] eqn:EL; [|discriminate].
      injection H as <- <-. destruct Hin as [Hin|[]]. injection Hin as <- <-. exact EL.
    - injection H as _ <-. destruct Hin.
  Qed.

  Lemma Handle_pub : forall c c' ev t s,
    HandlePendingMeasurements O d c = Ok (c', ev) -> In (PubUpdate t s) ev -> GetLast (states c') = Some (t, s).
  Proof.
    intros c c' ev t s H Hin. unfold HandlePendingMeasurements in H. destruct (queue c) as [|[tm m] q].
    - injection H as _ <-. destruct Hin.
    - exact (AddMeasurement_pub _ _ _ _ _ _ _ H Hin).
  Qed.

  Lemma step_pub : forall c k c' ev t s,
    step O d c k = Ok (c', ev) -> In (PubUpdate t s) ev -> GetLast (states c') = Some (t, s).
  Proof.
    intros c k c' ev t s H Hin. destruct k as [ti si|a g ti|a g x b ti|tm m]; cbn [step] in H.
    - ob H x E1. injection H as _ <-. destruct Hin.
    - unfold ProcessIMU in H. destruct (negb _); [injection H as _ <-; destruct Hin|].
      ob H x E1. destruct x as [c0 [tl sl]]. destruct (_ =? _); [injection H as _ <-; destruct Hin|].
      destruct (_ && _); [injection H as _ <-; destruct Hin|].
      destruct (_ && _); [injection H as _ <-; destruct Hin|].
      unfold imu_finish in H. ob H x1 E2.
      match type of H with context [if predictionMade ?cc then _ else _] => set (cq := cc) in * end.
      destruct (predictionMade cq).
      + ob H x0 E3. destruct x0 as [c3 e3]. injection H as <- <-. destruct Hin as [Hin|Hin]; [discriminate|].
        exact (Handle_pub _ _ _ _ _ E3 Hin).
      + cbn [bind] in H. injection H as <- <-. destruct Hin as [Hin|[]]. discriminate.
    - unfold ProcessExternallyPropagatedState in H. destruct (negb _); [injection H as _ <-; destruct Hin|].
      destruct (GetLast (states c)) as [[tl sl]|]; [|injection H as _ <-; destruct Hin].
      destruct (_ =? _); [injection H as _ <-; destruct Hin|].
      destruct (_ && _); [injection H as _ <-; destruct Hin|].
      ob H x0 E1. ob H x1 E0. destruct x1 as [c3 e3]. injection H as <- <-. destruct Hin as [Hin|Hin]; [discriminate|].
      exact (Handle_pub _ _ _ _ _ E0 Hin).
    - exact (AddMeasurement_pub _ _ _ _ _ _ _ H Hin).
  Qed.
End Publish.

(** ** Beginnings of a session *)

Section Prefix.
  Variable O : ops.

  Lemma schedule_app : forall l1 l2 n q, exists n1,
    schedule O n q (l1 ++ l2) =
    (fst (schedule O n q l1) ++ fst (schedule O n1 (snd (schedule O n q l1)) l2),
     snd (schedule O n1 (snd (schedule O n q l1)) l2)).
  Proof.
    induction l1 as [|k l1 IH]; intros l2 n q.
    - exists n. cbn. destruct (schedule O n q l2); reflexivity.
    - destruct k as [|a g t| |tm m]; cbn [app schedule]; try apply IH.
      + destruct q as [|[tm m] q]; [apply IH|]. destruct (tm >? t); [apply IH|].
        destruct (IH l2 t q) as [n1 E]. exists n1. rewrite E. destruct (schedule O t q l1). reflexivity.
      + destruct (tm >? n); [apply IH|].
        destruct (IH l2 n q) as [n1 E]. exists n1. rewrite E. destruct (schedule O n q l1). reflexivity.
  Qed.
  Lemma schedule_le : forall l n q k tm m, In (k, (tm, m)) (fst (schedule O n q l)) ->
    tm <= k /\ In k (n :: imu_stamps O l).
  Proof.
    unfold imu_stamps. induction l as [|c l IH]; intros n q k tm m H; [destruct H|].
    destruct c as [|a g t| |tm1 m1]; cbn [schedule imu_msgs] in H; try exact (IH _ _ _ _ _ H).
    - assert (forall q', In (k, (tm, m)) (fst (schedule O t q' l)) -> tm <= k /\ In k (n :: t :: map (fun u => fst (fst u)) (imu_msgs O l))) as H1.
      { intros q' H'. destruct (IH _ _ _ _ _ H') as [A B]. split; [exact A|right; exact B]. }
      destruct q as [|[tm2 m2] q]; [exact (H1 _ H)|]. destruct (tm2 >? t) eqn:E; [exact (H1 _ H)|].
      specialize (H1 q). destruct (schedule O t q l) as [p q']. cbn [fst] in *. destruct H as [H|H]; [|auto].
      injection H as <- <- <-. cbn. split; [lia|auto].
    - cbn [imu_msgs]. specialize (IH n). destruct (tm1 >? n) eqn:E; [exact (IH _ _ _ _ H)|]. specialize (IH q).
      destruct (schedule O n q l) as [p q']. cbn [fst] in *. destruct H as [H|H]; [|exact (IH _ _ _ H)].
      injection H as <- <- <-. cbn. split; [lia|auto].
  Qed.
  Lemma imu_msgs_app : forall l1 l2, imu_msgs O (l1 ++ l2) = imu_msgs O l1 ++ imu_msgs O l2.
  Proof. induction l1 as [|[| | |] l1 IH]; intros l2; cbn; rewrite ?IH; reflexivity. Qed.
  Lemma imu_stamps_app : forall l1 l2, imu_stamps O (l1 ++ l2) = imu_stamps O l1 ++ imu_stamps O l2.
  Proof. intros. unfold imu_stamps. rewrite imu_msgs_app. apply map_app. Qed.
  Lemma despiked_app : forall u1 u2 p a x, In x (despiked O p a u1) -> In x (despiked O p a (u1 ++ u2)).
  Proof.
    induction u1 as [|[[t a] g] u1 IH]; intros u2 p b x H; [destruct H|]. cbn in *.
    destruct (acc_spike O a); (destruct H as [H|H]; [left; exact H|right; apply IH; exact H]).
  Qed.

  Lemma session_prefix : forall ra rg nr last t0 s0 l1 l2,
    session O ra rg nr last t0 s0 (l1 ++ l2) -> (2 < length l1)%nat -> session O ra rg nr last t0 s0 l1.
  Proof.
    intros ra rg nr last t0 s0 l1 l2 [Hcalls Hsort Hstart Hread0 Hread Hdist Htime Hplaced Href] Hlen.
    destruct (schedule_app l1 l2 t0 []) as [n1 Esch].
    assert (exists p2, fst (schedule O t0 [] (l1 ++ l2)) = fst (schedule O t0 [] l1) ++ p2) as [p2 Ep2] by (rewrite Esch; eexists; reflexivity).
    assert (taken O t0 (l1 ++ l2) = taken O t0 l1 ++ map snd p2) as Et by (unfold taken; rewrite Ep2, map_app; reflexivity).
    assert (forall x y, In x (t0 :: imu_stamps O l1) -> In y (imu_stamps O l2) -> x < y) as Hlt.
    { rewrite imu_stamps_app in Hsort. change (t0 :: imu_stamps O l1 ++ imu_stamps O l2) with ((t0 :: imu_stamps O l1) ++ imu_stamps O l2) in Hsort.
      intros x y Hx Hy. clear - Hsort Hx Hy. revert Hsort Hx. generalize (t0 :: imu_stamps O l1). induction l as [|z l IH]; intros Hs Hx; [destruct Hx|].
      cbn [app] in Hs. apply StronglySorted_inv in Hs as [Hs Hf]. rewrite Forall_forall in Hf. destruct Hx as [<-|Hx]; [|auto].
      apply Hf. apply in_or_app; auto. }
    assert (forall t, In t (map fst (taken O t0 l1)) -> exists k, t <= k /\ In k (t0 :: imu_stamps O l1)) as Hle.
    { intros t Ht. unfold taken in Ht. rewrite map_map in Ht. apply in_map_iff in Ht as ([k [tm m]] & <- & Hin).
      destruct (schedule_le _ _ _ _ _ _ Hin) as [A B]. exists k. auto. }
    assert (forall t, In t (t0 :: imu_stamps O l1) -> In t (t0 :: imu_stamps O (l1 ++ l2))) as HUin.
    { intros t [<-|Ht]; [left; reflexivity|right]. rewrite imu_stamps_app. apply in_or_app; auto. }
    assert (forall t, In t (t0 :: imu_stamps O l1) \/ In t (map fst (taken O t0 l1)) ->
              In t (t0 :: imu_stamps O (l1 ++ l2)) \/ In t (map fst (taken O t0 (l1 ++ l2)))) as Hin2.
    { intros t [Ht|Ht]; [left; apply HUin; exact Ht|right]. rewrite Et, map_app. apply in_or_app; auto. }
    assert (forall t y, In t (t0 :: imu_stamps O l1) \/ In t (map fst (taken O t0 l1)) -> In y (imu_stamps O l2) -> t < y) as Hlt2.
    { intros t y [Ht|Ht] Hy; [apply Hlt; assumption|]. destruct (Hle _ Ht) as (k & A & B). specialize (Hlt _ _ B Hy). lia. }
    constructor.
    - unfold sensor_calls in *. apply Forall_app in Hcalls. tauto.
    - rewrite imu_stamps_app in Hsort. clear - Hsort. change (t0 :: imu_stamps O l1 ++ imu_stamps O l2) with ((t0 :: imu_stamps O l1) ++ imu_stamps O l2) in Hsort.
      revert Hsort. generalize (t0 :: imu_stamps O l1). induction l as [|z l IH]; intros Hs; [constructor|].
      cbn [app] in Hs. apply StronglySorted_inv in Hs as [Hs Hf]. apply Forall_app in Hf as [Hf _]. constructor; auto.
    - destruct Hstart as (a1 & g1 & t1 & a2 & g2 & t2 & a3 & g3 & t3 & r & El & Hg).
      destruct l1 as [|k1 [|k2 [|k3 l1]]]; cbn in Hlen; try lia.
      cbn [app] in El. injection El as -> -> -> _. repeat eexists; apply Hg.
    - exact Hread0.
    - intros t a g Hin. apply Hread. rewrite imu_msgs_app. apply despiked_app. exact Hin.
    - rewrite Et, map_app in Hdist. clear - Hdist. revert Hdist. generalize (map fst (taken O t0 l1)), (map fst (map snd p2)). intros a b.
      induction a as [|x a IH]; intros H; [constructor|]. inversion H as [|? ? H1 H2]; subst.
      constructor; [intros Hx; apply H1, in_or_app; auto|apply IH; exact H2].
    - intros n tm m Hin. apply (Htime n tm m). rewrite Ep2. apply in_or_app; auto.
    - intros tm m Hin. destruct (Hplaced tm m) as [H|(H1 & (k & H2 & H3) & H4)].
      + rewrite Et. apply in_or_app; auto.
      + left. destruct H as [H|H]; [left; exact H|]. rewrite imu_stamps_app in H. apply in_app_or in H as [H|H]; [right; exact H|].
        assert (tm < tm); [|lia]. apply Hlt2; [right; apply in_map_iff; exists (tm, m); auto|exact H].
      + right. assert (In tm (map fst (taken O t0 l1))) as Htm by (apply in_map_iff; exists (tm, m); auto).
        split; [|split].
        * intros k' Hk'. apply H1. apply Hin2. exact Hk'.
        * exists k. split; [|exact H3]. destruct H2 as [<-|H2]; [left; reflexivity|]. rewrite imu_stamps_app in H2.
          apply in_app_or in H2 as [H2|H2]; [right; exact H2|]. assert (tm < k) by (apply Hlt2; auto). lia.
        * intros tl tn Hl Hn Itl Itn Hk. apply H4; auto. intros k' [<-|Hk']; [apply Hk; left; reflexivity|].
          rewrite imu_stamps_app in Hk'. apply in_app_or in Hk' as [Hk'|Hk']; [apply Hk; right; exact Hk'|].
          right. assert (tn < k') by (apply Hlt2; auto). lia.
    - intros p1 n tm m p3 E. apply (Href p1 n tm m (p3 ++ p2)). rewrite Ep2, E, <- app_assoc. reflexivity.
  Qed.
End Prefix.

Section Published.
  Variable O : ops.
  Variable d : nat -> dec_begin.

  Lemma run_event : forall l c c' ev e, run O d c l = Ok (c', ev) -> In e ev ->
    exists l1 k l2 c1 ev1 c2 ev2, l = l1 ++ k :: l2 /\ run O d c l1 = Ok (c1, ev1) /\
      step O d c1 k = Ok (c2, ev2) /\ In e ev2 /\ run O d c (l1 ++ [k]) = Ok (c2, ev1 ++ ev2).
  Proof.
    induction l as [|k l IH]; intros c c' ev e H Hin.
    - injection H as _ <-. destruct Hin.
    - cbn [run] in H. ob H x E1. destruct x as [c1 e1]. ob H x E2. destruct x as [c2 e2]. injection H as <- <-.
      apply in_app_or in Hin as [Hin|Hin].
      + exists [], k, l, c, [], c1, e1. cbn [app run]. rewrite E1. cbn [bind]. rewrite app_nil_r. auto 6.
      + destruct (IH _ _ _ _ E2 Hin) as (l1 & k' & l2 & c3 & ev3 & c4 & ev4 & -> & R3 & S4 & H4 & R4).
        exists (k :: l1), k', l2, c3, (e1 ++ ev3), c4, ev4. cbn [app run]. rewrite E1. cbn [bind]. rewrite R3, R4. cbn [bind].
        rewrite app_assoc. auto 6.
  Qed.

  Lemma imu_quiet : forall c a g t c' ev, queue c = [] -> step O d c (CImu a g t) = Ok (c', ev) ->
    queue c' = [] /\ forall t s, ~ In (PubUpdate t s) ev.
  Proof.
    intros c a g t c' ev Hq H. cbn [step] in H. unfold ProcessIMU in H.
    destruct (negb _); [injection H as <- <-; split; [exact Hq|auto]|].
    ob H x E1. destruct x as [c0 [tl sl]].
    assert (queue c0 = queue c) as Hq0.
    { unfold deref_last in E1. ob E1 i E2. destruct i; try discriminate. destruct (GetValueAt _ _); [|discriminate].
      injection E1 as <- _. reflexivity. }
    destruct (_ =? _); [injection H as <- <-; split; [congruence|auto]|].
    destruct (_ && _); [injection H as <- <-; split; [cbn; congruence|auto]|].
    destruct (_ && _).
    { injection H as <- <-. split; [|auto]. destruct (acc_spike O a); cbn; congruence. }
    unfold imu_finish in H. ob H x1 E2. apply PropagatePOneStep_frame in E2.
    destruct E2 as [(i & p & E2 & _) _]. apply (f_equal (@queue O)) in E2.
    cbn [queue set_flags set_time_P set_states set_it] in E2.
    match type of H with context [if predictionMade ?cc then _ else _] => set (cq := cc) in * end.
    assert (queue cq = []) as Hcq.
    { unfold cq. destruct (_ <? _)%nat; cbn [queue set_flags]; rewrite E2; destruct (acc_spike O a); cbn [queue set_last_am]; congruence. }
    unfold HandlePendingMeasurements in H. rewrite Hcq in H.
    replace (if predictionMade cq then Ok (cq, []) else Ok (cq, [])) with (@Ok (core O * list (event O)) (cq, [])) in H
      by (destruct (predictionMade cq); reflexivity).
    cbn [bind] in H. injection H as <- <-. split; [exact Hcq|]. intros t1 s1 [H|[]]. discriminate.
  Qed.

  Variables (ra : Z -> Acc O) (rg : Z -> Gyr O).
  Variable fuse : Meas O -> Val O -> Cov O -> Val O * Cov O.
  Hypothesis Hd : forall k, (0 < k)%nat -> d k <> DecUB.
  Hypothesis Hnum : forall v, numeric O v = true.
  Hypothesis Hnum_p : forall v, numeric_p O v = true.
  Hypothesis Happly : forall m g v P, exists r g',
    apply_meas O m g v P = (r, fst (fuse m v P), snd (fuse m v P), g') /\ (r = false -> fuse m v P = (v, P)).

  Lemma session_published : forall c t0 s0 l c' ev t s,
    0 < t0 -> session O ra rg (never_refused O) (last_am c) t0 s0 l ->
    run O d c (CInit t0 s0 :: l) = Ok (c', ev) -> In (PubUpdate t s) ev ->
    exists l1 l2 G, l = l1 ++ l2 /\
      grid (fun t => In t (t0 :: imu_stamps O l1) \/ In t (map fst (taken O t0 l1))) G /\
      t = last G t0 /\ GetLast (plain_filter O ra rg fuse (taken O t0 l1) s0 G) = Some (t, s).
  Proof.
    intros c t0 s0 l c' ev t s Hpos HS HR Hin.
    destruct (run_event _ _ _ _ _ HR Hin) as (l1 & k & l2 & c1 & ev1 & c2 & ev2 & El & R1 & S2 & H2 & R2).
    destruct l1 as [|k0 l1].
    { injection El as <- <-. cbn [step] in S2. ob S2 x E. injection S2 as _ <-. destruct H2. }
    cbn [app] in El. injection El as <- El.
    assert (2 < length (l1 ++ [k]))%nat as Hlen.
    { destruct (Nat.lt_ge_cases 2 (length (l1 ++ [k]))) as [?|Hge]; [assumption|]. exfalso.
      destruct (se_start _ _ _ _ _ _ _ _ HS) as (a1 & g1 & t1 & a2 & g2 & t2 & a3 & g3 & t3 & r & El2 & _).
      rewrite El in El2. rewrite app_length in Hge. cbn in Hge.
      cbn [run step] in R1. unfold Init in R1. replace (t0 =? 0) with false in R1 by lia. cbn [bind] in R1.
      match type of R1 with context [run O d ?cc l1] => set (ci := cc) in * end.
      assert (queue ci = []) as Hqi by reflexivity.
      destruct l1 as [|k1 [|k2 l1]]; cbn [app length] in *; try lia.
      - cbn [run bind] in R1. injection R1 as <- _. injection El2 as -> _.
        destruct (imu_quiet _ _ _ _ _ _ Hqi S2) as [_ Hno]. exact (Hno _ _ H2).
      - injection El2 as -> -> _. cbn [run] in R1. ob R1 y E2. ob E2 x E1. destruct x as [c3 e3]. cbn [bind] in E2. injection E2 as <-.
        injection R1 as <- _. destruct (imu_quiet _ _ _ _ _ _ Hqi E1) as [Hq3 _].
        destruct (imu_quiet _ _ _ _ _ _ Hq3 S2) as [_ Hno]. exact (Hno _ _ H2). }
    replace (l1 ++ k :: l2) with ((l1 ++ [k]) ++ l2) in El by (rewrite <- app_assoc; reflexivity).
    pose proof HS as HS1. rewrite El in HS1. apply session_prefix in HS1; [|exact Hlen].
    destruct (session_result O d ra rg fuse Hd Hnum Hnum_p Happly c t0 s0 _ Hpos HS1) as (c3 & ev3 & G & i & R3 & HG & E3 & L3 & _).
    change (run O d c (CInit t0 s0 :: l1 ++ [k])) with (run O d c ((CInit t0 s0 :: l1) ++ [k])) in R3.
    rewrite R2 in R3. injection R3 as <- _.
    apply (step_pub O d _ _ _ _ _ _ S2) in H2. 
    exists (l1 ++ [k]), l2, G. split; [exact El|]. split; [exact HG|].
    set (X := plain_filter O ra rg fuse (taken O t0 (l1 ++ [k])) s0 G) in *.
    assert (keys X = G) as HX by apply plain_keys.
    rewrite E3 in H2. assert (GetLast X = Some (t, s)) as HL.
    { rewrite <- (firstn_skipn i X). destruct (exists_last (l := skipn i X)) as (A & e & EA).
      { intros E0. apply (f_equal (@length _)) in E0. rewrite skipn_length, <- (keys_length X), HX in E0. cbn in E0. lia. }
      rewrite EA in *. rewrite app_assoc, GetLast_app. rewrite GetLast_app in H2. exact H2. }
    split; [|exact HL]. rewrite <- HX. destruct (exists_last (l := X)) as (A & e & EA).
    { intros E0. rewrite E0 in HL. discriminate. }
    rewrite EA in *. rewrite GetLast_app in HL. injection HL as ->. rewrite keys_app. change (keys [(t, s)]) with [t]. rewrite last_last. reflexivity.
  Qed.
End Published.

(** ** The logging instance *)

Definition log_fuse (m : logmeas) (v P : list Z) : list Z * list Z :=
  if lm_accept m then (v ++ [lm_id m], P ++ [lm_id m]) else (v, P).
Lemma log_apply : forall m g v P, exists r g',
  apply_meas log_ops m g v P = (r, fst (log_fuse m v P), snd (log_fuse m v P), g') /\ (r = false -> log_fuse m v P = (v, P)).
Proof.
  intros m g v P. cbn. unfold log_fuse. destruct (lm_accept m); cbn; [exists true|exists false]; exists g; split; auto; discriminate.
Qed.

Section LogDefs.
  Variable M : list (Z * Meas log_ops).
  (** The accepted measurements with stamps in [ts]. *)
  Definition at_stamps (ts : list Z) : list (Z * logmeas) :=
    flat_map (fun t => match lookup log_ops M t with
                       | Some m => if lm_accept m then [(t, m)] else []
                       | None => [] end) ts.
  Definition ids (l : list (Z * logmeas)) : list Z := map (fun p => lm_id (snd p)) l.
End LogDefs.

Section Log.
  Variables (ra : Z -> Acc log_ops) (rg : Z -> Gyr log_ops).
  Variable M : list (Z * Meas log_ops).

  Notation at_stamps := (at_stamps M).
  Lemma fused_log : forall t (s : st log_ops),
    s_val (fused log_ops log_fuse M t s) = s_val s ++ ids (at_stamps [t]) /\
    s_cov (fused log_ops log_fuse M t s) = s_cov s ++ ids (at_stamps [t]).
  Proof.
    intros t s. unfold fused, at_stamps. cbn [flat_map]. destruct (lookup log_ops M t) as [m|]; cbn.
    - unfold log_fuse. destruct (lm_accept m); cbn; rewrite ?app_nil_r; auto.
    - rewrite !app_nil_r. auto.
  Qed.
  Lemma filter_log : forall ts t0 (s : st log_ops) t1 s1,
    StronglySorted Z.lt (t0 :: ts) ->
    In (t1, s1) (filter_from log_ops ra rg log_fuse M (t0, s) ts) ->
    s_val s1 = s_val s ++ ids (at_stamps (filter (fun t => t <=? t1) ts)) /\
    s_cov s1 = s_cov s ++ ids (at_stamps (filter (fun t => t <=? t1) ts)).
  Proof.
    induction ts as [|t ts IH]; intros t0 s t1 s1 Hs Hin; [destruct Hin|].
    apply StronglySorted_inv in Hs as [Hs _]. cbn [filter_from] in Hin.
    set (s' := fused log_ops log_fuse M t (predicted log_ops ra rg (t0, s) t)) in *.
    assert (s_val s' = s_val s ++ ids (at_stamps [t]) /\ s_cov s' = s_cov s ++ ids (at_stamps [t])) as [Ev Ec].
    { exact (fused_log t (predicted log_ops ra rg (t0, s) t)). }
    apply StronglySorted_inv in Hs as [Hs' Hf]. rewrite Forall_forall in Hf.
    destruct Hin as [Hin|Hin].
    - injection Hin as <- <-. cbn [filter]. replace (t <=? t) with true by lia.
      replace (filter (fun t2 => t2 <=? t) ts) with (@nil Z); [auto|].
      symmetry. clear - Hf. induction ts as [|u ts IH]; [reflexivity|]. cbn. pose proof (Hf u (or_introl eq_refl)).
      replace (u <=? t) with false by lia. apply IH. intros x Hx. apply Hf. right; exact Hx.
    - assert (t < t1) as Hlt.
      { apply Hf. rewrite <- (filter_keys log_ops ra rg log_fuse M ts (t, s')). apply in_map_iff. exists (t1, s1). auto. }
      destruct (IH t s' t1 s1) as [E1 E2]; auto. { constructor; [exact Hs'|]. rewrite Forall_forall. exact Hf. }
      cbn [filter]. replace (t <=? t1) with true by lia.
      assert (forall x, ids (at_stamps (t :: x)) = ids (at_stamps [t]) ++ ids (at_stamps x)) as Ecat.
      { intros x. unfold BatchCor.at_stamps, ids. cbn [flat_map]. rewrite app_nil_r, map_app. reflexivity. }
      rewrite E1, E2, Ev, Ec, (Ecat (filter _ ts)), <- !app_assoc. auto.
  Qed.

  Lemma plain_log : forall (s0 : st log_ops) G t1 s1,
    StronglySorted Z.lt G -> In (t1, s1) (plain_filter log_ops ra rg log_fuse M s0 G) ->
    s_val s1 = s_val s0 ++ ids (at_stamps (filter (fun t => t <=? t1) G)) /\
    s_cov s1 = s_cov s0 ++ ids (at_stamps (filter (fun t => t <=? t1) G)).
  Proof.
    intros s0 [|t0 ts] t1 s1 Hs Hin; [destruct Hin|]. cbn [plain_filter] in Hin.
    destruct (fused_log t0 s0) as [Ev Ec]. set (s' := fused log_ops log_fuse M t0 s0) in *.
    pose proof Hs as Hs0. apply StronglySorted_inv in Hs as [Hs Hf]. rewrite Forall_forall in Hf.
    destruct Hin as [Hin|Hin].
    - injection Hin as <- <-. cbn [filter]. replace (t0 <=? t0) with true by lia.
      replace (filter (fun t2 => t2 <=? t0) ts) with (@nil Z); [auto|].
      symmetry. clear - Hf. induction ts as [|u ts IH]; [reflexivity|]. cbn. pose proof (Hf u (or_introl eq_refl)).
      replace (u <=? t0) with false by lia. apply IH. intros x Hx. apply Hf. right; exact Hx.
    - assert (t0 < t1) as Hlt.
      { apply Hf. rewrite <- (filter_keys log_ops ra rg log_fuse M ts (t0, s')). apply in_map_iff. exists (t1, s1). auto. }
      destruct (filter_log ts t0 s' t1 s1 Hs0 Hin) as [E1 E2].
      cbn [filter]. replace (t0 <=? t1) with true by lia.
      assert (forall x, ids (at_stamps (t0 :: x)) = ids (at_stamps [t0]) ++ ids (at_stamps x)) as Ecat.
      { intros x. unfold BatchCor.at_stamps, ids. cbn [flat_map]. rewrite app_nil_r, map_app. reflexivity. }
      rewrite E1, E2, Ev, Ec, (Ecat (filter _ ts)), <- !app_assoc. auto.
  Qed.
End Log.

Section LogStamps.
  Variable M : list (Z * Meas log_ops).
  Notation at_stamps := (at_stamps M).
  Lemma at_stamps_In : forall ts x, In x (at_stamps ts) -> In (fst x) ts /\ lookup log_ops M (fst x) = Some (snd x) /\ lm_accept (snd x) = true.
  Proof.
    intros ts x H. unfold BatchCor.at_stamps in H. apply in_flat_map in H as (t & Ht & H).
    destruct (lookup log_ops M t) as [m|] eqn:E; [|destruct H]. destruct (lm_accept m) eqn:Ea; [|destruct H].
    destruct H as [<-|[]]. auto.
  Qed.
  Lemma at_stamps_sorted : forall ts, StronglySorted Z.lt ts -> StronglySorted Z.lt (map fst (at_stamps ts)).
  Proof.
    induction ts as [|t ts IH]; intros Hs; [constructor|]. apply StronglySorted_inv in Hs as [Hs Hf]. rewrite Forall_forall in Hf.
    unfold BatchCor.at_stamps. cbn [flat_map]. fold (at_stamps ts).
    destruct (lookup log_ops M t) as [m|]; [|apply IH; exact Hs]. destruct (lm_accept m); [|apply IH; exact Hs].
    cbn. constructor; [apply IH; exact Hs|]. rewrite Forall_forall. intros x Hx. apply in_map_iff in Hx as (y & <- & Hy).
    apply Hf. apply at_stamps_In in Hy. tauto.
  Qed.
  Lemma sorted_nodup : forall ts, StronglySorted Z.lt ts -> NoDup ts.
  Proof.
    induction ts as [|t ts IH]; intros Hs; [constructor|]. apply StronglySorted_inv in Hs as [Hs Hf]. rewrite Forall_forall in Hf.
    constructor; [intros H; specialize (Hf _ H); lia|auto].
  Qed.
  Lemma sorted_filter : forall (f : Z -> bool) ts, StronglySorted Z.lt ts -> StronglySorted Z.lt (filter f ts).
  Proof.
    induction ts as [|t ts IH]; intros Hs; [constructor|]. apply StronglySorted_inv in Hs as [Hs Hf]. rewrite Forall_forall in Hf.
    cbn. destruct (f t); [|auto]. constructor; [auto|]. rewrite Forall_forall. intros x Hx. apply filter_In in Hx. apply Hf. tauto.
  Qed.
  Lemma at_stamps_perm : forall G t1, StronglySorted Z.lt G -> NoDup (map fst M) -> (forall x, In x M -> In (fst x) G) ->
    Permutation (at_stamps (filter (fun t => t <=? t1) G)) (filter (fun x => (fst x <=? t1) && lm_accept (snd x)) M).
  Proof.
    intros G t1 Hs HN HM. apply NoDup_Permutation.
    - apply (NoDup_map_inv fst). apply sorted_nodup, at_stamps_sorted, sorted_filter, Hs.
    - apply NoDup_filter. apply (NoDup_map_inv fst). exact HN.
    - intros [t m]. rewrite filter_In. cbn [fst snd]. split.
      + intros H. apply at_stamps_In in H as (H1 & H2 & H3). cbn [fst snd] in *. apply filter_In in H1.
        apply (lookup_In log_ops M t m HN) in H2. rewrite H3. split; [exact H2|]. rewrite andb_true_r. tauto.
      + intros [H1 H2]. apply andb_prop in H2 as [H2 H3]. unfold BatchCor.at_stamps. apply in_flat_map. exists t.
        split; [apply filter_In; split; [exact (HM _ H1)|exact H2]|].
        pose proof (proj2 (lookup_In log_ops M t m HN) H1) as E. cbn in E |- *. rewrite E, H3. left; reflexivity.
  Qed.
End LogStamps.

Lemma session_log : forall d ra rg c t0 s0 l c' ev t s,
  (forall k, (0 < k)%nat -> d k <> DecUB) -> 0 < t0 ->
  session log_ops ra rg (never_refused log_ops) (last_am c) t0 s0 l ->
  run log_ops d c (CInit t0 s0 :: l) = Ok (c', ev) -> In (t, s) (states c') ->
  exists L : list (Z * logmeas),
    StronglySorted Z.lt (map fst L) /\
    Permutation L (filter (fun x => (fst x <=? t) && lm_accept (snd x)) (taken log_ops t0 l)) /\
    s_val s = s_val s0 ++ map (fun x => lm_id (snd x)) L /\
    s_cov s = s_cov s0 ++ map (fun x => lm_id (snd x)) L.
Proof.
  intros d ra rg c t0 s0 l c' ev t s Hd Hpos HS HR Hin.
  destruct (session_result log_ops d ra rg log_fuse Hd (fun _ => eq_refl) (fun _ => eq_refl) log_apply c t0 s0 l Hpos HS)
    as (c2 & ev2 & G & k & R2 & [HG1 HG2] & E2 & _).
  rewrite HR in R2. injection R2 as <- <-. rewrite E2 in Hin. apply skipn_In in Hin.
  destruct (plain_log ra rg _ s0 G t s HG1 Hin) as [Ev Ec].
  exists (at_stamps (taken log_ops t0 l) (filter (fun u => u <=? t) G)).
  split; [apply at_stamps_sorted, sorted_filter, HG1|].
  split; [|split; assumption].
  apply at_stamps_perm; [exact HG1|exact (se_distinct _ _ _ _ _ _ _ _ HS)|].
  intros x Hx. apply HG2. right. apply in_map. exact Hx.
Qed.
