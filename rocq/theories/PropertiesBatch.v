(** C12, C13, C16: delay compensation, no measurement counted twice or lost, covariance
    bookkeeping. *)

From Coq Require Import ZArith List Sorting.Sorted Lia ZifyBool Bool Permutation.
From Verif Require Import Outcome SortedContainer SortedContainerSpec Core CoreExamples BatchSpec Batch BatchCor.
Import ListNotations.
Open Scope Z_scope.

(** The measurement's effect depends on the state only (not on the failure detector's
    memory), and a refused measurement leaves value and covariance as they are. *)
Definition effect_is (O : ops) (fuse : Meas O -> Val O -> Cov O -> Val O * Cov O) : Prop :=
  forall m g v P, exists r g',
    apply_meas O m g v P = (r, fst (fuse m v P), snd (fuse m v P), g') /\ (r = false -> fuse m v P = (v, P)).
(** No state ever contains a NaN or an infinity. *)
Definition no_nan (O : ops) : Prop := (forall v, numeric O v = true) /\ (forall v, numeric_p O v = true).
(** [--begin()] is harmless on non-empty maps. *)
Definition dec_fine (d : nat -> dec_begin) : Prop := forall k, (0 < k)%nat -> d k <> DecUB.
(** The measurement is applied whatever the state. *)
Definition accepted_always (O : ops) (m : Meas O) : Prop :=
  forall g v P, fst (fst (fst (apply_meas O m g v P))) = true.

(** ** An example session of the logging instance: accelerometer readings rise by one per
    millisecond. *)

Definition ramp (t : Z) : Z := t / ms - 1000.
Definition cV (t : Z) : call log_ops := @CImu log_ops (t - 1000) 0 (t * ms).
Definition s_ramp : st log_ops := @mkst log_ops 0 0 [] [].
(** Measurement 3 overtakes measurement 1; measurement 2 lies between IMU messages and is
    late; measurement 4 comes too early and waits. *)
Definition ses_late : list (call log_ops) :=
  [cV 1010; cV 1020; cV 1030; cM 10300 3; cM 10100 1; cV 1040; cM 10250 2; cM 10450 4; cV 1050].
(** The same, every measurement in time order and as early as possible. *)
Definition ses_prompt : list (call log_ops) :=
  [cV 1010; cV 1020; cV 1030; cM 10100 1; cM 10250 2; cM 10300 3; cV 1040; cV 1050; cM 10450 4].

Lemma ses_ok : forall l, In l [ses_late; ses_prompt] ->
  session log_ops ramp (fun _ => 0) (accepted_always log_ops) 0 (1000 * ms) s_ramp l.
Proof.
  intros l Hl.
  assert (imu_stamps log_ops l = [1010 * ms; 1020 * ms; 1030 * ms; 1040 * ms; 1050 * ms]) as Eu
    by (destruct Hl as [<-|[<-|[]]]; reflexivity).
  assert (forall m : logmeas, lm_accept m = true -> accepted_always log_ops m) as Hacc.
  { intros m Hm g v P. cbn. rewrite Hm. reflexivity. }
  assert (forall k tm m, In (k, (tm, m)) (fst (schedule log_ops (1000 * ms) [] l)) ->
            k <= tm + 599 * (second / 10) /\ lm_accept m = true /\
            (tm = 1010 * ms \/ tm = 1025 * ms \/ tm = 1030 * ms \/ tm = 1045 * ms)) as Hs.
  { intros k tm m Hin.
    destruct Hl as [<-|[<-|[]]]; cbv -[Z.le Z.lt] in Hin; repeat (destruct Hin as [Hin|Hin]; [injection Hin as <- <- <-|]);
      try destruct Hin; (split; [vm_compute; discriminate|split; [reflexivity|]]);
      try (left; reflexivity); right; try (left; reflexivity); right; try (left; reflexivity); right; reflexivity. }
  assert (forall t, In t (map fst (taken log_ops (1000 * ms) l)) ->
            t = 1010 * ms \/ t = 1025 * ms \/ t = 1030 * ms \/ t = 1045 * ms) as Ht.
  { intros t Ht. unfold taken in Ht. rewrite map_map in Ht. apply in_map_iff in Ht as ([k [tm m]] & <- & Hin).
    exact (proj2 (proj2 (Hs k tm m Hin))). }
  constructor.
  - destruct Hl as [<-|[<-|[]]]; repeat constructor.
  - rewrite Eu. repeat constructor.
  - destruct Hl as [<-|[<-|[]]]; do 10 eexists; (split; [reflexivity|]); repeat split; vm_compute; discriminate.
  - split; reflexivity.
  - intros t a g Hin.
    assert (despiked log_ops (s_acc s_ramp) 0 (imu_msgs log_ops l) =
            [(1010 * ms, 10, 0); (1020 * ms, 20, 0); (1030 * ms, 30, 0); (1040 * ms, 40, 0); (1050 * ms, 50, 0)]) as E
      by (destruct Hl as [<-|[<-|[]]]; reflexivity).
    rewrite E in Hin. repeat (destruct Hin as [Hin|Hin]; [injection Hin as <- <- <-; split; reflexivity|]). destruct Hin.
  - destruct Hl as [<-|[<-|[]]]; vm_compute; repeat constructor; cbn; intuition discriminate.
  - intros k tm m Hin. apply (Hs k tm m Hin).
  - intros tm m Hin. rewrite Eu.
    assert (In tm (map fst (taken log_ops (1000 * ms) l))) as Hin' by (apply in_map_iff; exists (tm, m); auto).
    destruct (Ht tm Hin') as [->|[->|[->| ->]]].
    + left. cbn [In]. auto.
    + right. split; [|split].
      * intros k Hk Hne.
        assert (k = 1000 * ms \/ k = 1010 * ms \/ k = 1020 * ms \/ k = 1030 * ms \/ k = 1040 * ms \/ k = 1050 * ms \/
                k = 1025 * ms \/ k = 1045 * ms) as Hk'.
        { destruct Hk as [[<-|[<-|[<-|[<-|[<-|[<-|[]]]]]]]|Hk]; auto 10. destruct (Ht k Hk) as [->|[->|[->| ->]]]; auto 10. }
        clear - Hk' Hne. unfold ms, second in *. lia.
      * exists (1020 * ms). cbn [In]. repeat split; auto. vm_compute. discriminate.
      * intros tl tn H1 H2 Hl1 Hn1 Hmid.
        pose proof (Hmid (1020 * ms)) as A. pose proof (Hmid (1030 * ms)) as B. cbn [In] in A, B.
        assert (1020 * ms <= tl) as C1 by (destruct A as [A|A]; auto; unfold ms, second in *; lia).
        assert (tn <= 1030 * ms) as C2 by (destruct B as [B|B]; auto; unfold ms, second in *; lia).
        assert (tl = 1020 * ms) as ->.
        { destruct Hl1 as [[<-|[<-|[<-|[<-|[<-|[<-|[]]]]]]]|Hl1]; try (unfold ms, second in *; lia).
          destruct (Ht tl Hl1) as [->|[->|[->| ->]]]; unfold ms, second in *; lia. }
        assert (tn = 1030 * ms) as ->.
        { destruct Hn1 as [[<-|[<-|[<-|[<-|[<-|[<-|[]]]]]]]|Hn1]; try (unfold ms, second in *; lia).
          destruct (Ht tn Hn1) as [->|[->|[->| ->]]]; unfold ms, second in *; lia. }
        split; reflexivity.
    + left. cbn [In]. auto.
    + right. split; [|split].
      * intros k Hk Hne.
        assert (k = 1000 * ms \/ k = 1010 * ms \/ k = 1020 * ms \/ k = 1030 * ms \/ k = 1040 * ms \/ k = 1050 * ms \/
                k = 1025 * ms \/ k = 1045 * ms) as Hk'.
        { destruct Hk as [[<-|[<-|[<-|[<-|[<-|[<-|[]]]]]]]|Hk]; auto 10. destruct (Ht k Hk) as [->|[->|[->| ->]]]; auto 10. }
        clear - Hk' Hne. unfold ms, second in *. lia.
      * exists (1040 * ms). cbn [In]. repeat split; auto 6. vm_compute. discriminate.
      * intros tl tn H1 H2 Hl1 Hn1 Hmid.
        pose proof (Hmid (1040 * ms)) as A. pose proof (Hmid (1050 * ms)) as B. cbn [In] in A, B.
        assert (1040 * ms <= tl) as C1 by (destruct A as [A|A]; auto 8; unfold ms, second in *; lia).
        assert (tn <= 1050 * ms) as C2 by (destruct B as [B|B]; auto 8; unfold ms, second in *; lia).
        assert (tl = 1040 * ms) as ->.
        { destruct Hl1 as [[<-|[<-|[<-|[<-|[<-|[<-|[]]]]]]]|Hl1]; try (unfold ms, second in *; lia).
          destruct (Ht tl Hl1) as [->|[->|[->| ->]]]; unfold ms, second in *; lia. }
        assert (tn = 1050 * ms) as ->.
        { destruct Hn1 as [[<-|[<-|[<-|[<-|[<-|[<-|[]]]]]]]|Hn1]; try (unfold ms, second in *; lia).
          destruct (Ht tn Hn1) as [->|[->|[->| ->]]]; unfold ms, second in *; lia. }
        split; reflexivity.
  - intros p1 k tm m p2 E. left. apply Hacc.
    apply (Hs k tm m). rewrite E. apply in_or_app. right. left. reflexivity.
Qed.

(** ** C12 *)

(** After an undisturbed session the buffer holds what the plain filter computes from the
    initial state, the readings and the taken measurements - minus the states older than 60 s. *)
Theorem C12_delay_compensated_partial : forall (O : ops) d ra rg fuse (c : core O) t0 s0 l,
  dec_fine d -> no_nan O -> effect_is O fuse -> 0 < t0 ->
  session O ra rg (accepted_always O) (last_am c) t0 s0 l ->
  exists c' ev G k,
    run O d c (CInit t0 s0 :: l) = Ok (c', ev) /\
    grid (fun t => In t (t0 :: imu_stamps O l) \/ In t (map fst (taken O t0 l))) G /\
    states c' = skipn k (plain_filter O ra rg fuse (taken O t0 l) s0 G) /\
    (k < length G)%nat /\
    (forall t, In t (firstn k G) -> t < last G t0 - 60 * second) /\
    time_P c' = last G t0 /\
    queue c' = snd (schedule O t0 [] l) /\
    Permutation (taken O t0 l ++ queue c') (arrivals O l).
Proof.
  exact (fun O d ra rg fuse c t0 s0 l Hd Hn Hf Hp HS =>
    session_result O d ra rg fuse Hd (proj1 Hn) (proj2 Hn) Hf c t0 s0 l Hp HS).
Qed.
Print Assumptions C12_delay_compensated_partial.

(** Delay and arrival order do not matter: two sessions with the same IMU stamps and the same
    measurements taken end with the same newest state, and with the same states in the last 60 s. *)
Theorem C12_arrival_order_irrelevant_partial : forall (O : ops) d ra rg fuse (c1 c2 : core O) t0 s0 l1 l2,
  dec_fine d -> no_nan O -> effect_is O fuse -> 0 < t0 ->
  session O ra rg (accepted_always O) (last_am c1) t0 s0 l1 ->
  session O ra rg (accepted_always O) (last_am c2) t0 s0 l2 ->
  imu_stamps O l1 = imu_stamps O l2 -> Permutation (taken O t0 l1) (taken O t0 l2) ->
  exists c1' ev1 c2' ev2 X k1 k2,
    run O d c1 (CInit t0 s0 :: l1) = Ok (c1', ev1) /\ run O d c2 (CInit t0 s0 :: l2) = Ok (c2', ev2) /\
    states c1' = skipn k1 X /\ states c2' = skipn k2 X /\
    GetLast (states c1') = GetLast (states c2') /\
    forall t s, last (map fst X) t0 - 60 * second <= t ->
      (In (t, s) (states c1') <-> In (t, s) X) /\ (In (t, s) (states c2') <-> In (t, s) X).
Proof.
  exact (fun O d ra rg fuse c1 c2 t0 s0 l1 l2 Hd Hn Hf Hp H1 H2 HI HM =>
    arrival_order O d ra rg fuse Hd (proj1 Hn) (proj2 Hn) Hf c1 c2 t0 s0 l1 l2 Hp H1 H2 HI HM).
Qed.
Print Assumptions C12_arrival_order_irrelevant_partial.

Lemma ex_d_fine : dec_fine ex_d.
Proof. intros [|[|[|k]]] H; try discriminate. lia. Qed.
Lemma log_no_nan : no_nan log_ops.
Proof. split; reflexivity. Qed.

Definition ids_of (l : list (call log_ops)) :=
  match run log_ops ex_d (core_new log_ops tt) l with
  | Ok (c, _) => Ok (map (fun e : Z * st log_ops => (fst e / ms, s_val (snd e) : list Z, s_cov (snd e) : list Z)) (states c))
  | UB => UB
  | Abort => Abort
  end.
Lemma ids_of_run : forall l L c ev, ids_of l = Ok L -> run log_ops ex_d (core_new log_ops tt) l = Ok (c, ev) ->
  forall t v P, In (t, v, P) L -> exists u s, In (u, s) (states c) /\ s_val s = v /\ s_cov s = P.
Proof.
  intros l L c ev E R t v P Hin. unfold ids_of in E. rewrite R in E. injection E as <-.
  apply in_map_iff in Hin as ([u s] & Heq & Hin). injection Heq as _ Hv HP. exists u, s. auto.
Qed.
Definition cJ : call log_ops := @CInit log_ops (1000 * ms) s_ramp.

Example C12_ex :
  ids_of (cJ :: ses_late) = ids_of (cJ :: ses_prompt) /\
  ids_of (cJ :: ses_late) =
  Ok [(1000, [], []); (1010, [1], [1]); (1020, [1], [1]); (1025, [1; 2], [1; 2]); (1030, [1; 2; 3], [1; 2; 3]);
      (1040, [1; 2; 3], [1; 2; 3]); (1045, [1; 2; 3; 4], [1; 2; 3; 4]); (1050, [1; 2; 3; 4], [1; 2; 3; 4])].
Proof. split; lazy; reflexivity. Qed.

Example C12_ex_hypotheses :
  dec_fine ex_d /\ no_nan log_ops /\ effect_is log_ops log_fuse /\
  session log_ops ramp (fun _ => 0) (accepted_always log_ops) (last_am (core_new log_ops tt)) (1000 * ms) s_ramp ses_late /\
  Permutation (taken log_ops (1000 * ms) ses_late) (taken log_ops (1000 * ms) ses_prompt) /\
  taken log_ops (1000 * ms) ses_late <> taken log_ops (1000 * ms) ses_prompt.
Proof.
  split; [exact ex_d_fine|]. split; [exact log_no_nan|]. split; [exact log_apply|].
  split; [apply ses_ok; left; reflexivity|]. split; [|vm_compute; discriminate].
  vm_compute. eapply perm_trans; [apply perm_swap|]. apply perm_skip. apply perm_swap.
Qed.

(** The full claim also has sessions in which a measurement stamped before ones already fused is
    refused ([se_refusable] is void when every measurement counts as acceptable). *)
Definition C12_full : Prop := forall (O : ops) d ra rg fuse (c : core O) t0 s0 l,
  dec_fine d -> no_nan O -> effect_is O fuse -> 0 < t0 ->
  session O ra rg (fun _ => True) (last_am c) t0 s0 l ->
  exists c' ev G k,
    run O d c (CInit t0 s0 :: l) = Ok (c', ev) /\
    grid (fun t => In t (t0 :: imu_stamps O l) \/ In t (map fst (taken O t0 l))) G /\
    states c' = skipn k (plain_filter O ra rg fuse (taken O t0 l) s0 G).

(** It fails: the refused measurement 1 makes measurement 2, fused before, count twice in the
    covariance. *)
Definition ses_refused : list (call log_ops) := [cU 1010; cU 1020; cU 1030; cU 1040; cM 10300 2; cR 10200 1].
Lemma ses_refused_ok :
  session log_ops (fun _ => 9) (fun _ => 0) (fun _ => True) 0 (1000 * ms) s_init ses_refused.
Proof.
  constructor.
  - repeat constructor.
  - repeat constructor.
  - do 10 eexists; (split; [reflexivity|]); repeat split; vm_compute; discriminate.
  - split; reflexivity.
  - intros t a g Hin. cbv in Hin. repeat (destruct Hin as [Hin|Hin]; [injection Hin as <- <- <-; split; reflexivity|]). destruct Hin.
  - vm_compute. repeat constructor; cbn; intuition discriminate.
  - intros k tm m Hin. cbv -[Z.le Z.lt] in Hin. repeat (destruct Hin as [Hin|Hin]; [injection Hin as <- <- <-; vm_compute; discriminate|]). destruct Hin.
  - intros tm m Hin. left. vm_compute in Hin. repeat (destruct Hin as [Hin|Hin]; [injection Hin as <- <-; vm_compute; auto 6|]). destruct Hin.
  - left. exact I.
Qed.
Lemma ses_refused_taken : taken log_ops (1000 * ms) ses_refused =
  [(1030 * ms, {| lm_id := 2; lm_accept := true |}); (1020 * ms, {| lm_id := 1; lm_accept := false |})].
Proof. lazy. reflexivity. Qed.
Lemma ses_refused_ids : ids_of (@CInit log_ops (1000 * ms) s_init :: ses_refused) =
  Ok [(1000, [], []); (1010, [], []); (1020, [], []); (1030, [2], [2; 2]); (1040, [2], [2; 2])].
Proof. lazy. reflexivity. Qed.
Lemma ses_refused_cov : forall c' ev, run log_ops ex_d (core_new log_ops tt) (@CInit log_ops (1000 * ms) s_init :: ses_refused) = Ok (c', ev) ->
  exists t s, In (t, s) (states c') /\ s_cov s = [2; 2].
Proof.
  intros c' ev R.
  destruct (ids_of_run _ _ _ _ ses_refused_ids R 1040 [2] [2; 2]) as (u & s & Hin & _ & HP); [cbn [In]; auto 8|].
  exists u, s. auto.
Qed.
Theorem C12_full_refuted : ~ C12_full.
Proof.
  intros H.
  destruct (H log_ops ex_d (fun _ => 9) (fun _ => 0) log_fuse (core_new log_ops tt) (1000 * ms) s_init ses_refused
              ex_d_fine log_no_nan log_apply eq_refl ses_refused_ok) as (c' & ev & G & k & R & [HG1 HG2] & E).
  destruct (ses_refused_cov _ _ R) as (t & s & Hin & Hv).
  rewrite E in Hin. apply skipn_In in Hin. destruct (plain_log _ _ _ _ _ _ _ HG1 Hin) as [_ Ec].
  rewrite Hv in Ec. cbn [s_cov s_init app] in Ec. apply (f_equal (@length Z)) in Ec. unfold ids in Ec. rewrite map_length in Ec.
  assert (Permutation (at_stamps (taken log_ops (1000 * ms) ses_refused) (filter (fun u => u <=? t) G))
            (filter (fun x => (fst x <=? t) && lm_accept (snd x)) (taken log_ops (1000 * ms) ses_refused))) as HP.
  { apply at_stamps_perm; [exact HG1|exact (se_distinct _ _ _ _ _ _ _ _ ses_refused_ok)|].
    intros x Hx. apply HG2. right. apply in_map. exact Hx. }
  apply Permutation_length in HP. rewrite HP in Ec.
  rewrite ses_refused_taken in Ec.
  cbn [filter fst snd lm_accept] in Ec. rewrite andb_false_r, andb_true_r in Ec. destruct (1030 * ms <=? t); discriminate Ec.
Qed.
Print Assumptions C12_full_refuted.

(** ** C13 *)

(** In the logging instance every state names the accepted measurements up to its time, each
    once and in time order, in its value and in its covariance. *)
Theorem C13_once_each_partial : forall d ra rg (c : core log_ops) t0 s0 l c' ev t s,
  dec_fine d -> 0 < t0 ->
  session log_ops ra rg (accepted_always log_ops) (last_am c) t0 s0 l ->
  run log_ops d c (CInit t0 s0 :: l) = Ok (c', ev) -> In (t, s) (states c') ->
  exists L : list (Z * logmeas),
    StronglySorted Z.lt (map fst L) /\
    Permutation L (filter (fun x => (fst x <=? t) && lm_accept (snd x)) (taken log_ops t0 l)) /\
    s_val s = s_val s0 ++ map (fun x => lm_id (snd x)) L /\
    s_cov s = s_cov s0 ++ map (fun x => lm_id (snd x)) L.
Proof.
  exact (fun d ra rg c t0 s0 l c' ev t s Hd Hp HS HR Hin =>
    session_log d ra rg c t0 s0 l c' ev t s Hd Hp HS HR Hin).
Qed.
Print Assumptions C13_once_each_partial.

(** The full claim, for every execution: no measurement counts twice in a state, and the
    covariance has seen the same measurements as the value. *)
Definition C13_full : Prop := forall l c' ev t s,
  run log_ops ex_d (core_new log_ops tt) l = Ok (c', ev) -> In (t, s) (states c') ->
  NoDup (map (fun x => (fst x, lm_id (snd x))) (arrivals log_ops l)) ->
  NoDup (s_val s) /\ s_val s = s_cov s.

(** It fails: two measurements with one stamp (the second is dropped, the first is fused again), ... *)
Theorem C13_same_stamp_refuted : exists l,
  l = warm ++ [cM 10200 1; cM 10200 2] /\
  ids_of l = Ok [(1000, [], []); (1010, [], []); (1020, [1; 1], [1; 1]); (1030, [1; 1], [1; 1]); (1040, [1; 1], [1; 1])].
Proof. eexists. split; [reflexivity|]. lazy. reflexivity. Qed.
Print Assumptions C13_same_stamp_refuted.

(** ... two measurements attached to one state, the later arriving with the earlier stamp, ... *)
Theorem C13_same_state_refuted : exists l,
  l = warm ++ [cM 10204 1; cM 10202 2] /\
  ids_of l = Ok [(1000, [], []); (1010, [], []); (1020, [1; 2; 1], [1; 2; 1]); (1030, [1; 2; 1], [1; 2; 1]);
                 (1040, [1; 2; 1], [1; 2; 1])].
Proof. eexists. split; [reflexivity|]. lazy. reflexivity. Qed.
Print Assumptions C13_same_state_refuted.

(** ... and a refused measurement before an already fused one. *)
Theorem C13_refused_before_refuted : exists l,
  l = warm ++ [cM 10300 2; cR 10200 1] /\
  ids_of l = Ok [(1000, [], []); (1010, [], []); (1020, [], []); (1030, [2], [2; 2]); (1040, [2], [2; 2])].
Proof. eexists. split; [reflexivity|]. lazy. reflexivity. Qed.
Print Assumptions C13_refused_before_refuted.

Theorem C13_full_refuted : ~ C13_full.
Proof.
  intros H. destruct C13_same_state_refuted as (l & El & E).
  destruct (run log_ops ex_d (core_new log_ops tt) l) as [[c ev]| |] eqn:R;
    [|unfold ids_of in E; rewrite R in E; discriminate..].
  destruct (ids_of_run l _ c ev E R 1040 [1; 2; 1] [1; 2; 1]) as (u & s & Hin & Hv & _); [cbn [In]; auto 8|].
  destruct (H l c ev u s R Hin) as [Hnd _].
  - subst l. vm_compute. repeat constructor; cbn; intuition discriminate.
  - rewrite Hv in Hnd. inversion Hnd as [|? ? A _]; subst. apply A. cbn. auto.
Qed.
Print Assumptions C13_full_refuted.

Example C13_ex : ids_of (warm ++ [cM 10350 2; cM 10250 1]) =
  Ok [(1000, [], []); (1010, [], []); (1020, [], []); (1025, [1], [1]); (1030, [1], [1]); (1035, [1; 2], [1; 2]);
      (1040, [1; 2], [1; 2])].
Proof. lazy. reflexivity. Qed.

(** ** C16 *)

(** Whatever is published after an update is the newest buffered state (every execution). *)
Theorem C16_published_is_newest : forall (O : ops) d (c c' : core O) k ev t s,
  step O d c k = Ok (c', ev) -> In (PubUpdate t s) ev -> GetLast (states c') = Some (t, s).
Proof. exact (fun O d c c' k ev t s H Hin => step_pub O d c k c' ev t s H Hin). Qed.
Print Assumptions C16_published_is_newest.

(** In an undisturbed session it is the plain filter's estimate - value and covariance - at its
    own time, for the measurements taken until then. *)
Theorem C16_published_propagated_partial : forall (O : ops) d ra rg fuse (c : core O) t0 s0 l c' ev t s,
  dec_fine d -> no_nan O -> effect_is O fuse -> 0 < t0 ->
  session O ra rg (accepted_always O) (last_am c) t0 s0 l ->
  run O d c (CInit t0 s0 :: l) = Ok (c', ev) -> In (PubUpdate t s) ev ->
  exists l1 l2 G, l = l1 ++ l2 /\
    grid (fun t => In t (t0 :: imu_stamps O l1) \/ In t (map fst (taken O t0 l1))) G /\
    t = last G t0 /\ GetLast (plain_filter O ra rg fuse (taken O t0 l1) s0 G) = Some (t, s).
Proof.
  exact (fun O d ra rg fuse c t0 s0 l c' ev t s Hd Hn Hf Hp HS HR Hin =>
    session_published O d ra rg fuse Hd (proj1 Hn) (proj2 Hn) Hf c t0 s0 l c' ev t s Hp HS HR Hin).
Qed.
Print Assumptions C16_published_propagated_partial.

Definition pubs_of (l : list (call log_ops)) :=
  match run log_ops ex_d (core_new log_ops tt) l with
  | Ok (_, ev) => Ok (flat_map (fun e : event log_ops => match e with PubUpdate t s => [(t / ms, s_val s : list Z, s_cov s : list Z)] | _ => [] end) ev)
  | UB => UB
  | Abort => Abort
  end.
Example C16_ex : pubs_of (cJ :: ses_late) =
  Ok [(1030, [3], [3]); (1030, [1; 3], [1; 3]); (1040, [1; 2; 3], [1; 2; 3]); (1050, [1; 2; 3; 4], [1; 2; 3; 4])].
Proof. lazy. reflexivity. Qed.

(** Without the restriction on refused measurements the published covariance is not the
    propagated one: a refused late measurement makes measurement 2 count twice. *)
Theorem C16_refused_late_refuted : exists l,
  l = warm ++ [cM 10300 2; cR 10200 1] /\ pubs_of l = Ok [(1040, [2], [2]); (1040, [2], [2; 2])].
Proof. eexists. split; [reflexivity|]. lazy. reflexivity. Qed.
Print Assumptions C16_refused_late_refuted.
