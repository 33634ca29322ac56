(** C40, C42, C45, C46: handlers and timing statistics. *)

From Coq Require Import Reals ZArith List Bool Lia Lra Permutation.
From Verif Require Import Outcome Handlers HandlersSpec HandlersProofs.
Import ListNotations.
Open Scope Z_scope.

(** ** C40 *)

(** Accepted stamps are spaced by more than the gap (the first one from zero), *)
Theorem C40_spacing : forall min_dt stamps,
  spaced (min_dt - 1000000) 0 (throttle_run min_dt 0 stamps).
Proof. intros; apply throttle_spaced. Qed.
Print Assumptions C40_spacing.

(** strictly increasing if the minimum spacing is at least a millisecond. *)
Theorem C40_increasing : forall min_dt stamps, 1000000 <= min_dt ->
  increasing (throttle_run min_dt 0 stamps).
Proof.
  intros. apply spaced_increasing with (gap := min_dt - 1000000) (prev := 0); [lia|].
  apply throttle_spaced.
Qed.
Print Assumptions C40_increasing.

(** Exactly the poses newer by more than the gap than the last accepted one are
    handed on, after any history. *)
Theorem C40_accepts : forall min_dt stamps t,
  throttle_run min_dt 0 (stamps ++ [t]) =
  throttle_run min_dt 0 stamps ++
  (if last (throttle_run min_dt 0 stamps) 0 + min_dt - 1000000 <? t then [t] else []).
Proof.
  intros. rewrite throttle_app.
  replace (last (throttle_run min_dt 0 stamps) 0 + min_dt - 1000000)
    with (last (throttle_run min_dt 0 stamps) 0 + (min_dt - epsilon)) by (unfold epsilon; lia).
  reflexivity.
Qed.
Print Assumptions C40_accepts.

(** Newer by exactly the gap is not enough. *)
Theorem C40_boundary_refuted : exists min_dt prev t,
  0 < prev /\ min_dt - 1000000 <= t - prev /\ throttle_run min_dt 0 [prev; t] = [prev].
Proof. exists 50000000, 1000000000, 1049000000. repeat split; lia. Qed.
Print Assumptions C40_boundary_refuted.

(** With the throttle set below a millisecond, repeated and older stamps pass. *)
Theorem C40_small_spacing_refuted : exists min_dt stamps,
  0 <= min_dt /\ ~ increasing (throttle_run min_dt 0 stamps).
Proof.
  exists 0, [5000000; 5000000; 4500000]. split; [lia|]. cbn. lia.
Qed.
Print Assumptions C40_small_spacing_refuted.

(** After the clock was set back nothing is accepted until it has caught up. *)
Theorem C40_clock_set_back : forall min_dt a t b,
  (forall x, In x b -> x <= last (throttle_run min_dt 0 (a ++ [t])) 0 + min_dt - 1000000) ->
  throttle_run min_dt 0 ((a ++ [t]) ++ b) = throttle_run min_dt 0 (a ++ [t]).
Proof.
  intros min_dt a t b. induction b as [|x b IH] using rev_ind; intros h.
  - rewrite app_nil_r; reflexivity.
  - rewrite app_assoc, C40_accepts, IH.
    + destruct (Z.ltb_spec (last (throttle_run min_dt 0 (a ++ [t])) 0 + min_dt - 1000000) x).
      * assert (h' := h x ltac:(apply in_or_app; right; left; reflexivity)). lia.
      * apply app_nil_r.
    + intros y hy; apply h, in_or_app; left; assumption.
Qed.
Print Assumptions C40_clock_set_back.

Example C40_example :
  throttle_run 50000000 0 [1000000000; 1020000000; 1049000001; 1060000000; 900000000; 1100000000]
  = [1000000000; 1049000001; 1100000000].
Proof. reflexivity. Qed.

(** ** C42 *)

(** With an ascending copy, the stored average is the mean of the last ten used
    readings (every tenth message is used) once there are ten. *)
Theorem C42_average_partial : forall msgs,
  let used := map snd (filter (fun m => fst m mod 10 =? 0) msgs) in
  exists outs p, pressure_run false pressure_new msgs = Ok (outs, p) /\
  ((10 <= length used)%nat -> z_average p = mean (lastn 10 used)).
Proof.
  intros msgs used.
  destruct (pressure_run_ok msgs pressure_new (repeat 0%R 10) eq_refl eq_refl)
    as (p & e1 & e2 & e3).
  exists (processed msgs), p; split; [exact e1|]. intros h.
  fold (processed msgs) in used. subst used.
  rewrite e3 by (intro e; rewrite e in h; cbn in h; lia).
  rewrite e2, lastn_app_big by assumption.
  unfold mean. rewrite lastn_length, Nat.min_l by assumption.
  cbn [INR]. f_equal. lra.
Qed.
Print Assumptions C42_average_partial.

(** Before that, the missing readings count as zero: with fewer than ten readings
    the result is the sum divided by ten. *)
Theorem C42_startup : forall msgs,
  let used := map snd (filter (fun m => fst m mod 10 =? 0) msgs) in
  (0 < length used < 10)%nat ->
  exists outs p, pressure_run false pressure_new msgs = Ok (outs, p) /\
  z_average p = (total used / 10)%R.
Proof.
  intros msgs used h.
  destruct (pressure_run_ok msgs pressure_new (repeat 0%R 10) eq_refl eq_refl)
    as (p & e1 & e2 & e3).
  exists (processed msgs), p; split; [exact e1|].
  fold (processed msgs) in used. subst used.
  rewrite e3 by (intro e; rewrite e in h; cbn in h; lia).
  rewrite e2. f_equal. unfold lastn. rewrite app_length, repeat_length, skipn_app, repeat_length.
  replace (10 + length (processed msgs) - 10 - 10)%nat with 0%nat by lia.
  rewrite total_app. change (skipn 0 (processed msgs)) with (processed msgs).
  assert (z : forall k n, total (skipn k (repeat 0%R n)) = 0%R).
  { clear. induction k; intros [|n]; cbn; try reflexivity.
    - assert (hz : total (repeat 0%R n) = 0%R) by (induction n; cbn; lra). lra.
    - apply IHk. }
  rewrite z. lra.
Qed.
Print Assumptions C42_startup.

Theorem C42_startup_refuted : exists z outs p,
  pressure_run false pressure_new [(10, z)] = Ok (outs, p) /\ z_average p <> mean [z].
Proof.
  destruct (C42_startup [(10, 100%R)]) as (outs & p & e & h); [cbn; lia|].
  exists 100%R, outs, p; split; [exact e|]. rewrite h. unfold mean. cbn. lra.
Qed.
Print Assumptions C42_startup_refuted.

(** What the filter is given is the raw reading, never the average. *)
Theorem C42_raw_heights : forall msgs outs p,
  pressure_run false pressure_new msgs = Ok (outs, p) ->
  outs = map snd (filter (fun m => fst m mod 10 =? 0) msgs).
Proof.
  intros msgs outs p e.
  destruct (pressure_run_ok msgs pressure_new (repeat 0%R 10) eq_refl eq_refl)
    as (p' & e1 & _).
  rewrite e in e1. injection e1 as -> ->. reflexivity.
Qed.
Print Assumptions C42_raw_heights.

Definition C42_readings : list (Z * R) := map (fun k => (10 * Z.of_nat k, INR k)) (seq 0 10).

Theorem C42_handed_refuted : exists msgs outs p,
  pressure_run false pressure_new msgs = Ok (outs, p) /\
  (10 <= length outs)%nat /\ last outs 0%R <> mean (lastn 10 outs).
Proof.
  destruct (C42_average_partial C42_readings) as (outs & p & e & _).
  exists C42_readings, outs, p. split; [exact e|].
  apply C42_raw_heights in e. subst outs. cbn [C42_readings seq map filter fst snd].
  unfold mean, lastn. cbn -[INR]. split; [lia|].
  rewrite !S_INR. cbn [INR]. lra.
Qed.
Print Assumptions C42_handed_refuted.

(** Read as C, the very first used message copies between overlapping regions. *)
Theorem C42_copy_refuted : exists msgs, pressure_run true pressure_new msgs = UB.
Proof. exists [(10, 1%R)]. reflexivity. Qed.
Print Assumptions C42_copy_refuted.

(** The filter ignores nine messages out of ten. *)
Example C42_example : exists p,
  pressure_run false pressure_new [(10, 5%R); (11, 6%R); (20, 7%R)] = Ok ([5; 7]%R, p).
Proof. eexists. reflexivity. Qed.

(** ** C45 *)

(** [2 ^ 31 - 1] is the number of samples an int counter can count; a later sample
    overflows it. *)
Theorem C45_statistics : forall N big tiny xs, (0 < N)%nat ->
  Z.of_nat (length xs) <= 2 ^ 31 - 1 ->
  exists a, acc_run N (acc_new N big tiny) xs = Ok a /\
    totalsamples a = Z.of_nat (length xs) /\
    asum a = total xs /\
    (xs <> [] -> acc_mean a = Some (mean xs) /\
                 rolling_mean N a = Some (mean (lastn N xs)) /\
                 lazy_variance N a = Some (variance (lastn N xs)) /\
                 (0 <= variance (lastn N xs))%R).
Proof.
  intros N big tiny xs hN hl.
  destruct (acc_run_ok N big tiny hN xs [] (acc_new N big tiny) (acc_inv_new N big tiny hN))
    as (a & e & i); [exact hl|].
  cbn [app] in i. exists a; split; [exact e|].
  split; [exact (inv_t _ _ _ _ _ i)|]. split; [exact (inv_s _ _ _ _ _ i)|].
  intros hne. assert (hlen : (0 < length xs)%nat) by (destruct xs; [contradiction|cbn; lia]).
  split.
  { unfold acc_mean. rewrite (inv_t _ _ _ _ _ i), (inv_s _ _ _ _ _ i).
    destruct (Z.eqb_spec (Z.of_nat (length xs)) 0); [lia|].
    unfold mean. rewrite INR_IZR_INZ. reflexivity. }
  assert (hw : window N a = Z.of_nat (length (lastn N xs))).
  { unfold window. rewrite (inv_w _ _ _ _ _ i), lastn_length. lia. }
  assert (hll : (0 < length (lastn N xs))%nat) by (rewrite lastn_length; lia).
  assert (hr : rolling_mean N a = Some (mean (lastn N xs))).
  { unfold rolling_mean. rewrite hw, (inv_ws _ _ _ _ _ i).
    destruct (Z.eqb_spec (Z.of_nat (length (lastn N xs))) 0); [lia|].
    unfold mean. rewrite <- INR_IZR_INZ. reflexivity. }
  split; [exact hr|]. split; [|apply variance_nonneg].
  unfold lazy_variance. rewrite (inv_w _ _ _ _ _ i), hr.
  destruct (Z.eqb_spec (Z.of_nat (length xs)) 0); [lia|].
  destruct (window_perm N big tiny hN xs a i) as (l & el & hp).
  rewrite el, sum_sq_some, hw, <- INR_IZR_INZ.
  unfold variance. set (m := mean (lastn N xs)). unfold mean at 1. rewrite map_length.
  rewrite (total_perm _ _ (Permutation_map (fun x => ((x - m) * (x - m))%R) hp)).
  reflexivity.
Qed.
Print Assumptions C45_statistics.

(** The minimum is attained (no duration exceeds the largest number). *)
Theorem C45_minimum : forall N big tiny xs, (0 < N)%nat ->
  Z.of_nat (length xs) <= 2 ^ 31 - 1 -> xs <> [] -> (forall x, In x xs -> (x <= big)%R) ->
  exists a, acc_run N (acc_new N big tiny) xs = Ok a /\ is_min (amin a) xs.
Proof.
  intros N big tiny xs hN hl hne hb.
  destruct (acc_run_ok N big tiny hN xs [] (acc_new N big tiny) (acc_inv_new N big tiny hN))
    as (a & e & i); [exact hl|].
  cbn [app] in i. exists a; split; [exact e|].
  rewrite (inv_mn _ _ _ _ _ i). destruct (fmin_le big xs) as (h1 & h2 & h3).
  split; [|exact h1]. destruct h3 as [h3|h3]; [exact h3|].
  destruct xs as [|x r]; [contradiction|].
  assert (hx := hb x (or_introl eq_refl)). assert (hx' := h1 x (or_introl eq_refl)).
  left. lra.
Qed.
Print Assumptions C45_minimum.

(** The maximum is attained if some duration is at least the least positive number, *)
Theorem C45_maximum_partial : forall N big tiny xs, (0 < N)%nat ->
  Z.of_nat (length xs) <= 2 ^ 31 - 1 -> (exists x, In x xs /\ (tiny <= x)%R) ->
  exists a, acc_run N (acc_new N big tiny) xs = Ok a /\ is_max (amax a) xs.
Proof.
  intros N big tiny xs hN hl (x & hx & hxt).
  destruct (acc_run_ok N big tiny hN xs [] (acc_new N big tiny) (acc_inv_new N big tiny hN))
    as (a & e & i); [exact hl|].
  cbn [app] in i. exists a; split; [exact e|].
  rewrite (inv_mx _ _ _ _ _ i). destruct (fmax_ge tiny xs) as (h1 & h2 & h3).
  split; [|exact h1]. destruct h3 as [h3|h3]; [exact h3|].
  assert (hx' := h1 x hx). replace (fmax tiny xs) with x by lra. exact hx.
Qed.
Print Assumptions C45_maximum_partial.

(** In all cases the maximum kept is that of the durations and the least positive number; so it is
    the maximum of the durations exactly if one of them is at least that number. *)
Theorem C45_maximum_exact : forall N big tiny xs, (0 < N)%nat ->
  Z.of_nat (length xs) <= 2 ^ 31 - 1 ->
  exists a, acc_run N (acc_new N big tiny) xs = Ok a /\ is_max (amax a) (tiny :: xs) /\
    (is_max (amax a) xs <-> exists x, In x xs /\ (tiny <= x)%R).
Proof.
  intros N big tiny xs hN hl.
  destruct (acc_run_ok N big tiny hN xs [] (acc_new N big tiny) (acc_inv_new N big tiny hN))
    as (a & e & i); [exact hl|].
  cbn [app] in i. exists a; split; [exact e|].
  rewrite (inv_mx _ _ _ _ _ i). destruct (fmax_ge tiny xs) as (h1 & h2 & h3).
  split; [split|].
  - destruct h3 as [h3|h3]; [right; exact h3|left; lra].
  - intros x [<-|hx]; [exact h2|exact (h1 x hx)].
  - split.
    + intros [h _]. exists (fmax tiny xs). split; [exact h|exact h2].
    + intros (x & hx & hxt). split; [|exact h1]. destruct h3 as [h3|h3]; [exact h3|].
      assert (hx' := h1 x hx). replace (fmax tiny xs) with x by lra. exact hx.
Qed.
Print Assumptions C45_maximum_exact.

(** and wrong otherwise: a zero duration, or a clock set back. *)
Theorem C45_maximum_refuted : forall tiny, (0 < tiny)%R -> exists xs a,
  acc_run 50 (acc_new 50 1000 tiny) xs = Ok a /\ xs <> [] /\ ~ is_max (amax a) xs.
Proof.
  intros tiny ht.
  destruct (acc_run_ok 50 1000 tiny ltac:(lia) [0%R] [] (acc_new 50 1000 tiny)
    (acc_inv_new 50 1000 tiny ltac:(lia))) as (a & e & i); [unfold int_max; cbn; lia|].
  exists [0%R], a; split; [exact e|]. split; [discriminate|].
  rewrite (inv_mx _ _ _ _ _ i). intros [h _]. cbn in h.
  destruct (Rlt_dec tiny 0); [lra|]. destruct h as [h|[]]; lra.
Qed.
Print Assumptions C45_maximum_refuted.

(** A window of two over three samples. *)
Example C45_example : exists a,
  acc_run 2 (acc_new 2 1000 (1/1000)) [1; 2; 6]%R = Ok a /\
  acc_mean a = Some 3%R /\ rolling_mean 2 a = Some 4%R /\ lazy_variance 2 a = Some 4%R.
Proof.
  destruct (C45_statistics 2 1000 (1/1000) [1; 2; 6]%R) as (a & e & _ & _ & h); [lia|cbn; lia|].
  exists a; split; [exact e|].
  destruct h as (h1 & h2 & h3 & _); [discriminate|].
  rewrite h1, h2, h3. unfold variance, mean, lastn. cbn.
  repeat split; f_equal; lra.
Qed.

(** ** C46 *)

(** The watchdog is exact for sequence numbers other than 0 and 2^31 - 1. *)
Theorem C46_watchdog_partial : forall seqs,
  (forall s, In s seqs -> 0 < s < 2 ^ 32 /\ s <> 2 ^ 31 - 1) ->
  watch_run 0 seqs = Ok (drops seqs).
Proof.
  intros [|s r] h; [reflexivity|].
  destruct (h s (or_introl eq_refl)) as [h1 h2].
  cbn [watch_run drops]. unfold watch_dog at 1. cbn [inc bind].
  change (inc 0) with (@Ok Z 1). cbn [bind]. rewrite Z.eqb_refl, andb_false_r.
  rewrite watch_run_ok; [reflexivity|lia|exact h2|].
  intros; apply h; right; assumption.
Qed.
Print Assumptions C46_watchdog_partial.

(** After number 0 a drop goes unnoticed. *)
Theorem C46_zero_refuted : exists seqs ws,
  (forall s, In s seqs -> 0 <= s < 2 ^ 32) /\ watch_run 0 seqs = Ok ws /\ ws <> drops seqs.
Proof.
  exists [0; 5], [false; false]. split; [|split; [reflexivity|discriminate]].
  intros s [<-|[<-|[]]]; lia.
Qed.
Print Assumptions C46_zero_refuted.

(** The message after number 2^31 - 1 overflows an int. *)
Theorem C46_overflow_refuted : exists seqs,
  (forall s, In s seqs -> 0 < s < 2 ^ 32) /\ watch_run 0 seqs = UB.
Proof.
  exists [2147483647; 2147483648]. split; [|reflexivity].
  intros s [<-|[<-|[]]]; lia.
Qed.
Print Assumptions C46_overflow_refuted.

(** Identifiers count up from zero in registration order, hence are distinct. *)
Theorem C46_identifiers : forall hs, NoDup hs -> Z.of_nat (length hs) <= 2 ^ 31 - 1 ->
  exists m, add_handlers hs manager_new = Ok m /\ handlers m = hs /\
    (forall i h, nth_error hs i = Some h -> hid m h = Z.of_nat i) /\
    (forall h h', In h hs -> In h' hs -> hid m h = hid m h' -> h = h').
Proof.
  intros hs hn hl.
  destruct (add_handlers_ok hs manager_new) as (m & e & e1 & _ & _ & e4); auto.
  { cbn; lia. }
  exists m; split; [exact e|]. split; [exact e1|]. split; [exact e4|].
  intros h h' hi hi' heq.
  apply In_nth_error in hi as [i hi]. apply In_nth_error in hi' as [j hj].
  rewrite (e4 i h hi), (e4 j h' hj) in heq.
  assert (i = j) by (cbn in heq; lia). subst j. congruence.
Qed.
Print Assumptions C46_identifiers.

Example C46_example :
  watch_run 0 [7; 8; 10; 11; 11] = Ok [false; false; true; false; true] /\
  exists m, add_handlers [4; 2; 9]%nat manager_new = Ok m /\
            map (hid m) [4; 2; 9; 5]%nat = [0; 1; 2; -1].
Proof. split; [reflexivity|eexists; split; reflexivity]. Qed.
