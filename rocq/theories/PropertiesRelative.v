(** C64: relative measurements in the filter core. *)

From Coq Require Import ZArith List Bool Lia ZifyBool ZifyNat.
From Verif Require Import Outcome SortedContainer SortedContainerSpec SortedContainerProofs
     Core CoreBasics CoreSafety CoreExamples PropertiesCore Previous PropertiesPrevious
     Relative RelativeProofs.
Import ListNotations.
Open Scope Z_scope.

(** Without relative measurements nothing changes: the extended machine does what
    Core.v does, call by call, so everything proved of Core.v is about it too. *)
Definition absolute_call {O : ops} (R : rel_ops O) (k : call O) : Prop :=
  match k with CMeas _ m => r_relative R m = false | _ => True end.

Theorem C64_conservative : forall (O : ops) (R : rel_ops O) d g (l : list (call O)),
  Forall (absolute_call R) l ->
  match rrun O R d (rcore_new O R g) l with
  | Ok (c, ev) => run O d (core_new O g) l = Ok (base c, ev)
  | UB => run O d (core_new O g) l = UB
  | Abort => run O d (core_new O g) l = Abort
  end.
Proof.
  intros O R d g l H. pose proof (rrun_forget_new O R d l g H) as E. unfold forget in E.
  destruct (rrun O R d (rcore_new O R g) l) as [[c ev]| |]; cbn [bind] in E; symmetry; exact E.
Qed.
Print Assumptions C64_conservative.

(** No undefined iterator use with relative measurements either, in the envelope of
    C15.  The second query of a measurement cannot remove the measurement itself,
    and the loop over the transitions ends because the state at the previous
    measurement is never after the one at the measurement. *)
Definition C64_safe_full : Prop := forall (O : ops) (R : rel_ops O) d g (l : list (call O)),
  (forall n, (0 < n)%nat -> d n <> DecUB) ->
  exists c ev, rrun O R d (rcore_new O R g) l = Ok (c, ev).

Theorem C64_safe_partial : forall (O : ops) (R : rel_ops O) d imu g (l : list (call O)),
  (forall n, (0 < n)%nat -> d n <> DecUB) ->
  radmissible_run O R d imu (rcore_new O R g) l ->
  exists c ev, rrun O R d (rcore_new O R g) l = Ok (c, ev).
Proof.
  intros O R d imu g l Hd Ha.
  destruct (rrun_safe O R d Hd l imu _ (rcore_new_safe O R imu g) Ha) as (c & ev & H & _). eauto.
Qed.
Print Assumptions C64_safe_partial.

(** What a relative measurement [m] at [tm] is applied with, once its state ([ts])
    has been found: the latest earlier measurement of the same sensor, a state
    within 0.1 s of that and not after [ts], the present content of the state at
    [ts], and the product, in buffer order, of the transitions stored in the states
    from [told] up to but excluding [ts].  Otherwise the state is left as it is. *)
Definition product {O : ops} (R : rel_ops O) (l : list (Tr R)) : Tr R :=
  fold_left (tr_mul R) l (tr_id R).

Definition inputs_right {O : ops} (R : rel_ops O) d (c1 : rcore O R) tm m ts (c2 : rcore O R) : Prop :=
  exists tp mp c1' told sold snew reached v P g,
    previous_of (r_sid R) (meas (base c1)) tm (r_sid R m) (tp, mp) /\ r_pose R mp = true /\
    rGetClosestState O R d c1 tp = Ok (c1', Some (told, sold)) /\
    10 * Z.abs (told - tp) <= second /\ told <= ts /\
    (forall s', In (ts, s') (states (base c1')) -> s' = snew) /\
    apply_rel R mp m (glob (base c1')) (s_val sold) (s_cov sold)
      (product R (map (trs c1') (filter (fun k => (told <=? k) && (k <? ts))
                                        (map fst (states (base c1'))))))
      (s_val snew) (s_cov snew) = (reached, v, P, g) /\
    states (base c2) = upd_key O ts (mkst (s_acc snew) (s_gyr snew) v P) (states (base c1')) /\
    glob (base c2) = g /\ time_P (base c2) = if reached then ts else time_P (base c1').

Theorem C64_inputs : forall (O : ops) (R : rel_ops O) d (c : rcore O R) tm m c1 ts s c2,
  (forall n, (0 < n)%nat -> d n <> DecUB) ->
  time_sorted (states (base c)) -> states (base c) <> [] ->
  rGetClosestState O R d c tm = Ok (c1, Some (ts, s)) ->
  time_sorted (meas (base c1)) -> occupied (meas (base c1)) tm -> occupied (states (base c1)) ts ->
  r_relative R m = true -> rapply O R d c1 tm m ts s = Ok c2 ->
  c2 = c1 \/ (exists tp os, rGetClosestState O R d c1 tp = Ok (c2, os)) \/
  inputs_right R d c1 tm m ts c2.
Proof.
  intros O R d c tm m c1 ts s c2 Hd Hs Hne Hq Hms Hom Hots Hrel H.
  destruct (rapply_inputs O R d Hd c tm m c1 ts s c2 Hs Hne Hq Hms Hom Hots Hrel H) as (r & _ & Hr).
  destruct r as [[tp mp]|]; [|auto].
  destruct Hr as (Hin & Hlt & Hid & Hmax & Hr).
  destruct (tp =? INVALID_TIME); cbn [orb] in Hr; [auto|].
  destruct (r_pose R mp) eqn:Hpose; cbn [negb] in Hr; [|auto].
  destruct Hr as (c1' & os & Hc1' & Hr).
  destruct os as [[told sold]|]; [|subst c1'; eauto].
  destruct (told =? INVALID_TIME); [subst c1'; eauto|].
  destruct Hr as (Hcl & Hle & snew & Hsnew & Hr). right. right.
  match type of Hr with match ?x with _ => _ end => destruct x as [[[reached v] P] g] eqn:Ea end.
  destruct Hr as (H1 & H2 & H3).
  exists tp, mp, c1', told, sold, snew, reached, v, P, g.
  split; [repeat split; assumption|]. split; [exact Hpose|]. split; [exact Hc1'|].
  split; [unfold thr_closest, second in *; lia|]. split; [exact Hle|]. split; [exact Hsnew|].
  split; [exact Ea|]. auto.
Qed.
Print Assumptions C64_inputs.

(** The first measurement of a sensor changes nothing. *)
Theorem C64_first : forall (O : ops) (R : rel_ops O) d (c : rcore O R) tm m ts s,
  (forall n, (0 < n)%nat -> d n <> DecUB) ->
  time_sorted (meas (base c)) -> occupied (meas (base c)) tm -> r_relative R m = true ->
  (forall e, In e (meas (base c)) -> fst e < tm -> r_sid R (snd e) <> r_sid R m) ->
  rapply O R d c tm m ts s = Ok c.
Proof.
  intros O R d c tm m ts s Hd Hms [mm Hmm] Hrel Hno.
  assert (meas (base c) <> []) as Hne by (intros E; rewrite E in Hmm; destruct Hmm).
  assert (d (length (meas (base c))) <> DecUB) as Hdu.
  { apply Hd. destruct (meas (base c)); [congruence|cbn; lia]. }
  destruct (PreviousProofs.previous_found (r_sid R) d (meas (base c)) tm (r_sid R m) mm Hms Hmm Hdu)
    as (r & Hr & Hspec). cbv zeta in Hspec.
  unfold rapply. rewrite Hrel. cbn [negb]. rewrite Hr. cbn [bind].
  destruct r as [e|]; [|reflexivity]. exfalso.
  destruct Hspec as (j & _ & Hj & Hl & Hid & _). apply (Hno e); auto. eapply nth_error_In; eauto.
Qed.
Print Assumptions C64_first.

(** ** An instance that records durations *)

(** Ids of a hundred and more are relative; the last digit is the sensor.  The
    transition over [dt] is [dt] itself, and an update logs what it accumulated, in
    ms. *)
Definition dur_ops : rel_ops log_ops := {|
  r_sid := fun m : Meas log_ops => lm_id m mod 10;
  r_relative := fun m : Meas log_ops => 100 <=? lm_id m;
  r_pose := fun _ => true;
  Tr := Z;
  tr_id := 0;
  tr_mul := Z.add;
  trans := fun dt _ _ _ => dt;
  apply_rel := fun _ _ (g : Glob log_ops) _ _ F (v : Val log_ops) (P : Cov log_ops) =>
    (true, (v ++ [F / ms] : Val log_ops), P, g)
|}.

Definition rfinal (l : list (call log_ops)) :=
  match rrun log_ops dur_ops ex_d (rcore_new log_ops dur_ops tt) l with
  | Ok (c, _) => Some (map (fun e => (fst e / ms, s_val (snd e))) (states (base c)))
  | _ => None
  end.

Fixpoint radm_check (c : rcore log_ops dur_ops) (l : list (call log_ops)) : bool :=
  match l with
  | [] => true
  | k :: r => adm_check log_ops (base c) k &&
              match rstep log_ops dur_ops ex_d c k with Ok (c', _) => radm_check c' r | _ => true end
  end.

Lemma radm_check_ok : forall l c, radm_check c l = true -> radmissible_run log_ops dur_ops ex_d true c l.
Proof.
  induction l as [|k r IH]; intros c H; cbn in H |- *; [exact I|].
  apply andb_prop in H as [H1 H2]. split; [apply adm_check_ok; exact H1|].
  intros c' ev E. rewrite E in H2. apply IH. exact H2.
Qed.

(** One absolute and three relative measurements: the first relative one has no
    predecessor, the second spans 8 ms, the third 12 ms from an interpolated state.
    Without the absolute one, the second does not find the first (C63). *)
Definition rel_run : list (call log_ops) :=
  warm ++ [cM 10100 2; cM 10200 101; cM 10280 101; cM 10400 101].

Example C64_ex :
  radmissible_run log_ops dur_ops ex_d true (rcore_new log_ops dur_ops tt) rel_run /\
  rfinal rel_run =
    Some [(1000, []); (1010, [2]); (1020, [2]); (1028, [2; 8]); (1030, [2; 8]); (1040, [2; 8; 12])] /\
  rfinal (warm ++ [cM 10200 101; cM 10280 101]) =
    Some [(1000, []); (1010, []); (1020, []); (1028, []); (1030, []); (1040, [])].
Proof. split; [apply radm_check_ok; eval_refl|]. split; eval_refl. Qed.

(** The accumulated transition should be the one from the old state to the new:
    with [dur] the duration of a transition, it should last [ts - told].  It does
    not when the old state is interpolated for the occasion: the new state's
    transition is still the identity, and that of the following ones is not
    computed again. *)
Definition additive {O : ops} (R : rel_ops O) (dur : Tr R -> Z) : Prop :=
  dur (tr_id R) = 0 /\ (forall a b, dur (tr_mul R a b) = dur a + dur b) /\
  (forall dt a g v, dur (trans R dt a g v) = dt).

(** The inputs of the relative update by measurement [m] at [tm] when it arrives in [c]. *)
Definition arrives {O : ops} (R : rel_ops O) d (c : rcore O R) tm m told ts F : Prop :=
  exists c1 s tp mp c1' sold,
    rGetClosestState O R d (mkr (set_meas O (base c) (fst (Insert (meas (base c)) tm m))) (trs c)) tm
      = Ok (c1, Some (ts, s)) /\
    GetPreviousMeasurement (r_sid R) d (meas (base c1)) tm (r_sid R m) = Ok (Some (tp, mp)) /\
    rGetClosestState O R d c1 tp = Ok (c1', Some (told, sold)) /\
    GetAccumulated O R c1' told ts = Ok F.

Definition probe (c : rcore log_ops dur_ops) tm (m : Meas log_ops) : option (Z * Z * Z) :=
  match rGetClosestState log_ops dur_ops ex_d
          (mkr (set_meas log_ops (base c) (fst (Insert (meas (base c)) tm m))) (trs c)) tm with
  | Ok (c1, Some (ts, s)) =>
      match GetPreviousMeasurement (r_sid dur_ops) ex_d (meas (base c1)) tm (r_sid dur_ops m) with
      | Ok (Some (tp, mp)) =>
          match rGetClosestState log_ops dur_ops ex_d c1 tp with
          | Ok (c1', Some (told, sold)) =>
              match GetAccumulated log_ops dur_ops c1' told ts with
              | Ok F => Some (told, ts, F)
              | _ => None
              end
          | _ => None
          end
      | _ => None
      end
  | _ => None
  end.

Lemma probe_ok : forall c tm m told ts F, probe c tm m = Some (told, ts, F) ->
  arrives dur_ops ex_d c tm m told ts F.
Proof.
  intros c tm m told ts F H. unfold probe in H.
  destruct (rGetClosestState _ _ _ _ tm) as [[c1 [[ts' s]|]]| |] eqn:E1; try discriminate.
  destruct (GetPreviousMeasurement _ _ _ _ _) as [[[tp mp]|]| |] eqn:E2; try discriminate.
  destruct (rGetClosestState _ _ _ c1 tp) as [[c1' [[told' sold]|]]| |] eqn:E3; try discriminate.
  destruct (GetAccumulated _ _ _ _ _) as [F'| |] eqn:E4; try discriminate.
  injection H as -> -> ->. exists c1, s, tp, mp, c1', sold. auto.
Qed.

Definition rstate (l : list (call log_ops)) : option (rcore log_ops dur_ops) :=
  match rrun log_ops dur_ops ex_d (rcore_new log_ops dur_ops tt) l with
  | Ok (c, _) => Some c | _ => None end.
Definition probed l tm m := match rstate l with Some c => probe c tm m | None => None end.

Lemma probed_ok : forall l tm m told ts F, probed l tm m = Some (told, ts, F) ->
  exists c ev, rrun log_ops dur_ops ex_d (rcore_new log_ops dur_ops tt) l = Ok (c, ev) /\
               arrives dur_ops ex_d c tm m told ts F.
Proof.
  intros l tm m told ts F H. unfold probed, rstate in H.
  destruct (rrun _ _ _ _ l) as [[c ev]| |]; try discriminate.
  exists c, ev. split; [reflexivity|]. apply probe_ok. exact H.
Qed.

(** No states for a quarter of a second.  The measurement in the middle finds no
    state, so the next one of the sensor interpolates the state there. *)
Definition gap_run : list (call log_ops) :=
  warm ++ [cU 1300; cM 10100 2; cM 10200 2; cM 11700 101].

Definition C64_span_full : Prop :=
  forall (O : ops) (R : rel_ops O) d imu g (dur : Tr R -> Z) l c ev tm m told ts F,
  (forall n, (0 < n)%nat -> d n <> DecUB) -> additive R dur ->
  radmissible_run O R d imu (rcore_new O R g) (l ++ [CMeas tm m]) ->
  rrun O R d (rcore_new O R g) l = Ok (c, ev) -> r_relative R m = true ->
  arrives R d c tm m told ts F -> dur F = ts - told.

Theorem C64_span_refuted :
  exists (O : ops) (R : rel_ops O) d g (dur : Tr R -> Z) l c ev tm m told ts F,
  (forall n, (0 < n)%nat -> d n <> DecUB) /\ additive R dur /\
  radmissible_run O R d true (rcore_new O R g) (l ++ [CMeas tm m]) /\
  rrun O R d (rcore_new O R g) l = Ok (c, ev) /\ r_relative R m = true /\
  arrives R d c tm m told ts F /\ ts - told = 60 * ms /\ dur F = 0.
Proof.
  destruct (probed_ok gap_run (1230 * ms) {| lm_id := 101; lm_accept := true |}
              (1170 * ms) (1230 * ms) 0) as (c & ev & E & H); [eval_refl|].
  exists log_ops, dur_ops, ex_d, tt, (fun x : Z => x), gap_run, c, ev, (1230 * ms),
    {| lm_id := 101; lm_accept := true |}, (1170 * ms), (1230 * ms), 0.
  split; [intros [|[|[|n]]] Hn; [lia|discriminate..]|].
  split; [repeat split|]. split; [apply radm_check_ok; eval_refl|].
  split; [exact E|]. split; [reflexivity|]. split; [exact H|]. split; reflexivity.
Qed.
Print Assumptions C64_span_refuted.

(** Ordinarily the state is there, and the transition lasts as long as it should. *)
Example C64_span_ex :
  probed (warm ++ [cM 10100 2; cM 10200 101; cM 10280 101]) (1040 * ms)
         {| lm_id := 101; lm_accept := true |} = Some (1028 * ms, 1040 * ms, 12 * ms).
Proof. eval_refl. Qed.

(** The full statement of safety fails as for C15: two IMU messages long after the
    initialisation suffice. *)
Theorem C64_safe_refuted : ~ C64_safe_full.
Proof.
  intros H.
  destruct (H log_ops dur_ops ex_d tt
              [@CInit log_ops (1000 * ms) s_init; @CImu log_ops 9 0 (2000 * ms);
               @CImu log_ops 9 0 (2010 * ms)]) as (c & ev & E).
  - intros [|[|[|n]]] Hn; [lia|discriminate..].
  - match type of E with ?x = _ =>
      assert (match x with UB => true | _ => false end = true) as Hub by eval_refl;
      rewrite E in Hub; discriminate Hub end.
Qed.
Print Assumptions C64_safe_refuted.
