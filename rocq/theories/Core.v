(** Model of msf_core::MSF_Core
    (msf_core/include/msf_core/implementation/msf_core_inl.h).  Definitions only.

    The numeric content (state values, covariances, IMU vectors, sensor models)
    is the parameter record [ops]; the machine below is the bookkeeping around
    it: buffers, pending queue, flags, covariance-propagation time, stored
    iterator, static locals.

    Simplifications:
    - [shared_ptr] objects stored in a buffer are addressed by their time;
      an object that is not (any more) in a buffer is a plain value;
    - the iterator [it_last_IMU] kept across calls is [ItAt k] (the node with
      key [k]) or [ItDangling] once that node has been erased;
    - [usleep], logging, timers and the [isfuzzyState_] flag (written, never
      read) are dropped;
    - one thread: the flags cannot change inside [AddMeasurement], so the
      "EKF reset in the meantime" tests at lines 696-697 are omitted;
    - only absolute measurements (those whose [Apply] works on the delayed
      state alone); Relative.v adds the others. *)

From Coq Require Import ZArith List Bool.
From Verif Require Import Outcome SortedContainer.
Import ListNotations.
Open Scope Z_scope.

(** Thresholds of msf_core_inl.h in model time. *)
Definition thr_out_of_order : Z := second / 100.      (* 0.01, line 126 *)
Definition thr_gap_imu : Z := second / 10.            (* 0.1, line 165 *)
Definition thr_gap_ext : Z := 5 * second.             (* 5, line 254 *)
Definition thr_closest : Z := second / 10.            (* 0.1, line 758 *)
Definition thr_interp : Z := second / 1000.           (* 0.001, line 769 *)
Definition buffer_age : Z := 60 * second.             (* 60, line 323 *)
Definition janitor_limit : Z := 100.                  (* line 822 *)

Record ops := {
  Val : Type;                    (* all state variables *)
  Cov : Type;                    (* error state covariance *)
  Acc : Type;                    (* accelerometer reading *)
  Gyr : Type;                    (* gyroscope reading *)
  Meas : Type;                   (* measurement object, without its time *)
  Glob : Type;                   (* memory of the fuzzy tracker *)
  Ext : Type;                    (* externally propagated p, v, q *)
  cov_zero : Cov;                (* P of a fresh state *)
  acc_zero : Acc;
  acc_spike : Acc -> bool;       (* a_m.norm() > 50 *)
  (* lines 787-794; arguments: last, next, (next-last) time, (now-last) time *)
  lerp_acc : Acc -> Acc -> Z -> Z -> Acc;
  lerp_gyr : Gyr -> Gyr -> Z -> Z -> Gyr;
  (* PropagateState: dt, old reading, old value, new reading *)
  propagate : Z -> Acc -> Gyr -> Val -> Acc -> Gyr -> Val;
  (* PredictProcessCovariance: dt, new reading, new value, old covariance *)
  predict_cov : Z -> Acc -> Gyr -> Val -> Cov -> Cov;
  (* lines 270-277: external p, v, q and copied non-propagated states *)
  ext_val : Ext -> Val -> Val;
  numeric : Val -> bool;         (* CheckStateForNumeric *)
  numeric_p : Val -> bool;       (* CheckForNumeric of the position *)
  (* Apply of a measurement on a state: was ApplyCorrection reached, new value,
     new covariance, new tracker memory *)
  apply_meas : Meas -> Glob -> Val -> Cov -> bool * Val * Cov * Glob;
  glob_reset : Glob              (* fuzzyTracker_.Reset() *)
}.

Record st (O : ops) := mkst {
  s_acc : Acc O;
  s_gyr : Gyr O;
  s_val : Val O;
  s_cov : Cov O
}.
Arguments mkst {O}.
Arguments s_acc {O}.
Arguments s_gyr {O}.
Arguments s_val {O}.
Arguments s_cov {O}.

Inductive iter := ItEnd | ItAt (k : Z) | ItDangling.

Record core (O : ops) := mkcore {
  initialized : bool;
  predictionMade : bool;
  states : cont (st O);              (* stateBuffer_ *)
  meas : cont (Meas O);              (* MeasurementBuffer_ *)
  queue : list (Z * Meas O);         (* queueFutureMeasurements_ *)
  time_P : Z;                        (* time_P_propagated *)
  it_last : iter;                    (* it_last_IMU *)
  last_am : Acc O;                   (* static local of ProcessIMU, line 145 *)
  last_am_ext : Acc O;               (* static local, line 246 *)
  janitor : Z;                       (* static local, line 821 *)
  glob : Glob O
}.
Arguments mkcore {O}.
Arguments initialized {O}.
Arguments predictionMade {O}.
Arguments states {O}.
Arguments meas {O}.
Arguments queue {O}.
Arguments time_P {O}.
Arguments it_last {O}.
Arguments last_am {O}.
Arguments last_am_ext {O}.
Arguments janitor {O}.
Arguments glob {O}.

(** Publications: PublishStateAfterPropagation (lines 195, 301) and
    PublishStateAfterUpdate (line 714), with the state handed out. *)
Inductive event (O : ops) :=
| PubPropagation (t : Z) (s : st O)
| PubUpdate (t : Z) (s : st O).
Arguments PubPropagation {O}.
Arguments PubUpdate {O}.

Section Machine.
  Variable O : ops.
  Variable d : nat -> dec_begin.

  Notation st := (st O).
  Notation core := (core O).
  Notation event := (event O).

  (** Field updates. *)
  Definition set_flags (c : core) (i p : bool) : core :=
    mkcore i p (states c) (meas c) (queue c) (time_P c) (it_last c)
           (last_am c) (last_am_ext c) (janitor c) (glob c).
  Definition set_states (c : core) (s : cont st) : core :=
    mkcore (initialized c) (predictionMade c) s (meas c) (queue c) (time_P c) (it_last c)
           (last_am c) (last_am_ext c) (janitor c) (glob c).
  Definition set_meas (c : core) (m : cont (Meas O)) : core :=
    mkcore (initialized c) (predictionMade c) (states c) m (queue c) (time_P c) (it_last c)
           (last_am c) (last_am_ext c) (janitor c) (glob c).
  Definition set_queue (c : core) (q : list (Z * Meas O)) : core :=
    mkcore (initialized c) (predictionMade c) (states c) (meas c) q (time_P c) (it_last c)
           (last_am c) (last_am_ext c) (janitor c) (glob c).
  Definition set_time_P (c : core) (t : Z) : core :=
    mkcore (initialized c) (predictionMade c) (states c) (meas c) (queue c) t (it_last c)
           (last_am c) (last_am_ext c) (janitor c) (glob c).
  Definition set_it (c : core) (i : iter) : core :=
    mkcore (initialized c) (predictionMade c) (states c) (meas c) (queue c) (time_P c) i
           (last_am c) (last_am_ext c) (janitor c) (glob c).
  Definition set_last_am (c : core) (a : Acc O) : core :=
    mkcore (initialized c) (predictionMade c) (states c) (meas c) (queue c) (time_P c) (it_last c)
           a (last_am_ext c) (janitor c) (glob c).
  Definition set_last_am_ext (c : core) (a : Acc O) : core :=
    mkcore (initialized c) (predictionMade c) (states c) (meas c) (queue c) (time_P c) (it_last c)
           (last_am c) a (janitor c) (glob c).
  Definition set_janitor (c : core) (j : Z) : core :=
    mkcore (initialized c) (predictionMade c) (states c) (meas c) (queue c) (time_P c) (it_last c)
           (last_am c) (last_am_ext c) j (glob c).
  Definition set_glob (c : core) (g : Glob O) : core :=
    mkcore (initialized c) (predictionMade c) (states c) (meas c) (queue c) (time_P c) (it_last c)
           (last_am c) (last_am_ext c) (janitor c) g.

  (** MSF_Core ctor, lines 40-51 (static locals at their initial values). *)
  Definition core_new (g : Glob O) : core :=
    mkcore false false [] [] [] 0 ItEnd (acc_zero O) (acc_zero O) 0 g.

  Definition with_cov (s : st) (P : Cov O) : st :=
    mkst (s_acc s) (s_gyr s) (s_val s) P.
  Definition with_val (s : st) (v : Val O) : st :=
    mkst (s_acc s) (s_gyr s) v (s_cov s).

  (** Writing through a stored [shared_ptr]: the object with this key. *)
  Fixpoint upd_key (k : Z) (s : st) (c : cont st) : cont st :=
    match c with
    | [] => []
    | (k', s') :: r => if k' =? k then (k', s) :: r else (k', s') :: upd_key k s r
    end.

  Definition has_key {A : Type} (k : Z) (c : cont A) : bool :=
    (find_pos k c <? length c)%nat.

  (** PropagateState (lines 329-390) writes the value of the new state. *)
  Definition prop_val (told : Z) (sold : st) (t : Z) (s : st) : st :=
    with_val s (propagate O (t - told) (s_acc sold) (s_gyr sold) (s_val sold)
                          (s_acc s) (s_gyr s)).

  (** PredictProcessCovariance, lines 443-543, on two states: new covariance of
      the new state and new time_P_propagated; refused for dt <= 0. *)
  Definition pred_cov (told : Z) (sold : st) (t : Z) (s : st) (tP : Z) : st * Z :=
    if t - told <=? 0 then (s, tP)
    else (with_cov s (predict_cov O (t - told) (s_acc s) (s_gyr s) (s_val s) (s_cov sold)), t).

  (** PropagatePOneStep, lines 393-422. *)
  Definition PropagatePOneStep (c : core) : res core :=
    let p := GetIteratorAtValue (states c) (time_P c) in
    let* q := it_inc (states c) p in
    if (q =? pos_end (states c))%nat then Ok c
    else
      let* eo := it_deref (states c) p in
      let* en := it_deref (states c) q in
      let (sn, tP) := pred_cov (fst eo) (snd eo) (fst en) (snd en) (time_P c) in
      let c' := set_time_P (set_states c (upd_key (fst en) sn (states c))) tP in
      if numeric_p O (s_val sn) then Ok c' else Ok (set_flags c' false false).

  (** The loop of PropPToState (lines 838-841) from the state [itMinus] points
      to, over the states behind it. *)
  Fixpoint propP_loop (told : Z) (sold : st) (rest : cont st) (tt tP : Z) : cont st * Z :=
    match rest with
    | [] => ([], tP)
    | (t, s) :: r =>
        if t <=? tt then
          let (s', tP') := pred_cov told sold t s tP in
          let (r', tP'') := propP_loop t s' r tt tP' in
          ((t, s') :: r', tP'')
        else (rest, tP)
    end.

  (** PropPToState, lines 831-842, for a state with time [tt]. *)
  Definition PropPToState (c : core) (tt : Z) : res core :=
    let p := GetIteratorAtValue (states c) (time_P c) in
    let* q := it_inc (states c) p in
    match skipn p (states c) with
    | [] => UB
    | (told, sold) :: rest =>
        let (rest', tP) := propP_loop told sold rest tt (time_P c) in
        Ok (set_time_P (set_states c (firstn p (states c) ++ (told, sold) :: rest')) tP)
    end.

  (** An iterator after keys have been erased from its container. *)
  Definition it_after_erase (i : iter) (c : cont st) : iter :=
    match i with
    | ItAt k => if has_key k c then i else ItDangling
    | _ => i
    end.

  (** CleanUpBuffers, lines 322-326. *)
  Definition CleanUpBuffers (c : core) : res core :=
    let* s' := ClearOlderThan d (states c) buffer_age in
    let* m' := ClearOlderThan d (meas c) buffer_age in
    Ok (set_it (set_meas (set_states c s') m') (it_after_erase (it_last c) s')).

  (** The interpolation part of GetClosestState, lines 769-811: the core after a
      possible insertion, and the time of the state to use. *)
  Definition interpolate (c : core) (t tclosest : Z) : core * Z :=
    if Z.abs (tclosest - t) >? thr_interp then
      match GetClosestBefore (states c) t, GetClosestAfter (states c) t with
      | Some (tl, sl), Some (tn, sn) =>
          if negb (tl =? INVALID_TIME) && negb (tn =? INVALID_TIME)
             && numeric O (s_val sl) && numeric O (s_val sn) && negb (tl =? tn) then
            let fresh := mkst (lerp_acc O (s_acc sl) (s_acc sn) (tn - tl) (t - tl))
                              (lerp_gyr O (s_gyr sl) (s_gyr sn) (tn - tl) (t - tl))
                              (s_val sl) (cov_zero O) in
            let new := prop_val tl sl t fresh in
            let c' := set_states c (fst (Insert (states c) t new)) in
            (if time_P c >? tl then set_time_P c' tl else c', t)
          else (c, tclosest)
      | _, _ => (c, tclosest)
      end
    else (c, tclosest).

  (** GetClosestState, lines 747-828: [None] is the invalid state. *)
  Definition GetClosestState (c : core) (t : Z) : res (core * option (Z * st)) :=
    let* p := GetIteratorClosest d (states c) t in
    let* e := it_deref (states c) p in
    if (fst e =? INVALID_TIME) || (Z.abs (fst e - t) >? thr_closest) then Ok (c, None)
    else
      let (c1, tc) := interpolate c t (fst e) in
      let* c2 := PropPToState c1 tc in
      match GetValueAt (states c2) tc with
      | None => UB
      | Some (_, s) =>
          if negb (numeric O (s_val s)) then Ok (c2, None)
          else
            let* c3 := if janitor c2 >? janitor_limit
                       then let* c' := CleanUpBuffers c2 in Ok (set_janitor c' 0)
                       else Ok (set_janitor c2 (janitor c2 + 1)) in
            Ok (c3, Some (tc, s))
      end.

  (** The re-propagation loop of AddMeasurement, lines 686-699: [i] is the
      position of [it_curr], [pe] of [it_end]. *)
  Fixpoint reprop (i pe : nat) (told : Z) (sold : st) (rest : cont st) : res (cont st) :=
    if (i =? pe)%nat || (S i =? pe)%nat then Ok rest
    else if told =? INVALID_TIME then Ok rest
    else match rest with
         | [] => UB
         | (t, s) :: r =>
             if t =? INVALID_TIME then Ok rest
             else
               let s' := prop_val told sold t s in
               let* r' := reprop (S i) pe t s' r in
               Ok ((t, s') :: r')
         end.

  (** Apply of a measurement to a state, followed by ApplyCorrection's update of
      time_P_propagated (lines 845-912).  The write reaches the buffer if the
      state object is still in it. *)
  Definition apply_at (c : core) (m : Meas O) (t : Z) (s : st) : core :=
    let '(reached, v, P, g) := apply_meas O m (glob c) (s_val s) (s_cov s) in
    let s' := mkst (s_acc s) (s_gyr s) v P in
    let c' := set_glob (set_states c (upd_key t s' (states c))) g in
    if reached then set_time_P c' t else c'.

  (** Body of the measurement loop, lines 643-702, for the measurement [(tm, m)]
      followed by [rest]. The boolean is [appliedOne]. *)
  Definition meas_body (c : core) (tm : Z) (m : Meas O) (rest : list (Z * Meas O))
             (applied : bool) : res (core * bool) :=
    if tm <=? 0 then Ok (c, applied)
    else
      let* (c1, os) := GetClosestState c tm in
        match os with
        | None => Ok (c1, applied)     (* time is INVALID_TIME <= 0, line 651 *)
        | Some (ts, s) =>
            (* it_meas is used again (Apply or ++): its node may have been
               erased by the clean-up *)
            if negb (has_key tm (meas c1)) then UB
            else if ts <=? 0 then Ok (c1, applied)
            else
              let c2 := apply_at c1 m ts s in
              let pc := GetIteratorAtValue (states c2) ts in
              let* pe := match rest with
                         | [] => Ok (pos_end (states c2))
                         | (tn, _) :: _ =>
                             let p := GetIteratorClosestAfter (states c2) tn in
                             if (p =? pos_end (states c2))%nat then Ok p
                             else it_inc (states c2) p
                         end in
              let* pn := it_inc (states c2) pc in
              match skipn pc (states c2) with
              | [] => UB
              | (told, sold) :: rest_s =>
                  let* rest' := reprop pc pe told sold rest_s in
                  Ok (set_states c2 (firstn pc (states c2) ++ (told, sold) :: rest'), true)
              end
        end.

  Fixpoint meas_loop (c : core) (todo : list (Z * Meas O)) (applied : bool)
    : res (core * bool) :=
    match todo with
    | [] => Ok (c, applied)
    | (tm, m) :: rest =>
        let* (c', a') := meas_body c tm m rest applied in
        meas_loop c' rest a'
    end.

  (** AddMeasurement, lines 604-715. *)
  Definition AddMeasurement (c : core) (tm : Z) (m : Meas O) : res (core * list event) :=
    if negb (initialized c) || negb (predictionMade c) then Ok (c, [])
    else if tm >? otime (GetLast (states c)) then Ok (set_queue c (queue c ++ [(tm, m)]), [])
    else if tm <? otime (GetFirst (states c)) then Ok (c, [])
    else
      let (ms, it) := Insert (meas c) tm m in
      let* (c1, applied) := meas_loop (set_meas c ms) (skipn it ms) false in
      if negb applied then Ok (c1, [])
      else
        let* c2 := PropPToState c1 (otime (GetLast (states c1))) in
        match GetLast (states c2) with
        | None => UB
        | Some (t, s) => Ok (c2, [PubUpdate t s])
        end.

  (** HandlePendingMeasurements, lines 312-319. *)
  Definition HandlePendingMeasurements (c : core) : res (core * list event) :=
    match queue c with
    | [] => Ok (c, [])
    | (tm, m) :: q => AddMeasurement (set_queue c q) tm m
    end.

  (** Reading the state [it_last_IMU] points to, lines 107-111. *)
  Definition deref_last (c : core) (t : Z) : res (core * (Z * st)) :=
    let* i := match it_last c with
              | ItEnd =>
                  let* p := GetIteratorClosestBefore d (states c) t in
                  let* e := it_deref (states c) p in Ok (ItAt (fst e))
              | i => Ok i
              end in
    match i with
    | ItAt k => match GetValueAt (states c) k with
                | Some e => Ok (set_it c i, e)
                | None => UB
                end
    | _ => UB
    end.

  (** The part of ProcessIMU after the new state has been inserted, lines
      192-207. [inserted] tells whether the new object went into the buffer. *)
  Definition imu_finish (c : core) (t : Z) (new : st) (inserted : bool)
    : res (core * list event) :=
    let* c1 := PropagatePOneStep c in
    let pub := if inserted then
                 match GetValueAt (states c1) t with Some (_, s) => s | None => new end
               else new in
    let c2 := if (3 <? Size (states c1))%nat then set_flags c1 (initialized c1) true else c1 in
    let* (c3, ev) := if predictionMade c2 then HandlePendingMeasurements c2 else Ok (c2, []) in
    Ok (c3, PubPropagation t pub :: ev).

  (** ProcessIMU, lines 98-207. *)
  Definition ProcessIMU (c : core) (a : Acc O) (g : Gyr O) (t : Z) : res (core * list event) :=
    if negb (initialized c) then Ok (c, [])
    else
      let* (c0, (tl, sl)) := deref_last c t in
      if tl =? INVALID_TIME then Ok (c0, [])
      else if (t - tl <? - thr_out_of_order) && predictionMade c0
      then Ok (set_flags c0 false false, [])
      else
        let spike := acc_spike O a in
        let a' := if spike then last_am c0 else a in
        let c1 := if spike then c0 else set_last_am c0 (s_acc sl) in
        if negb (predictionMade c1) && (Z.abs (t - tl) >? thr_gap_imu) then
          (* the node it_last_IMU points to is erased *)
          Ok (set_it (set_time_P (set_states c1 (fst (UpdateTime (states c1) tl t))) t)
                     ItDangling, [])
        else
          let new := prop_val tl sl t (mkst a' g (s_val sl) (cov_zero O)) in
          let inserted := negb (has_key t (states c1)) in
          let c2 := set_it (set_states c1 (fst (Insert (states c1) t new))) (ItAt t) in
          imu_finish c2 t new inserted.

  (** ProcessExternallyPropagatedState, lines 210-309.  The numeric test of a
      fresh state's position at line 264 is true, so only
      [is_already_propagated] selects the branch. *)
  Definition ProcessExternallyPropagatedState
             (c : core) (a : Acc O) (g : Gyr O) (x : Ext O) (already : bool) (t : Z)
    : res (core * list event) :=
    if negb (initialized c) then Ok (c, [])
    else
      match GetLast (states c) with
      | None => Ok (c, [])
      | Some (tl, sl) =>
          if tl =? INVALID_TIME then Ok (c, [])
          else
            let spike := acc_spike O a in
            let a' := if spike then last_am_ext c else a in
            let c1 := if spike then c else set_last_am_ext c a in
            if negb (predictionMade c1) && (Z.abs (t - tl) >? thr_gap_ext) then
              let s' := fst (UpdateTime (states c1) tl t) in
              let i' := match it_last c1 with
                        | ItAt k => if k =? tl then ItDangling else ItAt k
                        | i => i
                        end in
              Ok (set_it (set_states c1 s') i', [])
            else
              let new :=
                if already then mkst a' g (ext_val O x (s_val sl)) (cov_zero O)
                else prop_val tl sl t (mkst a' g (s_val sl) (cov_zero O)) in
              let c2 :=
                if predictionMade c1 then c1
                else
                  let i' := match it_last c1 with ItAt _ => ItDangling | i => i end in
                  set_it (set_time_P (set_queue (set_meas (set_states c1 []) []) []) t) i' in
              let new' := if predictionMade c1 then new else with_cov new (s_cov sl) in
              let inserted := negb (has_key t (states c2)) in
              let c3 := set_states c2 (fst (Insert (states c2) t new')) in
              let* c4 := PropagatePOneStep c3 in
              let c5 := set_flags c4 (initialized c4) true in
              let pub := if inserted then
                           match GetValueAt (states c5) t with Some (_, s) => s | None => new' end
                         else new' in
              let* (c6, ev) := HandlePendingMeasurements c5 in
              Ok (c6, PubPropagation t pub :: ev)
      end.

  (** Init, lines 546-601.  [t] and [s] are the time and content the init
      measurement's [Apply] gives to the fresh state.  The assertion at line 577
      forbids time 0. *)
  Definition Init (c : core) (t : Z) (s : st) : res core :=
    if t =? 0 then Abort
    else Ok (mkcore true false [(t, s)] [] [] t (ItAt t)
                    (last_am c) (last_am_ext c) (janitor c) (glob_reset O)).

  (** Calls of the public interface and their execution. *)
  Inductive call :=
  | CInit (t : Z) (s : st)
  | CImu (a : Acc O) (g : Gyr O) (t : Z)
  | CExt (a : Acc O) (g : Gyr O) (x : Ext O) (already : bool) (t : Z)
  | CMeas (t : Z) (m : Meas O).

  Definition step (c : core) (k : call) : res (core * list event) :=
    match k with
    | CInit t s => let* c' := Init c t s in Ok (c', [])
    | CImu a g t => ProcessIMU c a g t
    | CExt a g x b t => ProcessExternallyPropagatedState c a g x b t
    | CMeas t m => AddMeasurement c t m
    end.

  Fixpoint run (c : core) (l : list call) : res (core * list event) :=
    match l with
    | [] => Ok (c, [])
    | k :: r =>
        let* (c', e) := step c k in
        let* (c'', e') := run c' r in
        Ok (c'', e ++ e')
    end.
End Machine.

Arguments CInit {O}.
Arguments CImu {O}.
Arguments CExt {O}.
Arguments CMeas {O}.
