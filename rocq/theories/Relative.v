(** Model of the filter core with relative measurements: Core.v extended by the
    transition matrices kept in the states and by the second branch of
    PoseMeasurement::Apply.  Definitions only.

    Models msf_core/include/msf_core/implementation/msf_core_inl.h (the functions
    of Core.v that write [Fd], and GetAccumulatedStateTransitionStochasticCloning,
    lines 425-440) and msf_updates/include/msf_updates/pose_sensor_handler/
    pose_measurement.h lines 342-456 (relative branch of Apply) with
    msf_measurement_inl.h lines 128-198.

    Simplifications:
    - as in Core.v; in addition the [Fd] of a state is kept beside the buffer in a
      map from stamps ([trs]), entries of absent stamps are meaningless;
    - the residual, the measurement matrices and the update itself are the
      parameter [apply_rel] (standalone in Cov.v and Sensors.v). *)

From Coq Require Import ZArith List Bool.
From Verif Require Import Outcome SortedContainer Core Previous.
Import ListNotations.
Open Scope Z_scope.

Record rel_ops (O : ops) := {
  r_sid : Meas O -> Z;               (* sensorID_ *)
  r_relative : Meas O -> bool;       (* !isabsolute_ *)
  r_pose : Meas O -> bool;           (* dynamic cast to PoseMeasurement succeeds *)
  Tr : Type;                         (* transition matrices *)
  tr_id : Tr;
  tr_mul : Tr -> Tr -> Tr;
  (* Fd, lines 493-518: dt, new reading, new value *)
  trans : Z -> Acc O -> Gyr O -> Val O -> Tr;
  (* previous measurement, measurement, tracker memory, old state, accumulated
     transition, new state: ApplyCorrection reached, new value, covariance, memory *)
  apply_rel : Meas O -> Meas O -> Glob O -> Val O -> Cov O -> Tr -> Val O -> Cov O ->
              bool * Val O * Cov O * Glob O
}.
Arguments r_sid {O}.
Arguments r_relative {O}.
Arguments r_pose {O}.
Arguments Tr {O}.
Arguments tr_id {O}.
Arguments tr_mul {O}.
Arguments trans {O}.
Arguments apply_rel {O}.

Record rcore (O : ops) (R : rel_ops O) := mkr {
  base : core O;
  trs : Z -> Tr R
}.
Arguments mkr {O R}.
Arguments base {O R}.
Arguments trs {O R}.

Section RelMachine.
  Variable O : ops.
  Variable R : rel_ops O.
  Variable d : nat -> dec_begin.
  Notation st := (st O).
  Notation rcore := (rcore O R).

  Definition put (k : Z) (x : Tr R) (f : Z -> Tr R) : Z -> Tr R :=
    fun k' => if k' =? k then x else f k'.

  (** PredictProcessCovariance, lines 443-543, writes [Fd] of the old state
      unless dt <= 0. *)
  Definition pred_tr (told t : Z) (s : st) (f : Z -> Tr R) : Z -> Tr R :=
    if t - told <=? 0 then f
    else put told (trans R (t - told) (s_acc s) (s_gyr s) (s_val s)) f.

  (** PropagatePOneStep, lines 393-422. *)
  Definition rPropagatePOneStep (c : rcore) : res rcore :=
    let b := base c in
    let* b' := PropagatePOneStep O b in
    let p := GetIteratorAtValue (states b) (time_P b) in
    Ok (mkr b' match nth_error (states b) p, nth_error (states b) (S p) with
               | Some (told, _), Some (t, s) => pred_tr told t s (trs c)
               | _, _ => trs c
               end).

  (** The loop of PropPToState, lines 838-841.  Covariances are not needed for
      [Fd], so the loop can be run beside that of Core.v. *)
  Fixpoint propP_trs (told : Z) (rest : cont st) (tt : Z) (f : Z -> Tr R) : Z -> Tr R :=
    match rest with
    | [] => f
    | (t, s) :: r => if t <=? tt then propP_trs t r tt (pred_tr told t s f) else f
    end.

  (** PropPToState, lines 831-842. *)
  Definition rPropPToState (c : rcore) (tt : Z) : res rcore :=
    let b := base c in
    let* b' := PropPToState O b tt in
    Ok (mkr b' match skipn (GetIteratorAtValue (states b) (time_P b)) (states b) with
               | (told, _) :: rest => propP_trs told rest tt (trs c)
               | [] => trs c
               end).

  (** A fresh state has the identity (msf_state.h line 159) once it is in the
      buffer. *)
  Definition fresh_tr (b : core O) (t : Z) (f : Z -> Tr R) : Z -> Tr R :=
    if has_key t (states b) then f else put t (tr_id R) f.

  (** UpdateTime moves a state object to another stamp unless that is taken. *)
  Definition moved_tr (b : core O) (tl t : Z) (f : Z -> Tr R) : Z -> Tr R :=
    if has_key t (states b) then f else put t (f tl) f.

  (** GetClosestState, lines 747-828. *)
  Definition rGetClosestState (c : rcore) (t : Z) : res (rcore * option (Z * st)) :=
    let b := base c in
    let* p := GetIteratorClosest d (states b) t in
    let* e := it_deref (states b) p in
    if (fst e =? INVALID_TIME) || (Z.abs (fst e - t) >? thr_closest) then Ok (c, None)
    else
      let (b1, tc) := interpolate O b t (fst e) in
      let* c2 := rPropPToState
                   (mkr b1 (fresh_tr b tc (trs c))) tc in
      let b2 := base c2 in
      match GetValueAt (states b2) tc with
      | None => UB
      | Some (_, s) =>
          if negb (numeric O (s_val s)) then Ok (c2, None)
          else
            let* b3 := if janitor b2 >? janitor_limit
                       then let* b' := CleanUpBuffers O d b2 in Ok (set_janitor O b' 0)
                       else Ok (set_janitor O b2 (janitor b2 + 1)) in
            Ok (mkr b3 (trs c2), Some (tc, s))
      end.

  (** GetAccumulatedStateTransitionStochasticCloning, lines 425-440: the loop from
      position [i] to position [e]; walking past the last state is undefined. *)
  Fixpoint acc_loop (f : Z -> Tr R) (rest : cont st) (i e : nat) (F : Tr R) : res (Tr R) :=
    if (i =? e)%nat then Ok F
    else match rest with
         | [] => UB
         | (k, _) :: r => acc_loop f r (S i) e (tr_mul R F (f k))
         end.

  Definition GetAccumulated (c : rcore) (told tnew : Z) : res (Tr R) :=
    let s := states (base c) in
    let i := GetIteratorAtValue s told in
    let e := GetIteratorAtValue s tnew in
    acc_loop (trs c) (skipn i s) i e (tr_id R).

  (** Apply of the measurement [m] with time [tm] on the state with time [ts] and
      content [s] (pose_measurement.h lines 342-456; the absolute branch is
      [apply_at] of Core.v).  The measurement object lives in the buffer; the
      second GetClosestState may remove it while its member function runs. *)
  Definition rapply (c : rcore) (tm : Z) (m : Meas O) (ts : Z) (s : st) : res rcore :=
    if negb (r_relative R m) then Ok (mkr (apply_at O (base c) m ts s) (trs c))
    else
      let* om := GetPreviousMeasurement (r_sid R) d (meas (base c)) tm (r_sid R m) in
      match om with
      | None => Ok c
      | Some (tp, mp) =>
          if (tp =? INVALID_TIME) || negb (r_pose R mp) then Ok c
          else
            let* (c1, os) := rGetClosestState c tp in
            if negb (has_key tm (meas (base c1))) then UB
            else
              match os with
              | None => Ok c1
              | Some (told, sold) =>
                  if told =? INVALID_TIME then Ok c1
                  else
                    (* the new state is shared with the buffer: its present content *)
                    let snew := match GetValueAt (states (base c1)) ts with
                                | Some (_, s') => s'
                                | None => s
                                end in
                    let* F := GetAccumulated c1 told ts in
                    let '(reached, v, P, g) :=
                      apply_rel R mp m (glob (base c1)) (s_val sold) (s_cov sold) F
                                (s_val snew) (s_cov snew) in
                    let s' := mkst (s_acc snew) (s_gyr snew) v P in
                    let b' := set_glob O (set_states O (base c1)
                                            (upd_key O ts s' (states (base c1)))) g in
                    Ok (mkr (if reached then set_time_P O b' ts else b') (trs c1))
              end
      end.

  (** Body of the measurement loop, lines 643-702. *)
  Definition rmeas_body (c : rcore) (tm : Z) (m : Meas O) (rest : list (Z * Meas O))
             (applied : bool) : res (rcore * bool) :=
    if tm <=? 0 then Ok (c, applied)
    else
      let* (c1, os) := rGetClosestState c tm in
        match os with
        | None => Ok (c1, applied)
        | Some (ts, s) =>
            if negb (has_key tm (meas (base c1))) then UB
            else if ts <=? 0 then Ok (c1, applied)
            else
              let* c2 := rapply c1 tm m ts s in
              let b2 := base c2 in
              let pc := GetIteratorAtValue (states b2) ts in
              let* pe := match rest with
                         | [] => Ok (pos_end (states b2))
                         | (tn, _) :: _ =>
                             let p := GetIteratorClosestAfter (states b2) tn in
                             if (p =? pos_end (states b2))%nat then Ok p
                             else it_inc (states b2) p
                         end in
              let* pn := it_inc (states b2) pc in
              match skipn pc (states b2) with
              | [] => UB
              | (told, sold) :: rest_s =>
                  let* rest' := reprop O pc pe told sold rest_s in
                  Ok (mkr (set_states O b2 (firstn pc (states b2) ++ (told, sold) :: rest'))
                          (trs c2), true)
              end
        end.

  Fixpoint rmeas_loop (c : rcore) (todo : list (Z * Meas O)) (applied : bool)
    : res (rcore * bool) :=
    match todo with
    | [] => Ok (c, applied)
    | (tm, m) :: rest =>
        let* (c', a') := rmeas_body c tm m rest applied in
        rmeas_loop c' rest a'
    end.

  (** AddMeasurement, lines 604-715. *)
  Definition rAddMeasurement (c : rcore) (tm : Z) (m : Meas O) : res (rcore * list (event O)) :=
    let b := base c in
    if negb (initialized b) || negb (predictionMade b) then Ok (c, [])
    else if tm >? otime (GetLast (states b)) then
      Ok (mkr (set_queue O b (queue b ++ [(tm, m)])) (trs c), [])
    else if tm <? otime (GetFirst (states b)) then Ok (c, [])
    else
      let (ms, it) := Insert (meas b) tm m in
      let* (c1, applied) := rmeas_loop (mkr (set_meas O b ms) (trs c)) (skipn it ms) false in
      if negb applied then Ok (c1, [])
      else
        let* c2 := rPropPToState c1 (otime (GetLast (states (base c1)))) in
        match GetLast (states (base c2)) with
        | None => UB
        | Some (t, s) => Ok (c2, [PubUpdate t s])
        end.

  (** HandlePendingMeasurements, lines 312-319. *)
  Definition rHandlePending (c : rcore) : res (rcore * list (event O)) :=
    match queue (base c) with
    | [] => Ok (c, [])
    | (tm, m) :: q => rAddMeasurement (mkr (set_queue O (base c) q) (trs c)) tm m
    end.

  (** ProcessIMU, lines 98-207. *)
  Definition rProcessIMU (c : rcore) (a : Acc O) (g : Gyr O) (t : Z)
    : res (rcore * list (event O)) :=
    let b := base c in
    if negb (initialized b) then Ok (c, [])
    else
      let* (b0, (tl, sl)) := deref_last O d b t in
      if tl =? INVALID_TIME then Ok (mkr b0 (trs c), [])
      else if (t - tl <? - thr_out_of_order) && predictionMade b0
      then Ok (mkr (set_flags O b0 false false) (trs c), [])
      else
        let spike := acc_spike O a in
        let a' := if spike then last_am b0 else a in
        let b1 := if spike then b0 else set_last_am O b0 (s_acc sl) in
        if negb (predictionMade b1) && (Z.abs (t - tl) >? thr_gap_imu) then
          Ok (mkr (set_it O (set_time_P O (set_states O b1 (fst (UpdateTime (states b1) tl t))) t)
                          ItDangling) (moved_tr b1 tl t (trs c)), [])
        else
          let new := prop_val O tl sl t (mkst a' g (s_val sl) (cov_zero O)) in
          let inserted := negb (has_key t (states b1)) in
          let b2 := set_it O (set_states O b1 (fst (Insert (states b1) t new))) (ItAt t) in
          (* lines 192-207 *)
          let* c3 := rPropagatePOneStep (mkr b2 (fresh_tr b1 t (trs c))) in
          let pub := if inserted then
                       match GetValueAt (states (base c3)) t with Some (_, s) => s | None => new end
                     else new in
          let c4 := if (3 <? Size (states (base c3)))%nat
                    then mkr (set_flags O (base c3) (initialized (base c3)) true) (trs c3)
                    else c3 in
          let* (c5, ev) := if predictionMade (base c4) then rHandlePending c4 else Ok (c4, []) in
          Ok (c5, PubPropagation t pub :: ev).

  (** ProcessExternallyPropagatedState, lines 210-309. *)
  Definition rProcessExt (c : rcore) (a : Acc O) (g : Gyr O) (x : Ext O) (already : bool) (t : Z)
    : res (rcore * list (event O)) :=
    let b := base c in
    if negb (initialized b) then Ok (c, [])
    else
      match GetLast (states b) with
      | None => Ok (c, [])
      | Some (tl, sl) =>
          if tl =? INVALID_TIME then Ok (c, [])
          else
            let spike := acc_spike O a in
            let a' := if spike then last_am_ext b else a in
            let b1 := if spike then b else set_last_am_ext O b a in
            if negb (predictionMade b1) && (Z.abs (t - tl) >? thr_gap_ext) then
              let s' := fst (UpdateTime (states b1) tl t) in
              let i' := match it_last b1 with
                        | ItAt k => if k =? tl then ItDangling else ItAt k
                        | i => i
                        end in
              Ok (mkr (set_it O (set_states O b1 s') i') (moved_tr b1 tl t (trs c)), [])
            else
              let new :=
                if already then mkst a' g (ext_val O x (s_val sl)) (cov_zero O)
                else prop_val O tl sl t (mkst a' g (s_val sl) (cov_zero O)) in
              let b2 :=
                if predictionMade b1 then b1
                else
                  let i' := match it_last b1 with ItAt _ => ItDangling | i => i end in
                  set_it O (set_time_P O (set_queue O (set_meas O (set_states O b1 []) []) []) t) i' in
              let new' := if predictionMade b1 then new else with_cov O new (s_cov sl) in
              let inserted := negb (has_key t (states b2)) in
              let b3 := set_states O b2 (fst (Insert (states b2) t new')) in
              let* c4 := rPropagatePOneStep (mkr b3 (fresh_tr b2 t (trs c))) in
              let c5 := mkr (set_flags O (base c4) (initialized (base c4)) true) (trs c4) in
              let pub := if inserted then
                           match GetValueAt (states (base c5)) t with Some (_, s) => s | None => new' end
                         else new' in
              let* (c6, ev) := rHandlePending c5 in
              Ok (c6, PubPropagation t pub :: ev)
      end.

  Definition rstep (c : rcore) (k : call O) : res (rcore * list (event O)) :=
    match k with
    | CInit t s => let* b := Init O (base c) t s in Ok (mkr b (fun _ => tr_id R), [])
    | CImu a g t => rProcessIMU c a g t
    | CExt a g x b t => rProcessExt c a g x b t
    | CMeas t m => rAddMeasurement c t m
    end.

  Fixpoint rrun (c : rcore) (l : list (call O)) : res (rcore * list (event O)) :=
    match l with
    | [] => Ok (c, [])
    | k :: r =>
        let* (c', e) := rstep c k in
        let* (c'', e') := rrun c' r in
        Ok (c'', e ++ e')
    end.

  Definition rcore_new (g : Glob O) : rcore := mkr (core_new O g) (fun _ => tr_id R).
End RelMachine.
