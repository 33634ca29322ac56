(** Sensor handlers and the timing accumulator.  Definitions only.

    Integers of C type [int] are in [Z]; signed overflow is undefined behaviour.
    Heights and durations are real numbers (no rounding). *)

From Coq Require Import Reals ZArith List Bool.
From Verif Require Import Outcome.
Import ListNotations.
Open Scope Z_scope.

Definition int_max : Z := 2147483647.

(** [static_cast<int>] of an unsigned value: two's complement wrap-around. *)
Definition to_int (z : Z) : Z :=
  let m := z mod 4294967296 in if m <=? int_max then m else m - 4294967296.

(** [x + 1] on int. *)
Definition inc (x : Z) : res Z := if x =? int_max then UB else Ok (x + 1).

(** ** SensorHandler::SequenceWatchDog, msf_sensorhandler.h lines 43-50.
    Argument: [lastseq_] (starts as 0, line 57); result: whether the warning is
    printed and the new [lastseq_]. *)
Definition watch_dog (lastseq seq : Z) : res (bool * Z) :=
  let* expected := inc lastseq in
  Ok (negb (to_int seq =? expected) && negb (lastseq =? 0), to_int seq).

Fixpoint watch_run (lastseq : Z) (seqs : list Z) : res (list bool) :=
  match seqs with
  | [] => Ok []
  | s :: r => let* (w, last) := watch_dog lastseq s in
              let* ws := watch_run last r in Ok (w :: ws)
  end.

(** ** MSF_SensorManager::AddHandler, msf_sensormanager.h lines 75-78; the counter
    starts at 0 (msf_sensormanager_inl.h line 26).  Handlers are named by [nat]; their
    sensorID field is the map [hid], -1 (INVALID_ID, msf_types.h) before. *)
Record manager := Manager { next_id : Z; handlers : list nat; hid : nat -> Z }.
Definition manager_new : manager := Manager 0 [] (fun _ => -1).
Definition add_handler (h : nat) (m : manager) : res manager :=
  let* n := inc (next_id m) in
  Ok (Manager n (handlers m ++ [h])
              (fun x => if Nat.eqb x h then next_id m else hid m x)).
Fixpoint add_handlers (hs : list nat) (m : manager) : res manager :=
  match hs with
  | [] => Ok m
  | h :: r => let* m' := add_handler h m in add_handlers r m'
  end.

(** ** PoseSensorHandler::ProcessPoseMeasurement, throttling,
    pose_sensorhandler.hpp lines 147-159.  Times in nanoseconds; [min_dt] is the
    parameter pose_measurement_minimum_dt (default 0.05 s); the previous stamp starts
    at 0 (line 35).  Result: accepted or dropped, and the new previous stamp. *)
Definition epsilon : Z := 1000000.
Definition throttle (min_dt prev now : Z) : bool * Z :=
  if now - prev <=? min_dt - epsilon then (false, prev) else (true, now).
(** The stamps handed on, for a sequence of messages. *)
Fixpoint throttle_run (min_dt prev : Z) (stamps : list Z) : list Z :=
  match stamps with
  | [] => []
  | t :: r => let '(ok, prev') := throttle min_dt prev t in
              if ok then t :: throttle_run min_dt prev' r else throttle_run min_dt prev' r
  end.

(** ** PressureSensorHandler::MeasurementCallback, pressure_sensorhandler.hpp lines
    57-90.  [memcpy(heightbuff, heightbuff + 1, 9 * sizeof(double))] (line 82) copies
    between overlapping regions, which the C standard leaves undefined; [overlap_ub]
    chooses between undefined and an ascending copy.  A message is its sequence number
    and [point.z] (pressure_measurement.h line 47).  Result: the measurement height handed
    to the core, if any. *)
Record pressure := Pressure { heightbuff : list R; z_average : R }.
Definition heightbuffsize : nat := 10.
(** [memset] in the constructor, line 49; [z_average_p] starts uninitialised (0 here). *)
Definition pressure_new : pressure := Pressure (repeat 0%R heightbuffsize) 0%R.
Definition sumR (l : list R) : R := fold_left Rplus l 0%R.
Definition pressure_step (overlap_ub : bool) (p : pressure) (msg : Z * R)
  : res (option R * pressure) :=
  let '(seq, z) := msg in
  if negb (seq mod 10 =? 0) then Ok (None, p)  (* lines 68-71 *)
  else if overlap_ub then UB
  else let buff := skipn 1 (heightbuff p) ++ [z] in  (* lines 82-83 *)
       Ok (Some z, Pressure buff (sumR buff / 10)%R).
Fixpoint pressure_run (overlap_ub : bool) (p : pressure) (msgs : list (Z * R))
  : res (list R * pressure) :=
  match msgs with
  | [] => Ok ([], p)
  | m :: r => let* (out, p') := pressure_step overlap_ub p m in
              let* (outs, p'') := pressure_run overlap_ub p' r in
              Ok (match out with Some z => z :: outs | None => outs end, p'')
  end.

(** ** Accumulator, msf_timing/Timer.h lines 32-112, for T = Total = double and window
    size [N].  [samples_] is uninitialised memory: [None].  [big] and [tiny] are
    numeric_limits<double>::max() and ::min() (the least positive normal number). *)
Section Accumulator.
Variables (N : nat) (big tiny : R).

Record acc := Acc { window_samples : Z; totalsamples : Z; window_sum : R; asum : R;
                    amin : R; amax : R; samples : list (option R) }.

(** lines 35-42 *)
Definition acc_new : acc := Acc 0 0 0%R 0%R big tiny (repeat None N).

Fixpoint upd {A} (l : list A) (i : nat) (x : A) : list A :=
  match l, i with
  | [], _ => []
  | _ :: r, O => x :: r
  | y :: r, S i' => y :: upd r i' x
  end.

(** lines 44-61 *)
Definition acc_add (a : acc) (x : R) : res acc :=
  let* w := inc (window_samples a) in
  let* t := inc (totalsamples a) in
  let mx := if Rlt_dec (amax a) x then x else amax a in
  let mn := if Rlt_dec x (amin a) then x else amin a in
  if window_samples a <? Z.of_nat N
  then Ok (Acc w t (window_sum a + x)%R (asum a + x)%R mn mx
               (upd (samples a) (Z.to_nat (window_samples a)) (Some x)))
  else let i := Z.to_nat (window_samples a mod Z.of_nat N) in
       match nth_error (samples a) i with
       | Some (Some oldest) =>
         Ok (Acc w t (window_sum a + (x - oldest))%R (asum a + x)%R mn mx
                 (upd (samples a) i (Some x)))
       | _ => UB  (* reads uninitialised memory *)
       end.

Fixpoint acc_run (a : acc) (xs : list R) : res acc :=
  match xs with [] => Ok a | x :: r => let* a' := acc_add a x in acc_run a' r end.

(** lines 63-85; a division by zero gives not-a-number ([None]) *)
Definition acc_mean (a : acc) : option R :=
  if totalsamples a =? 0 then None else Some (asum a / IZR (totalsamples a))%R.
Definition window (a : acc) : Z := Z.min (window_samples a) (Z.of_nat N).
Definition rolling_mean (a : acc) : option R :=
  if window a =? 0 then None else Some (window_sum a / IZR (window a))%R.

(** LazyVariance, lines 87-99 *)
Fixpoint sum_sq (mean : R) (l : list (option R)) : option R :=
  match l with
  | [] => Some 0%R
  | Some x :: r => match sum_sq mean r with
                   | Some s => Some ((x - mean) * (x - mean) + s)%R
                   | None => None
                   end
  | None :: _ => None
  end.
Definition lazy_variance (a : acc) : option R :=
  if window_samples a =? 0 then Some 0%R
  else match rolling_mean a with
       | Some mean => match sum_sq mean (firstn (Z.to_nat (window a)) (samples a)) with
                      | Some v => Some (v / IZR (window a))%R
                      | None => None
                      end
       | None => None
       end.
End Accumulator.
