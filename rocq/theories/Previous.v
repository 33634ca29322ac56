(** Model of MSF_Core::GetPreviousMeasurement
    (msf_core/include/msf_core/implementation/msf_core_inl.h lines 719-739).
    Definitions only.

    [A] is a measurement object without its time, [sid] its [sensorID_].  A
    [None] result is the invalid object (line 725 or 736); its time is
    INVALID_TIME, which is what the caller tests (pose_measurement.h line 347).
    Iterators are positions, as in SortedContainer.v. *)

From Coq Require Import ZArith List Bool.
From Verif Require Import Outcome SortedContainer.
Import ListNotations.
Open Scope Z_scope.

Section Previous.
  Context {A : Type}.
  Variable sid : A -> Z.
  Variable d : nat -> dec_begin.

  (** The loop, lines 730-738, with the iterator at position [p]; [bb] is
      [itbeforebegin].  The loop goes on while both the time and the sensor
      differ. *)
  Fixpoint prev_loop (c : cont A) (t id : Z) (bb p : nat) : res (option (Z * A)) :=
    if (p =? bb)%nat then Ok None
    else
      let* e := it_deref c p in
      if negb (fst e =? t) && negb (sid (snd e) =? id) then
        match p with
        | O => let* q := it_dec d c O in
               (* the same decrement that gave [bb], so the next test stops *)
               if (q =? bb)%nat then Ok None else UB
        | S q => prev_loop c t id bb q
        end
      else Ok (Some e).

  (** GetPreviousMeasurement, lines 719-739. *)
  Definition GetPreviousMeasurement (c : cont A) (t id : Z) : res (option (Z * A)) :=
    let it := GetIteratorAtValue c t in
    let* e := it_deref c it in
    if negb (fst e =? t) then Ok None
    else
      let* p := it_dec d c it in
      let* bb := GetIteratorBeforeBegin d c in
      prev_loop c t id bb p.
End Previous.
