(** Named timers: msf_timing/src/Timer.cc and msf_timing/include/msf_timing/Timer.h lines
    110-190.  Definitions only.

    The statistics of one timer are the accumulator of Handlers.v.  [std::map] from tags to
    handles is a list of pairs; only look-up by tag, insertion of a missing tag and clearing
    are used.  Time points are nanoseconds (Z).  Timer objects live in a table of the
    program using them: position k is the k-th object constructed, [None] a destroyed
    one. *)

From Coq Require Import Reals ZArith List Bool String.
From Verif Require Import Outcome Handlers.
Import ListNotations.
Open Scope Z_scope.

Section Timers.
(** Window size (50, Timer.h line 114) and limits of double. *)
Variables (N : nat) (big tiny : R).

(** Timer.h lines 187-189; Timer.cc lines 38-39 *)
Record timing := Timing { timers : list acc; tag_map : list (string * nat); max_tag : nat }.
Definition timing_new : timing := Timing [] [] 0.

(** [tagMap_.find(tag)] *)
Fixpoint find_tag (tag : string) (m : list (string * nat)) : option nat :=
  match m with
  | [] => None
  | (t, h) :: m' => if String.eqb t tag then Some h else find_tag tag m'
  end.

(** GetHandle, Timer.cc lines 44-59 *)
Definition get_handle (tag : string) (t : timing) : nat * timing :=
  match find_tag tag (tag_map t) with
  | Some h => (h, t)
  | None =>
    let handle := List.length (timers t) in
    (handle, Timing (timers t ++ [acc_new N big tiny]) ((tag, handle) :: tag_map t)
                    (Nat.max (max_tag t) (String.length tag)))
  end.

(** GetTag, lines 61-71 (handles are unique, so the order of the search does not matter) *)
Fixpoint tag_of (handle : nat) (m : list (string * nat)) : string :=
  match m with
  | [] => EmptyString
  | (t, h) :: m' => if Nat.eqb h handle then t else tag_of handle m'
  end.
Definition get_tag (handle : nat) (t : timing) : string := tag_of handle (tag_map t).

(** AddTime, lines 113-115; an index outside of the vector is undefined *)
Definition add_time (handle : nat) (seconds : R) (t : timing) : res timing :=
  match nth_error (timers t) handle with
  | Some a => let* a' := acc_add N a seconds in
              Ok (Timing (upd (timers t) handle a') (tag_map t) (max_tag t))
  | None => UB
  end.

(** Queries by handle, lines 117-160: the accumulator read. *)
Definition accumulator (handle : nat) (t : timing) : res acc :=
  match nth_error (timers t) handle with Some a => Ok a | None => UB end.
(** Queries by tag: create the tag if it is missing. *)
Definition query (tag : string) (t : timing) : res (acc * timing) :=
  let '(h, t') := get_handle tag t in
  let* a := accumulator h t' in Ok (a, t').

(** Reset, lines 228-230: forgets the tags, keeps the statistics. *)
Definition reset (t : timing) : timing := Timing (timers t) [] (max_tag t).

(** ** Timer objects, lines 73-111.  Constructed from a tag, as everywhere in the
    repository; the constructor from a handle is left out. *)

Record timer := Timer { started_at : Z; is_timing : bool; handle_of : nat }.

(** Lines 81-86 and 93-96.  A time point not yet assigned is the epoch of the clock. *)
Definition timer_start (now : Z) (x : timer) : timer := Timer now true (handle_of x).
Definition timer_new (tag : string) (stopped : bool) (now : Z) (t : timing) : timer * timing :=
  let '(h, t') := get_handle tag t in
  let x := Timer 0 false h in
  (if stopped then x else timer_start now x, t').

(** Lines 98-107 *)
Definition seconds (ns : Z) : R := (IZR ns / 1000000000)%R.
Definition timer_stop (now : Z) (x : timer) (t : timing) : res (timer * timing) :=
  let* t' := add_time (handle_of x) (seconds (now - started_at x)) t in
  Ok (Timer (started_at x) false (handle_of x), t').

(** Lines 88-91 *)
Definition timer_destroy (now : Z) (x : timer) (t : timing) : res timing :=
  if is_timing x then let* r := timer_stop now x t in Ok (snd r) else Ok t.

(** ** A program that uses timers *)
Inductive event :=
| New (tag : string) (stopped : bool) (now : Z)
| Start (i : nat) (now : Z)
| Stop (i : nat) (now : Z)
| Destroy (i : nat) (now : Z)
| Query (tag : string)
| Reset.

Record prog := Prog { objects : list (option timer); the_timing : timing }.

Definition object (p : prog) (i : nat) : res timer :=
  match nth_error (objects p) i with Some (Some x) => Ok x | _ => UB end.

Definition step (p : prog) (e : event) : res prog :=
  match e with
  | New tag stopped now =>
    let '(x, t) := timer_new tag stopped now (the_timing p) in Ok (Prog (objects p ++ [Some x]) t)
  | Start i now =>
    let* x := object p i in Ok (Prog (upd (objects p) i (Some (timer_start now x))) (the_timing p))
  | Stop i now =>
    let* x := object p i in
    let* r := timer_stop now x (the_timing p) in Ok (Prog (upd (objects p) i (Some (fst r))) (snd r))
  | Destroy i now =>
    let* x := object p i in
    let* t := timer_destroy now x (the_timing p) in Ok (Prog (upd (objects p) i None) t)
  | Query tag => let* r := query tag (the_timing p) in Ok (Prog (objects p) (snd r))
  | Reset => Ok (Prog (objects p) (reset (the_timing p)))
  end.

Fixpoint run (p : prog) (es : list event) : res prog :=
  match es with [] => Ok p | e :: r => let* p' := step p e in run p' r end.
Definition prog_new : prog := Prog [] timing_new.
End Timers.

(** SecondsToTimeString, lines 162-185, without the macros SM_TIMING_SHOW_HOURS and
    SM_TIMING_SHOW_MINUTES (nothing defines them): the number that is printed with six
    decimals, [fmod(seconds, 60)]. *)
Definition fmod (x y : R) : R :=
  let q := (x / y)%R in
  let n := if Rle_dec 0 q then Int_part q else (- Int_part (- q))%Z in
  (x - IZR n * y)%R.
Definition printed_seconds (s : R) : R := fmod s 60.
