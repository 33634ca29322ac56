(** The logging macros used without ROS, msf_core/include/msf_core/msf_macros.h lines 88-178.
    Definitions only.  The static variables of a macro belong to the place where it is used; the
    INFO, WARN and ERROR variants differ in the text printed only.  Simplification: the rate is a
    whole number of nanoseconds; the seconds, integers below 2^53, and their sum with the rate are
    exact. *)

From Coq Require Import ZArith List Bool.
Import ListNotations.
Open Scope Z_scope.

Definition second : Z := 1000000000.
(** [duration_cast<seconds>(now.time_since_epoch()).count()]: rounds towards zero *)
Definition count (now : Z) : Z := Z.quot now second.

(** [.._ONCE], [.._THROTTLE(rate, x)], [.._COND(cond, x)] *)
Inductive macro := Once | Throttle (rate : Z) | Cond (c : bool).
(** the use at a place, at a time of the system clock *)
Record use := Use { place : nat; what : macro; now : Z }.
(** [__log_stream_once__hit__] and [__log_stream_throttle__last_hit__] of every place *)
Record statics := Statics { hit : nat -> bool; last_hit : nat -> Z }.
Definition initial : statics := Statics (fun _ => false) (fun _ => 0).
Definition set {A} (f : nat -> A) (n : nat) (x : A) : nat -> A := fun m => if Nat.eqb m n then x else f m.

(** Does the use print, and the static variables afterwards. *)
Definition prints (s : statics) (u : use) : bool :=
  match what u with
  | Once => negb (hit s (place u))
  | Throttle rate => last_hit s (place u) * second + rate <=? count (now u) * second
  | Cond c => c
  end.
Definition after (s : statics) (u : use) : statics :=
  if prints s u then
    match what u with
    | Once => Statics (set (hit s) (place u) true) (last_hit s)
    | Throttle _ => Statics (hit s) (set (last_hit s) (place u) (count (now u)))
    | Cond _ => s
    end
  else s.

(** A run of the program: for every use whether it prints. *)
Fixpoint run (s : statics) (us : list use) : list bool :=
  match us with
  | [] => []
  | u :: r => prints s u :: run (after s u) r
  end.
