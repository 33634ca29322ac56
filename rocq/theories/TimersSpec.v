(** What timers are supposed to measure, read off the list of events alone. *)

From Coq Require Import Reals ZArith List Bool String.
From Verif Require Import Timers.
Import ListNotations.
Open Scope Z_scope.

(** What is known of an object: its tag, the resets seen before it was made, the time it was
    last started (0: never), and whether it is running. *)
Record known := Known { k_tag : string; k_resets : nat; k_start : Z; k_running : bool }.

(** Sheet: number of resets, objects (destroyed ones are [None]), and the measured times: tag,
    number of resets when the object was made, seconds. *)
Record sheet := Sheet { resets : nat; known_objects : list (option known); measured : list (string * nat * R) }.

Definition set_nth {A} (l : list A) (i : nat) (x : A) : list A := firstn i l ++ x :: skipn (S i) l.
Definition duration (now start : Z) : R := (IZR (now - start) / 1000000000)%R.

(** [None]: an object is used that does not exist. *)
Definition note (s : sheet) (e : event) : option sheet :=
  match e with
  | New tag stopped now =>
    Some (Sheet (resets s) (known_objects s ++ [Some (Known tag (resets s) (if stopped then 0 else now) (negb stopped))]) (measured s))
  | Start i now =>
    match nth_error (known_objects s) i with
    | Some (Some k) => Some (Sheet (resets s) (set_nth (known_objects s) i (Some (Known (k_tag k) (k_resets k) now true))) (measured s))
    | _ => None
    end
  | Stop i now =>
    match nth_error (known_objects s) i with
    | Some (Some k) =>
      Some (Sheet (resets s) (set_nth (known_objects s) i (Some (Known (k_tag k) (k_resets k) (k_start k) false)))
                  (measured s ++ [(k_tag k, k_resets k, duration now (k_start k))]))
    | _ => None
    end
  | Destroy i now =>
    match nth_error (known_objects s) i with
    | Some (Some k) =>
      Some (Sheet (resets s) (set_nth (known_objects s) i None)
                  (if k_running k then measured s ++ [(k_tag k, k_resets k, duration now (k_start k))] else measured s))
    | _ => None
    end
  | Query _ => Some s
  | Reset => Some (Sheet (S (resets s)) (known_objects s) (measured s))
  end.

Fixpoint notes (s : sheet) (es : list event) : option sheet :=
  match es with
  | [] => Some s
  | e :: r => match note s e with Some s' => notes s' r | None => None end
  end.
Definition blank : sheet := Sheet 0 [] [].

(** The times of a tag, of objects made since the last reset. *)
Definition times_of (tag : string) (s : sheet) : list R :=
  map snd (filter (fun m => (String.eqb (fst (fst m)) tag && Nat.eqb (snd (fst m)) (resets s))%bool) (measured s)).
