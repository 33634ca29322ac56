(** Specification notions for the handler and timing properties, independent of
    the model. *)

From Coq Require Import Reals ZArith List Bool.
Import ListNotations.
Open Scope Z_scope.

(** Which messages follow a dropped one: 32 bit sequence numbers. *)
Fixpoint drops_after (prev : Z) (seqs : list Z) : list bool :=
  match seqs with
  | [] => []
  | s :: r => negb (s =? (prev + 1) mod 2 ^ 32) :: drops_after s r
  end.
Definition drops (seqs : list Z) : list bool :=
  match seqs with [] => [] | s :: r => false :: drops_after s r end.

(** Each element exceeds its predecessor (the first: [prev]) by more than [gap]. *)
Fixpoint spaced (gap prev : Z) (l : list Z) : Prop :=
  match l with [] => True | t :: r => gap < t - prev /\ spaced gap t r end.

Fixpoint increasing (l : list Z) : Prop :=
  match l with
  | t :: (t' :: _) as r => t < t' /\ increasing r
  | _ => True
  end.

(** The last [n] elements. *)
Definition lastn {A} (n : nat) (l : list A) : list A := skipn (length l - n) l.

Fixpoint total (l : list R) : R :=
  match l with [] => 0%R | x :: r => (x + total r)%R end.
Definition mean (l : list R) : R := (total l / INR (length l))%R.
Definition variance (l : list R) : R :=
  mean (map (fun x => ((x - mean l) * (x - mean l))%R) l).

Definition is_min (m : R) (l : list R) : Prop := In m l /\ forall x, In x l -> (m <= x)%R.
Definition is_max (m : R) (l : list R) : Prop := In m l /\ forall x, In x l -> (x <= m)%R.
