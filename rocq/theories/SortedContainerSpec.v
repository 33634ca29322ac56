(** Independent specification vocabulary for the time-sorted buffer: written
    with list membership only, none of the model's helpers. *)

From Coq Require Import ZArith List Sorting.Sorted.
Open Scope Z_scope.

Section Spec.
  Context {A : Type}.
  Implicit Types (c : list (Z * A)) (e : Z * A).

  (** Strictly increasing time stamps. *)
  Definition time_sorted c : Prop :=
    StronglySorted (fun x y => fst x < fst y) c.

  (** [t] is the stamp of a stored object. *)
  Definition occupied c (t : Z) : Prop := exists a, In (t, a) c.

  (** [e] is the stored object nearest to [t]; of two equally near ones the
      older. *)
  Definition nearest c (t : Z) e : Prop :=
    In e c /\
    forall e', In e' c ->
      Z.abs (fst e - t) <= Z.abs (fst e' - t) /\
      (Z.abs (fst e - t) = Z.abs (fst e' - t) -> fst e <= fst e').

  (** [e] is the latest object strictly older than [t]. *)
  Definition latest_before c (t : Z) e : Prop :=
    In e c /\ fst e < t /\ forall e', In e' c -> fst e' < t -> fst e' <= fst e.

  (** [e] is the earliest object strictly newer than [t]. *)
  Definition earliest_after c (t : Z) e : Prop :=
    In e c /\ t < fst e /\ forall e', In e' c -> t < fst e' -> fst e <= fst e'.

  (** [e] is the newest stored object. *)
  Definition newest c e : Prop :=
    In e c /\ forall e', In e' c -> fst e' <= fst e.

  Definition oldest c e : Prop :=
    In e c /\ forall e', In e' c -> fst e <= fst e'.
End Spec.
