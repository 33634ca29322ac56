(** Outcomes of modelled C++ operations.

    [UB] is a distinct result standing for "the C++ program would execute an
    operation the standard leaves undefined" (decrementing [begin()],
    incrementing or dereferencing [end()], using an invalidated iterator).
    [Abort] stands for a failing [assert]. *)

Inductive res (A : Type) : Type :=
| Ok (a : A)
| UB
| Abort.

Arguments Ok {A} a.
Arguments UB {A}.
Arguments Abort {A}.

Definition bind {A B : Type} (r : res A) (f : A -> res B) : res B :=
  match r with
  | Ok a => f a
  | UB => UB
  | Abort => Abort
  end.

Notation "'let*' x ':=' r 'in' k" := (bind r (fun x => k))
  (at level 200, x pattern, r at level 100, k at level 200, right associativity).
