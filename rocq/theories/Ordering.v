(** The compile-time check of the order of the core variables,
    msf_core/include/msf_core/static_ordering_assertions.h lines 24-73, included for every state
    definition through msf_updates/include/msf_updates/static_ordering_assertions.h lines 19-28.
    Definitions only. *)

From Coq Require Import ZArith List.
From Verif Require Import StateList.
Open Scope Z_scope.

(** One [idxstartcorr_x_] and its [static_assert].  [i] is the value [StateDefinition_T::x];
    [GetEnumStateType] beyond the end of the list does not compile. *)
Definition asserted (l : list svar) (i : nat) (expected : Z) : Prop :=
  match enum_type l i with
  | Some x => start_index corr_len l x = expected
  | None => False
  end.

(** The five assertions, lines 62-71. *)
Definition ordering_asserted (l : list svar) (p v q b_w b_a : nat) : Prop :=
  asserted l p 0 /\ asserted l v 3 /\ asserted l q 6 /\ asserted l b_w 9 /\ asserted l b_a 12.
