(** State arrays in messages: msf_state_inl.h lines 166-203.  Definitions only.

    The metaprograms of [StateList] produce assignments [data_[index] = value]; here they are
    carried out on the array of the message. *)

From Coq Require Import Reals ZArith List Bool.
From Verif Require Import Outcome StateList.
Import ListNotations.
Open Scope Z_scope.

(** [std::vector::resize(n)]: keeps what fits, appends zeros. *)
Definition resize (n : nat) (data : list R) : list R :=
  firstn n data ++ repeat 0%R (n - length data).

(** [data[k] = x]: outside of the vector undefined. *)
Definition assign (data : list R) (a : Z * R) : res (list R) :=
  let '(k, x) := a in
  if (0 <=? k) && (k <? Z.of_nat (length data))
  then Ok (firstn (Z.to_nat k) data ++ x :: skipn (S (Z.to_nat k)) data)
  else UB.
Fixpoint assign_all (data : list R) (l : list (Z * R)) : res (list R) :=
  match l with
  | [] => Ok data
  | a :: l' => let* data' := assign data a in assign_all data' l'
  end.

(** ToFullStateMsg, lines 166-173; [old] is the array the message had before. *)
Definition to_full_state_msg (s : state) (old : list R) : res (list R) :=
  assign_all (resize (Z.to_nat (count_states state_len (types s))) old) (to_array s).

(** ToCoreStateMsg, lines 177-184 *)
Definition to_core_state_msg (s : state) (old : list R) : res (list R) :=
  assign_all (resize (Z.to_nat (count_states core_state_len (types s))) old) (core_to_array s).

(** ToEigenVector, lines 186-203: the same on an uninitialised vector [old] of fixed size. *)
Definition to_eigen_vector (s : state) (old : list R) : res (list R) :=
  assign_all old (core_to_array s).
