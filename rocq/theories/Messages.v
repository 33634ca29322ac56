(** Messages to the high level controller: MSF_SensorManagerROS (msf_sensormanagerROS.h)
    and the state callback (msf_IMUHandler_ROS.h).  Definitions only.  Real arithmetic:
    the rounding to the 32 bit floats of the message is not modelled. *)

From Coq Require Import Reals ZArith List Bool.
From Verif Require Import Outcome Geom StateList Propagate.
Import ListNotations.
Open Scope R_scope.

(** ExtEkf.msg flags *)
Inductive ekf_flag := ignore_state | current_state | initialization | state_correction.
(** ExtEkf: array [state] and [flag] (stamp, rates and accelerations left out). *)
Record ext_ekf := ExtEkf { e_state : list R; e_flag : ekf_flag }.

(** HLI_EKF_STATE_SIZE, line 43 *)
Definition hli_size : nat := 16.

(** [hl_state_buf_] after the constructor, line 116 *)
Definition hl_new : ext_ekf := ExtEkf (repeat 0 hli_size) ignore_state.

(** SetHLControllerStateBuffer, lines 157-159 *)
Definition set_hl (msg : ext_ekf) (_ : ext_ekf) : ext_ekf := msg.

(** [vector::operator[]] *)
Definition at_ (l : list R) (i : nat) : res R :=
  match nth_error l i with Some x => Ok x | None => UB end.

(** Eigen's [Quaternion::inverse()]: zero for a zero quaternion. *)
Definition qinverse (q : quat) : quat :=
  if Rlt_dec 0 (qnorm2 q) then qinv q else Quat 0 0 0 0.

(** PublishStateAfterUpdate, lines 239-325: the correction message, if one is published.
    [numeric] is the result of CheckStateForNumeric (line 317). *)
Definition correction_msg (subscribers playback numeric : bool) (s : nav) (hl : ext_ekf)
  : res (option ext_ekf) :=
  if subscribers then
    let* m :=
      if playback then
        Ok (ExtEkf (map (fun i => if Nat.eqb i 6 then 1 else 0) (seq 0 hli_size)) initialization)
      else
        let h := at_ (e_state hl) in
        let* h0 := h 0%nat in let* h1 := h 1%nat in let* h2 := h 2%nat in
        let* h3 := h 3%nat in let* h4 := h 4%nat in let* h5 := h 5%nat in
        let* h6 := h 6%nat in let* h7 := h 7%nat in let* h8 := h 8%nat in let* h9 := h 9%nat in
        let hl_q := Quat h6 h7 h8 h9 in
        let qbuff_q := qmul (qinverse hl_q) (nq s) in
        let* h10 := h 10%nat in let* h11 := h 11%nat in let* h12 := h 12%nat in
        let* h13 := h 13%nat in let* h14 := h 14%nat in let* h15 := h 15%nat in
        Ok (ExtEkf
              [v3x (np s) - h0; v3y (np s) - h1; v3z (np s) - h2;
               v3x (nv s) - h3; v3y (nv s) - h4; v3z (nv s) - h5;
               qw qbuff_q; qx qbuff_q; qy qbuff_q; qz qbuff_q;
               v3x (nbw s) - h10; v3y (nbw s) - h11; v3z (nbw s) - h12;
               v3x (nba s) - h13; v3y (nba s) - h14; v3z (nba s) - h15] state_correction) in
    Ok (if numeric then Some m else None)
  else Ok None.

(** PublishStateInitial, lines 183-207: the core variables written into a zeroed array
    by CoreStatetoDoubleArray; an index outside is undefined. *)
Fixpoint set_at (l : list R) (i : nat) (x : R) : res (list R) :=
  match l, i with
  | [], _ => UB
  | _ :: r, O => Ok (x :: r)
  | y :: r, S i' => let* r' := set_at r i' x in Ok (y :: r')
  end.
Fixpoint write_all (w : list (Z * R)) (l : list R) : res (list R) :=
  match w with
  | [] => Ok l
  | (i, x) :: w' =>
    if (i <? 0)%Z then UB else let* l' := set_at l (Z.to_nat i) x in write_all w' l'
  end.
Definition initial_msg (s : state) : res ext_ekf :=
  let* a := write_all (core_to_array s) (repeat 0 hli_size) in Ok (ExtEkf a initialization).

(** StateCallback, msf_IMUHandler_ROS.h lines 63-107: what is handed to ProcessState -
    the external pose, velocity and whether to take it over.  [numeric] is
    CheckForNumeric on the first ten entries (line 83). *)
Definition state_callback (playback numeric : bool) (msg : ext_ekf)
  : res (v3 * v3 * quat * bool) :=
  let flag := if playback then ignore_state else e_flag msg in
  let current := match flag with current_state => true | _ => false end in
  let h := at_ (e_state msg) in
  let* h0 := h 0%nat in let* h1 := h 1%nat in let* h2 := h 2%nat in
  let* h3 := h 3%nat in let* h4 := h 4%nat in let* h5 := h 5%nat in
  let* h6 := h 6%nat in let* h7 := h 7%nat in let* h8 := h 8%nat in let* h9 := h 9%nat in
  Ok (V3 h0 h1 h2, V3 h3 h4 h5, qnormalize (Quat h6 h7 h8 h9), current && numeric).
