(** The matrices of MSF_Core::PredictProcessCovariance (msf_core_inl.h lines 443-543):
    transition matrix, process noise, and the process noise of the auxiliary states set by
    the sensor managers.  Definitions only; real arithmetic.

    Matrices are functions of row and column; the writes of the code are function updates.
    Noise densities are constant over the axes (lines 456-460). *)

From Coq Require Import Reals ZArith List Bool.
From Verif Require Import Outcome Geom StateList Propagate QCore.
Import ListNotations.
Open Scope Z_scope.

Definition zmat := Z -> Z -> R.

Definition zeye : zmat := fun r c => if r =? c then 1%R else 0%R.
Definition zzero : zmat := fun _ _ => 0%R.

(** [M(r, c) = v] *)
Definition put (M : zmat) (w : Z * Z * R) : zmat :=
  let '(r0, c0, v) := w in fun r c => if (r =? r0) && (c =? c0) then v else M r c.

Definition v3nth (a : v3) (k : Z) : R := if k =? 0 then v3x a else if k =? 1 then v3y a else v3z a.
Definition m3nth (A : m3) (i j : Z) : R :=
  v3nth (if i =? 0 then r1 A else if i =? 1 then r2 A else r3 A) j.
(** [M.block<3,3>(r0, c0) = A] *)
Definition put_block (M : zmat) (r0 c0 : Z) (A : m3) : zmat := fun r c =>
  if (r0 <=? r) && (r <? r0 + 3) && ((c0 <=? c) && (c <? c0 + 3)) then m3nth A (r - r0) (c - c0) else M r c.

(** GetStartIndexInCorrection<StateSequence_T, StateDefinition_T::x> for the five core
    variables, lines 497-508 *)
Record core_ix := CoreIx { xp : Z; xv : Z; xq : Z; xbw : Z; xba : Z }.
Definition ix_of (l : list svar) (k : nat) : res Z :=
  match enum_type l k with Some x => Ok (start_index corr_len l x) | None => UB end.
Definition core_ix_of (l : list svar) (L : layout) : res core_ix :=
  let* p := ix_of l (ip L) in let* v := ix_of l (iv L) in let* q := ix_of l (iq L) in
  let* bw := ix_of l (ibw L) in let* ba := ix_of l (iba L) in Ok (CoreIx p v q bw ba).

(** GetParamNoiseAcc, ...Accbias, ...Gyr, ...Gyrbias *)
Record noise := Noise { n_acc : R; n_accbias : R; n_gyr : R; n_gyrbias : R }.

Section Matrices.
Local Open Scope R_scope.

(** lines 474-516 *)
Definition calc_fd (ix : core_ix) (dt : R) (q : quat) (ew ea : v3) (Fd : zmat) : zmat :=
  let w := skew ew in
  let ww := m3mul w w in
  let C_eq := qrot q in
  let p2 := dt * dt * (1/2) in
  let p3 := p2 * dt / 3 in
  let p4 := p3 * dt * (1/4) in
  let p5 := p4 * dt * (1/5) in
  let Ca3 := m3mul C_eq (skew ea) in
  let A := m3mul Ca3 (m3sub (m3add (m3scale (- p2) m3eye) (m3scale p3 w)) (m3scale p4 ww)) in
  let B := m3mul Ca3 (m3add (m3sub (m3scale p3 m3eye) (m3scale p4 w)) (m3scale p5 ww)) in
  let D := m3neg A in
  let E := m3add (m3sub m3eye (m3scale dt w)) (m3scale p2 ww) in
  let F := m3sub (m3add (m3scale (- dt) m3eye) (m3scale p2 w)) (m3scale p3 ww) in
  let C := m3mul Ca3 F in
  let Fd := put_block Fd (xp ix) (xv ix) (m3scale dt m3eye) in
  let Fd := put_block Fd (xp ix) (xq ix) A in
  let Fd := put_block Fd (xp ix) (xbw ix) B in
  let Fd := put_block Fd (xp ix) (xba ix) (m3scale p2 (m3neg C_eq)) in
  let Fd := put_block Fd (xv ix) (xq ix) C in
  let Fd := put_block Fd (xv ix) (xbw ix) D in
  let Fd := put_block Fd (xv ix) (xba ix) (m3scale dt (m3neg C_eq)) in
  let Fd := put_block Fd (xq ix) (xq ix) E in
  put_block Fd (xq ix) (xbw ix) F.

(** CalcQCore (calcQCore.h) with the noises of lines 456-460 *)
Definition calc_q_core (ix : core_ix) (dt : R) (q : quat) (ew ea : v3) (nz : noise) (Qd : zmat) : zmat :=
  let na := n_acc nz in let nba := n_accbias nz in let nw := n_gyr nz in let nbw := n_gyrbias nz in
  fold_left put
    (qd_writes dt (qw q) (qx q) (qy q) (qz q) (v3x ew) (v3y ew) (v3z ew) (v3x ea) (v3y ea) (v3z ea)
       na na na nba nba nba nw nw nw nbw nbw nbw (xp ix) (xv ix) (xq ix) (xbw ix) (xba ix)) Qd.
End Matrices.

(** [state.GetQBlock<k>() = (dt * n.cwiseProduct(n)).asDiagonal()] with a constant vector n *)
Fixpoint set_q (s : state) (k : nat) (B : nat -> nat -> R) : state :=
  match s, k with
  | [], _ => []
  | i :: s', O => Inst (itype i) (ival i) B (ireset i) :: s'
  | i :: s', S k' => i :: set_q s' k' B
  end.
Definition diag_q (dt n : R) : nat -> nat -> R :=
  fun i j => if Nat.eqb i j then (dt * (n * n))%R else 0%R.
(** CalculateQAuxiliaryStates; [an] lists the enum positions of the blocks set and the
    noise parameter used for each.  The sensor managers differ in this list only. *)
Definition calc_q_aux (an : list (nat * R)) (dt : R) (s : state) : state :=
  fold_left (fun s kn => set_q s (fst kn) (diag_q dt (snd kn))) an s.

(** pose_msf/pose_sensormanager.h lines 248-272 and
    position_pose_msf/position_pose_sensormanager.h lines 249-273 (p_ip is not set there) *)
Definition pose_aux (n_L n_qwv n_pwv n_qic n_pic : R) : list (nat * R) :=
  [(5%nat, n_L); (6%nat, n_qwv); (7%nat, n_pwv); (8%nat, n_qic); (9%nat, n_pic)].
(** pose_pressure_msf/pose_pressure_sensormanager.h lines 208-232 (p_wv is not set) *)
Definition pose_pressure_aux (n_L n_qwv n_qic n_pic n_bp : R) : list (nat * R) :=
  [(5%nat, n_L); (6%nat, n_qwv); (8%nat, n_qic); (9%nat, n_pic); (10%nat, n_bp)].
(** position_msf/position_sensormanager.h lines 172-180 and
    spherical_msf/spherical_sensormanager.h lines 174-181 *)
Definition position_aux (n_pip : R) : list (nat * R) := [(5%nat, n_pip)].
