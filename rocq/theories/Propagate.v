(** State prediction: MSF_Core::PropagateState, msf_core_inl.h lines 328-390.
    Definitions only.  Real arithmetic, no rounding. *)

From Coq Require Import Reals ZArith List.
From Verif Require Import Outcome Geom StateList.
Import ListNotations.
Open Scope R_scope.

(** constants::GRAVITY, msf_types.h line 49. *)
Definition gravity : v3 := V3 0 0 (980834 / 100000).

(** The loop of lines 361-365:
    [div *= i; MatExp = MatExp + OmegaMean / div; OmegaMean *= OmegaMean]. *)
Fixpoint matexp_loop (n : nat) (i div : Z) (MatExp OmegaMean : m4) : m4 :=
  match n with
  | O => MatExp
  | S n' =>
    let div' := (div * i)%Z in
    matexp_loop n' (i + 1) div' (m4add MatExp (m4scale (/ IZR div') OmegaMean))
                (m4mul OmegaMean OmegaMean)
  end.

(** Lines 348-370: the attitude integration matrix from the two bias-free rates. *)
Definition mean_rate (ew ewold : v3) : v3 := v3scale (/ 2) (v3add ew ewold).
Definition mat_exp (ew ewold : v3) (dt : R) : m4 :=
  matexp_loop 4 1 1 m4eye (m4scale (1/2 * dt) (omega_jpl (mean_rate ew ewold))).
Definition quat_int (ew ewold : v3) (dt : R) : m4 :=
  let Omega := omega_jpl ew in
  let OmegaOld := omega_jpl ewold in
  m4add (mat_exp ew ewold dt)
        (m4scale dt (m4scale dt
           (m4scale (1/48) (m4sub (m4mul Omega OmegaOld) (m4mul OmegaOld Omega))))).

(** Lines 372-376. *)
Definition propagate_q (ew ewold : v3) (dt : R) (q : quat) : quat :=
  qnormalize (of_coeffs (m4vec (quat_int ew ewold dt) (coeffs q))).

(** Lines 378-383. *)
Definition propagate_v (dt : R) (q_new q_old : quat) (ea eaold v : v3) : v3 :=
  let dv := v3scale (/ 2) (v3add (m3vec (qrot q_new) ea) (m3vec (qrot q_old) eaold)) in
  v3add v (v3scale dt (v3sub dv gravity)).

(** Lines 384-388. *)
Definition propagate_p (dt : R) (p v_new v_old : v3) : v3 :=
  v3add p (v3scale dt (v3scale (/ 2) (v3add v_new v_old))).

(** Propagated part of a state and its inputs. *)
Record nav := Nav { np : v3; nv : v3; nq : quat; nbw : v3; nba : v3 }.
Record imu := Imu { iw : v3; ia : v3 }.

Definition propagate_nav (dt : R) (old : nav) (u_old u_new : imu) : nav :=
  let ew := v3sub (iw u_new) (nbw old) in
  let ewold := v3sub (iw u_old) (nbw old) in
  let ea := v3sub (ia u_new) (nba old) in
  let eaold := v3sub (ia u_old) (nba old) in
  let q := propagate_q ew ewold dt (nq old) in
  let v := propagate_v dt q (nq old) ea eaold (nv old) in
  let p := propagate_p dt (np old) v (nv old) in
  Nav p v q (nbw old) (nba old).

(** ** On a full state *)

(** The enum positions of the core variables (StateDefinition). *)
Record layout := Layout { ip : nat; iv : nat; iq : nat; ibw : nat; iba : nat }.

Definition get_v3 (s : state) (k : nat) : res v3 :=
  match nth_error s k with
  | Some i => match ival i with VVec [x; y; z] => Ok (V3 x y z) | _ => UB end
  | None => UB
  end.
Definition get_quat (s : state) (k : nat) : res quat :=
  match nth_error s k with
  | Some i => match ival i with VQuat q => Ok q | _ => UB end
  | None => UB
  end.
Fixpoint set_val (s : state) (k : nat) (x : value) : state :=
  match s, k with
  | [], _ => []
  | i :: s', O => Inst (itype i) x (iQ i) (ireset i) :: s'
  | i :: s', S k' => i :: set_val s' k' x
  end.
Definition vvec (a : v3) : value := VVec [v3x a; v3y a; v3z a].

Definition propagate_state (L : layout) (dt : R) (old new : state) (u_old u_new : imu) : res state :=
  let* s := prepare_propagation old new in
  let* bw_new := get_v3 s (ibw L) in
  let* bw_old := get_v3 old (ibw L) in
  let* ba_new := get_v3 s (iba L) in
  let* ba_old := get_v3 old (iba L) in
  let* q_old := get_quat old (iq L) in
  let* v_old := get_v3 old (iv L) in
  let* p_old := get_v3 old (ip L) in
  let ew := v3sub (iw u_new) bw_new in
  let ewold := v3sub (iw u_old) bw_old in
  let ea := v3sub (ia u_new) ba_new in
  let eaold := v3sub (ia u_old) ba_old in
  let q := propagate_q ew ewold dt q_old in
  let v := propagate_v dt q q_old ea eaold v_old in
  let p := propagate_p dt p_old v v_old in
  Ok (set_val (set_val (set_val s (iq L) (VQuat q)) (iv L) (vvec v)) (ip L) (vvec p)).
