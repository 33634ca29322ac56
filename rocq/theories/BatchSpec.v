(** Specification of delay compensation (C12): the plain filter.  It knows all stamps and
    all measurements beforehand and walks once through them in time order: predict the
    state, predict the covariance, apply the measurement of that time if there is one.  It has
    no buffers, no iterators and no covariance-propagation time. *)

From Coq Require Import ZArith List Sorting.Sorted.
From Verif Require Import Outcome SortedContainer Core.
Import ListNotations.
Open Scope Z_scope.

Section Plain.
  Variable O : ops.
  (** The inertial readings at every time. *)
  Variables (ra : Z -> Acc O) (rg : Z -> Gyr O).
  (** What a measurement does to a state's value and covariance. *)
  Variable fuse : Meas O -> Val O -> Cov O -> Val O * Cov O.

  Definition lookup (M : list (Z * Meas O)) (t : Z) : option (Meas O) :=
    match find (fun p => fst p =? t) M with Some (_, m) => Some m | None => None end.

  (** Prediction from the state [e] (with its time) to time [t]. *)
  Definition predicted (e : Z * st O) (t : Z) : st O :=
    let '(t', s) := e in
    let v := propagate O (t - t') (s_acc s) (s_gyr s) (s_val s) (ra t) (rg t) in
    mkst (ra t) (rg t) v (predict_cov O (t - t') (ra t) (rg t) v (s_cov s)).

  Definition fused (M : list (Z * Meas O)) (t : Z) (s : st O) : st O :=
    match lookup M t with
    | None => s
    | Some m => mkst (s_acc s) (s_gyr s) (fst (fuse m (s_val s) (s_cov s)))
                     (snd (fuse m (s_val s) (s_cov s)))
    end.

  Fixpoint filter_from (M : list (Z * Meas O)) (e : Z * st O) (ts : list Z) : list (Z * st O) :=
    match ts with
    | [] => []
    | t :: r => let e' := (t, fused M t (predicted e t)) in e' :: filter_from M e' r
    end.

  (** The first stamp is that of the initial state. *)
  Definition plain_filter (M : list (Z * Meas O)) (s0 : st O) (ts : list Z) : list (Z * st O) :=
    match ts with
    | [] => []
    | t :: r => let e := (t, fused M t s0) in e :: filter_from M e r
    end.
End Plain.

(** [G] is the increasing list of the stamps in [P]. *)
Definition grid (P : Z -> Prop) (G : list Z) : Prop :=
  StronglySorted Z.lt G /\ forall t, In t G <-> P t.

(** IMU messages with implausible accelerations replaced (msf_core_inl.h lines 145-153):
    [last] is what a spike is replaced by, [prev] the reading before. *)
Section Despike.
  Variable O : ops.
  Fixpoint despiked (prev last : Acc O) (us : list (Z * Acc O * Gyr O)) : list (Z * Acc O * Gyr O) :=
    match us with
    | [] => []
    | (t, a, g) :: r =>
        if acc_spike O a then (t, last, g) :: despiked last last r
        else (t, a, g) :: despiked a prev r
    end.
End Despike.

(** Which measurements the filter takes, in which order, and how new the newest inertial
    message is then: [n] is the newest IMU stamp, [q] what waits for newer IMU messages.
    One waiting measurement is looked at per IMU message. *)
Section Schedule.
  Variable O : ops.

  Fixpoint schedule (n : Z) (q : list (Z * Meas O)) (l : list (call O))
    : list (Z * (Z * Meas O)) * list (Z * Meas O) :=
    match l with
    | [] => ([], q)
    | CMeas tm m :: r =>
        if tm >? n then schedule n (q ++ [(tm, m)]) r
        else let (p, q') := schedule n q r in ((n, (tm, m)) :: p, q')
    | CImu _ _ t :: r =>
        match q with
        | [] => schedule t [] r
        | (tm, m) :: q' =>
            if tm >? t then schedule t (q' ++ [(tm, m)]) r
            else let (p, q'') := schedule t q' r in ((t, (tm, m)) :: p, q'')
        end
    | _ :: r => schedule n q r
    end.

  Definition taken (t0 : Z) (l : list (call O)) : list (Z * Meas O) :=
    map snd (fst (schedule t0 [] l)).

  Fixpoint imu_msgs (l : list (call O)) : list (Z * Acc O * Gyr O) :=
    match l with
    | [] => []
    | CImu a g t :: r => (t, a, g) :: imu_msgs r
    | _ :: r => imu_msgs r
    end.
  Definition imu_stamps (l : list (call O)) : list Z := map (fun u => fst (fst u)) (imu_msgs l).

  (** The measurements in the order in which they arrive. *)
  Fixpoint arrivals (l : list (call O)) : list (Z * Meas O) :=
    match l with
    | [] => []
    | CMeas t m :: r => (t, m) :: arrivals r
    | _ :: r => arrivals r
    end.

  Definition sensor_calls (l : list (call O)) : Prop :=
    Forall (fun k => match k with CImu _ _ _ => True | CMeas _ _ => True | _ => False end) l.

  (** An undisturbed session after the initialisation with [s0] at [t0]; [last] is the
      accelerometer reading kept from before. *)
  Record session (ra : Z -> Acc O) (rg : Z -> Gyr O) (never_refused : Meas O -> Prop)
         (last : Acc O) (t0 : Z) (s0 : st O) (l : list (call O)) : Prop := {
    (* IMU messages and measurements only, IMU messages in order, starting with three that
       are at most 0.1 s apart *)
    se_calls : sensor_calls l;
    se_order : StronglySorted Z.lt (t0 :: imu_stamps l);
    se_start : exists a1 g1 t1 a2 g2 t2 a3 g3 t3 r,
        l = CImu a1 g1 t1 :: CImu a2 g2 t2 :: CImu a3 g3 t3 :: r /\
        t1 - t0 <= second / 10 /\ t2 - t1 <= second / 10 /\ t3 - t2 <= second / 10;
    (* the readings, after the removal of spikes *)
    se_read0 : s_acc s0 = ra t0 /\ s_gyr s0 = rg t0;
    se_read : forall t a g, In (t, a, g) (despiked O (s_acc s0) last (imu_msgs l)) -> a = ra t /\ g = rg t;
    (* stamps of different measurements differ *)
    se_distinct : NoDup (map fst (taken t0 l));
    (* a measurement is taken at most 59.9 s late *)
    se_timely : forall n tm m, In (n, (tm, m)) (fst (schedule t0 [] l)) -> n <= tm + 599 * (second / 10);
    (* it is stamped like an IMU message (or the initial state), or it lies more than 1 ms from all other
       stamps, at most 0.1 s after an IMU message, and the reading at its time is the
       interpolated one *)
    se_placed : forall tm m, In (tm, m) (taken t0 l) ->
        In tm (t0 :: imu_stamps l) \/
        ((forall k, In k (t0 :: imu_stamps l) \/ In k (map fst (taken t0 l)) ->
                    k <> tm -> second / 1000 < Z.abs (k - tm)) /\
         (exists k, In k (t0 :: imu_stamps l) /\ tm - second / 10 <= k /\ k < tm) /\
         (forall tl tn, tl < tm -> tm < tn ->
            In tl (t0 :: imu_stamps l) \/ In tl (map fst (taken t0 l)) ->
            In tn (t0 :: imu_stamps l) \/ In tn (map fst (taken t0 l)) ->
            (forall k, In k (t0 :: imu_stamps l) -> k <= tl \/ tn <= k) ->
            lerp_acc O (ra tl) (ra tn) (tn - tl) (tm - tl) = ra tm /\
            lerp_gyr O (rg tl) (rg tn) (tn - tl) (tm - tl) = rg tm));
    (* a measurement that may be refused is newer than the ones taken before *)
    se_refusable : forall p1 n tm m p2, fst (schedule t0 [] l) = p1 ++ (n, (tm, m)) :: p2 ->
        never_refused m \/ forall x, In x p1 -> fst (snd x) < tm
  }.
End Schedule.
