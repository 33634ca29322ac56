(** C43: messages to the high level controller. *)

From Coq Require Import Reals ZArith List Lra Lia.
From Verif Require Import Outcome Geom GeomProofs StateList StateListProofs Propagate Messages.
Import ListNotations.
Open Scope R_scope.

(** The controller's side: its state as an array (position, velocity, attitude, gyro bias,
    accelerometer bias), and what it does with a correction: vectors are added, the
    attitude is multiplied from the right. *)
Definition to_list (s : nav) : list R :=
  [v3x (np s); v3y (np s); v3z (np s); v3x (nv s); v3y (nv s); v3z (nv s);
   qw (nq s); qx (nq s); qy (nq s); qz (nq s);
   v3x (nbw s); v3y (nbw s); v3z (nbw s); v3x (nba s); v3y (nba s); v3z (nba s)].
Definition add3 (a : v3) (x y z : R) : v3 := V3 (v3x a + x) (v3y a + y) (v3z a + z).
Definition apply_to_controller (d : list R) (s : nav) : option nav :=
  match d with
  | [p0; p1; p2; v0; v1; v2; w; x; y; z; g0; g1; g2; a0; a1; a2] =>
    Some (Nav (add3 (np s) p0 p1 p2) (add3 (nv s) v0 v1 v2) (qmul (nq s) (Quat w x y z))
              (add3 (nbw s) g0 g1 g2) (add3 (nba s) a0 a1 a2))
  | _ => None
  end.

Lemma qinverse_cancel q r : q <> Quat 0 0 0 0 -> qmul q (qmul (qinverse q) r) = r.
Proof.
  intros hq. unfold qinverse. destruct (Rlt_dec 0 (qnorm2 q)) as [h|h].
  - destruct q as [w x y z], r as [a b c d]. unfold qinv. unfold qnorm2 in *.
    cbv [qmul qscale qconj qw qx qy qz] in *. f_equal; field; lra.
  - exfalso. apply hq. destruct q as [w x y z]. unfold qnorm2 in h. cbn in h.
    f_equal; nra.
Qed.

(** Applying the published correction to the state the controller last sent gives the
    filter's state. *)
Theorem C43_correction : forall s sent flag, nq sent <> Quat 0 0 0 0 ->
  exists m, correction_msg true false true s (set_hl (ExtEkf (to_list sent) flag) hl_new) = Ok (Some m) /\
    e_flag m = state_correction /\ apply_to_controller (e_state m) sent = Some s.
Proof.
  intros [p v q bw ba] [p' v' q' bw' ba'] flag hq. cbn [nq] in hq.
  unfold correction_msg, set_hl. cbn. eexists; split; [reflexivity|]. split; [reflexivity|].
  cbn [e_state apply_to_controller np nv nq nbw nba].
  destruct p as [p0 p1 p2], v as [v0 v1 v2], bw as [g0 g1 g2], ba as [a0 a1 a2].
  f_equal. unfold add3. cbn [v3x v3y v3z qw qx qy qz].
  assert (e := qinverse_cancel (Quat (qw q') (qx q') (qy q') (qz q')) q).
  replace (Quat (qw q') (qx q') (qy q') (qz q')) with q' in * by (destruct q'; reflexivity).
  specialize (e hq). f_equal; try (f_equal; ring).
  etransitivity; [|exact e]. reflexivity.
Qed.
Print Assumptions C43_correction.

(** The correction is undefined exactly when the controller's array is too short. *)
Theorem C43_safe : forall s hl, (hli_size <= length (e_state hl))%nat ->
  forall subs play num, exists m, correction_msg subs play num s hl = Ok m.
Proof.
  intros s [l flag] hl subs play num. cbn [e_state] in hl.
  destruct subs; [|eexists; reflexivity]. destruct play; [eexists; reflexivity|].
  do 16 (destruct l as [|? l]; [unfold hli_size in hl; cbn in hl; lia|]). eexists; reflexivity.
Qed.
Print Assumptions C43_safe.

(** Before the first message of the controller the buffer is all zeros, a quaternion
    without inverse: the correction then carries a zero quaternion, and the controller
    would end up with attitude zero whatever the filter's is. *)
Theorem C43_before_first_state_refuted : forall s sent,
  exists m s', correction_msg true false true s hl_new = Ok (Some m) /\
    e_flag m = state_correction /\ apply_to_controller (e_state m) sent = Some s' /\
    nq s' = Quat 0 0 0 0.
Proof.
  intros s sent. unfold correction_msg. cbn.
  do 2 eexists. split; [reflexivity|]. split; [reflexivity|]. cbn [e_state apply_to_controller].
  split; [reflexivity|]. cbn [nq]. unfold qinverse.
  destruct (Rlt_dec 0 (qnorm2 (Quat 0 0 0 0))) as [h|h].
  - exfalso. unfold qnorm2 in h. cbn in h. lra.
  - destruct (nq s) as [a b c d], (nq sent) as [e f g k]. cbv [qmul qw qx qy qz]. f_equal; ring.
Qed.
Print Assumptions C43_before_first_state_refuted.

(** With data playback on the controller is told to start from the identity. *)
Theorem C43_playback : forall s hl num,
  correction_msg true true num s hl =
  Ok (if num then Some (ExtEkf (to_list (Nav v3zero v3zero qone v3zero v3zero)) initialization) else None).
Proof. reflexivity. Qed.
Print Assumptions C43_playback.

(** *** Initialisation: the array holds the core state. *)
Definition core_types : list svar :=
  [Svar (KVec 3) 0 CoreProp 0; Svar (KVec 3) 1 CoreProp 0; Svar KQuat 2 CoreProp 0;
   Svar (KVec 3) 3 CoreNoProp 0; Svar (KVec 3) 4 CoreNoProp 0].
Definition holds (s : state) (x : nav) : Prop :=
  get_v3 s 0 = Ok (np x) /\ get_v3 s 1 = Ok (nv x) /\ get_quat s 2 = Ok (nq x) /\
  get_v3 s 3 = Ok (nbw x) /\ get_v3 s 4 = Ok (nba x).

Theorem C43_initial : forall s x aux, types s = core_types ++ aux ->
  Forall (fun t => vtype t = Aux \/ vtype t = AuxNonDrift) aux -> compiles (types s) ->
  holds s x -> initial_msg s = Ok (ExtEkf (to_list x) initialization).
Proof.
  intros s x aux ht ha hc hh.
  destruct s as [|i0 [|i1 [|i2 [|i3 [|i4 r]]]]]; try discriminate ht.
  cbn in ht. injection ht as t0 t1 t2 t3 t4 hr.
  assert (hrest : flat_map (fun i => if is_core (itype i)
             then to_array_one (types (i0 :: i1 :: i2 :: i3 :: i4 :: r)) i else []) r = []).
  { rewrite <- hr in ha. clear - ha. 
    generalize (types (i0 :: i1 :: i2 :: i3 :: i4 :: r)). intros L.
    induction r as [|i r IH]; [reflexivity|]. cbn in ha. inversion ha as [|? ? h1 h2]; subst.
    cbn. rewrite (IH h2). unfold is_core. destruct h1 as [-> | ->]; reflexivity. }
  unfold initial_msg, core_to_array. cbn [flat_map].
  change (itype i0 :: itype i1 :: itype i2 :: itype i3 :: itype i4 :: types r)
    with (types (i0 :: i1 :: i2 :: i3 :: i4 :: r)) in *.
  rewrite hrest, app_nil_r. rewrite t0, t1, t2, t3, t4.
  cbn [is_core vtype]. unfold to_array_one. rewrite t0, t1, t2, t3, t4.
  assert (st : forall cnt y, start_index cnt (types (i0 :: i1 :: i2 :: i3 :: i4 :: r)) y =
     match types (i0 :: i1 :: i2 :: i3 :: i4 :: r) with
     | [] => (-1)%Z
     | z :: _ => compute_start cnt y (types (i0 :: i1 :: i2 :: i3 :: i4 :: r)) (same_type y z) 0%Z
     end).
  { intros. unfold start_index. unfold compiles in hc. rewrite hc. apply Z.add_0_r. }
  rewrite !st. clear st hrest hc.
  cbn [types map]. rewrite t0, t1, t2, t3, t4. unfold holds, get_v3, get_quat in hh. cbn [nth_error] in hh.
  destruct hh as (h0 & h1 & h2 & h3 & h4). destruct x as [[p0 p1 p2] [v0 v1 v2] [w a b c] [g0 g1 g2] [a0 a1 a2]].
  cbn [np nv nq nbw nba] in *.
  destruct (ival i0) as [[|? [|? [|? [|]]]]|]; try discriminate h0. injection h0 as -> -> ->.
  destruct (ival i1) as [[|? [|? [|? [|]]]]|]; try discriminate h1. injection h1 as -> -> ->.
  destruct (ival i2) as [|q]; try discriminate h2. injection h2 as ->.
  destruct (ival i3) as [[|? [|? [|? [|]]]]|]; try discriminate h3. injection h3 as -> -> ->.
  destruct (ival i4) as [[|? [|? [|? [|]]]]|]; try discriminate h4. injection h4 as -> -> ->.
  destruct r; reflexivity.
Qed.
Print Assumptions C43_initial.

(** *** The state callback takes over the controller's state only if it is flagged current and
    numeric; the attitude handed on is normalised. *)
Theorem C43_callback : forall play num sent flag,
  state_callback play num (ExtEkf (to_list sent) flag) =
  Ok (np sent, nv sent, qnormalize (nq sent),
      match play, flag with false, current_state => num | _, _ => false end).
Proof.
  intros play num [p v q g a] flag. destruct p, v, q. cbn. destruct play, flag; reflexivity.
Qed.
Print Assumptions C43_callback.

Example C43_example :
  let sent := Nav (V3 1 2 3) v3zero (Quat 0 1 0 0) v3zero v3zero in
  let s := Nav (V3 4 4 4) v3zero (Quat 0 0 1 0) v3zero v3zero in
  nq sent <> Quat 0 0 0 0 /\
  exists m, correction_msg true false true s (ExtEkf (to_list sent) current_state) = Ok (Some m) /\
    firstn 3 (e_state m) = [3; 2; 1] /\ firstn 4 (skipn 6 (e_state m)) = [0; 0; 0; -1].
Proof.
  cbv zeta. split; [intros h; injection h; lra|].
  eexists. split; [reflexivity|]. cbn [e_state firstn skipn np v3x v3y v3z].
  split; [repeat f_equal; lra|]. unfold qinverse.
  cbn [nq qnorm2 qw qx qy qz]. destruct (Rlt_dec 0 _) as [h|h].
  - unfold qinv. cbv [qmul qscale qconj qnorm2 qw qx qy qz].
    replace (0 * 0 + 1 * 1 + 0 * 0 + 0 * 0) with 1 by ring. rewrite Rinv_1. repeat f_equal; ring.
  - exfalso; apply h. unfold qnorm2; cbn. lra.
Qed.

Example C43_initial_example : exists s x,
  types s = core_types ++ [Svar (KVec 1) 5 Aux 0] /\ compiles (types s) /\ holds s x /\
  np x = V3 1 2 3.
Proof.
  exists (map (fun p => Inst (fst p) (snd p) (fun _ _ => 0) false)
     (combine (core_types ++ [Svar (KVec 1) 5 Aux 0])
        [VVec [1; 2; 3]; VVec [0; 0; 0]; VQuat qone; VVec [0; 0; 0]; VVec [0; 0; 0]; VVec [7]])).
  exists (Nav (V3 1 2 3) v3zero qone v3zero v3zero). repeat split.
Qed.
