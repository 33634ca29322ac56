(** C69: the initial yaw from a compass. *)

From Coq Require Import Reals ZArith Lra Lia List.
From mathcomp Require Import all_ssreflect all_algebra.
From Verif Require Import Outcome SortedContainer Core CoreBasics Geom GeomProofs StateList Propagate ProcNoise Cov RField Sensors Filter
  FilterState Readings Handlers Messages PropertiesFilter Node NodeProofs PropertiesNode Reconfigure PropertiesReconfigure
  Compass CompassProofs.
Import ListNotations.

Set Implicit Arguments.
Unset Strict Implicit.
Unset Printing Implicit Defensive.

(** ** The settings *)

Section Yaw.
Variables (k : kind) (r : process) (S : settings).

Lemma front_yaw f i f' cs : front_step k r S f i = Ok (f', cs) ->
  y_yaw (f_dyn f') = match i with IConfig y _ _ => y_yaw y | _ => y_yaw (f_dyn f) end.
Proof.
case: i => [seq a g t|msg a g t|m|m|m|m|m|y init height|now x|now x]; last 2 first.
- by move=> /scale_calls [-> _].
- by move=> /height_calls [-> _].
all: move=> /=.
- by case: imu_watch => [last| |] //= -[<- _].
- by case: state_callback => [[x taken]| |] //= -[<- _].
- by case: (has_pose k) => /=; [case: pose_callback => [[p o]| |] //= -[<- _]|case=> <- _].
- by case: (has_pos k) => /=; [case: pos_callback => [[p o]| |] //= -[<- _]|case=> <- _].
- by case: (has_press k) => /=; [case: press_callback => [[p o]| |] //= -[<- _]|case=> <- _].
- by case: (has_sph k) => /=; [case: angle_callback => [[p o]| |] //= -[<- _]|case=> <- _].
- by case: (has_sph k) => /=; [case: dist_callback => [[p o]| |] //= -[<- _]|case=> <- _].
- rewrite /on_config; have e : y_yaw (no_delay k y) = y_yaw y by case: (k).
  case: (match init with Some _ => _ | None => _ end) => [c1| |] //=.
  case: height => [[now z]|]; last by case=> <- _.
  case: (~~ has_pose k) => /=; first by case=> <- _.
  case: ifP => _; first by case=> <- _ /=; move: e; case: (k).
  by case: (if nonzero z then _ else _) => [c2| |] //= -[<- _].
Qed.

(** Server and node agree on the yaw. *)
Definition agree (q : params) (f : front) : Prop :=
  y_yaw (q_dyn q) = y_yaw (f_dyn f) /\ clamp_yaw (y_yaw (f_dyn f)) = y_yaw (f_dyn f).
Lemma clamp_twice lo hi x : Rle lo hi -> clamp lo hi (clamp lo hi x) = clamp lo hi x.
Proof. by move=> h; have [h1 h2 _] := C68_clamp x h; apply: clamp_id. Qed.
Lemma yaw_twice x : clamp_yaw (clamp_yaw x) = clamp_yaw x.
Proof. by apply: clamp_twice; lra. Qed.

Lemma serve_yaw q f m q' f' cs : direct m -> agree q f -> serve k r S q f m = Ok (q', f', cs) ->
  agree q' f' /\
  y_yaw (f_dyn f') = match m with Req n => clamp_yaw (y_yaw (n_dyn n (q_dyn q))) | Msg _ => y_yaw (f_dyn f) end.
Proof.
move=> hd [ha hc] hs; have [/front_yaw e _] := serve_step hs.
case: m hd e hs => [n|i] /= hd e hs.
- have [_ [ed _ _ _ _]] := call_back_step hs; rewrite /agree ed /= e /=; split; last by [].
  by split=> //; rewrite yaw_twice.
- have -> : q' = q by move: hs; case: front_step => [[f1 cs1]| |] //= -[].
  have ey : y_yaw (f_dyn f') = y_yaw (f_dyn f) by rewrite e; case: (i) hd.
  by rewrite /agree ey.
Qed.

(** Messages that leave the yaw alone. *)
Definition keeps_yaw (m : message) : Prop := match m with Req n => forall y, y_yaw (n_dyn n y) = y_yaw y | Msg _ => True end.
Lemma session_yaw l : forall q f q' f' css, List.Forall direct l -> agree q f -> session k r S q f l = Ok (q', f', css) ->
  agree q' f' /\ (List.Forall keeps_yaw l -> y_yaw (f_dyn f') = y_yaw (f_dyn f)).
Proof.
elim: l => [|m l IH] q f q' f' css hd ha /=; first by case=> <- <- _.
have [hm hl] : direct m /\ List.Forall direct l by inversion hd.
case e: (serve _ _ _ _ _ _) => [[[q1 f1] cs]| |] //=; case e2: (session _ _ _ _ _ _) => [[[q2 f2] css2]| |] //= -[<- <- _].
have [ha1 hy1] := serve_yaw hm ha e; have [ha2 hy2] := IH _ _ _ _ _ hl ha1 e2; split=> // hk.
have [hk1 hk2] : keeps_yaw m /\ List.Forall keeps_yaw l by inversion hk.
rewrite hy2 // hy1; case: m hk1 {e hy1 hm hd hk} => // n hk1; case: ha => e1 e2'; by rewrite hk1 e1.
Qed.
Lemma session_cat l l' : forall q f, session k r S q f (l ++ l')%list =
  let* (q1, f1, css) := session k r S q f l in let* (q2, f2, css') := session k r S q1 f1 l' in Ok (q2, f2, (css ++ css')%list).
Proof.
elim: l => [|m l IH] q f /=; first by case: (session _ _ _ _ _ _) => [[[? ?] ?]| |].
case: (serve _ _ _ _ _ _) => [[[q1 f1] cs]| |] //=; rewrite IH.
case: (session _ _ _ _ _ _) => [[[q2 f2] css]| |] //=; by case: (session _ _ _ _ _ _) => [[[? ?] ?]| |].
Qed.
Lemma life_yaw q now now' l q' f css : List.Forall direct l -> life k r S q now now' l = Ok (q', f, css) -> agree q' f.
Proof.
move=> hd; rewrite /life /server_start.
case e1: (call_back _ _ _ _ _ _ _ _ _) => [[[q1 f1] cs]| |] //=.
case e2: (session _ _ _ _ _ _) => [[[q2 f2] css1]| |] //= -[<- <- _].
have [/front_yaw e [ed _ _ _ _]] := call_back_step e1.
have ha : agree q1 f1 by rewrite /agree ed e /= yaw_twice.
by have [] := session_yaw hd ha e2.
Qed.
End Yaw.

(** ** The script *)

Definition quiet (e : event) : Prop := match e with Heard m => exists q, m = OnQuaternion q | _ => True end.
Definition no_tick (e : event) : Prop := match e with Tick _ _ => False | _ => True end.
Definition direct_event (e : event) : Prop := match e with Other m => direct m | _ => True end.
Definition keeping (e : event) : Prop := match e with Other m => keeps_yaw m | _ => True end.

Lemma drive_cat l l' : forall h, drive h (l ++ l')%list = (((drive h l).1 ++ (drive (drive h l).2 l').1)%list, (drive (drive h l).2 l').2).
Proof.
elim: l => [|e l IH] h /=; first by case: (drive h l').
by case: e => [m|a b|m]; rewrite IH //; case: (drive _ l) => ms h' /=; rewrite ?List.app_assoc.
Qed.
Lemma drive_quiet l : forall h, List.Forall quiet l -> (drive h l).2 = h.
Proof.
elim: l => [|e l IH] h // hq; have [he hl] : quiet e /\ List.Forall quiet l by inversion hq.
case: e he {hq} => [m [q ->]|a b _|m _] /=; first exact: IH; by case E: (drive h l) => [ms h'] /=; rewrite -(IH h hl) E.
Qed.
Lemma drive_direct l : forall h, List.Forall direct_event l -> List.Forall direct (drive h l).1.
Proof.
elim: l => [|e l IH] h // hq; first by constructor.
have [he hl] : direct_event e /\ List.Forall direct_event l by inversion hq.
case: e he {hq} => [m _|a b _|m hm] /=; first exact: IH.
- have := IH h hl; case: (drive h l) => ms h' /= hms; apply/List.Forall_app; split=> //.
  by case: h {IH} => [x|] /=; repeat constructor.
- by have := IH h hl; case: (drive h l) => ms h' /= hms; constructor.
Qed.
Lemma drive_keeps l : forall h, List.Forall no_tick l -> List.Forall keeping l -> List.Forall keeps_yaw (drive h l).1.
Proof.
elim: l => [|e l IH] h ht hk; first by constructor.
have [ht1 ht2] : no_tick e /\ List.Forall no_tick l by inversion ht.
have [hk1 hk2] : keeping e /\ List.Forall keeping l by inversion hk.
case: e ht1 hk1 {ht hk} => [m _ _|a b //|m _ hm] /=; first exact: IH.
by have := IH h ht2 hk2; case: (drive h l) => ms h' /= hms; constructor.
Qed.

(** The node has the last heading sent, within half a turn. *)
Theorem C69_yaw k r S q now now' l1 m l2 a b l3 x q1 f css :
  heard None m = Some x -> List.Forall quiet l2 -> List.Forall no_tick l3 -> List.Forall keeping l3 ->
  List.Forall direct_event (l1 ++ Heard m :: l2 ++ Tick a b :: l3)%list ->
  @life k r S q now now' (drive None (l1 ++ Heard m :: l2 ++ Tick a b :: l3)%list).1 = Ok (q1, f, css) ->
  y_yaw (f_dyn f) = clamp (IZR (-180)) (IZR 180) x.
Proof.
move=> hx hq ht hk hd.
have hx' h : heard h m = Some x by case: (m) hx.
rewrite drive_cat /=; set h := (drive None l1).2; set ms := (drive None l1).1.
rewrite hx' drive_cat drive_quiet // /=; set ms2 := (drive (Some x) l2).1.
move/List.Forall_app: hd => [hd1 hd]; have {hd} hd : List.Forall direct_event (l2 ++ Tick a b :: l3)%list by inversion hd.
move/List.Forall_app: hd => [hd2 hd]; have {hd} hd3 : List.Forall direct_event l3 by inversion hd.
case E: (drive (Some x) l3) => [ms3 h3] /=.
have hms3 : List.Forall keeps_yaw ms3 by have := drive_keeps (Some x) ht hk; rewrite E.
have hd3' : List.Forall direct ms3 by have := drive_direct (Some x) hd3; rewrite E.
have hd1' := drive_direct None hd1; have hd2' := drive_direct (Some x) hd2.
set n := Request _ _ _ _ _ _ _; rewrite List.app_assoc.
rewrite /life; case e0: server_start => [[[q0 f0] cs0]| |] //=; rewrite session_cat.
case e1: (session _ _ _ _ _ (ms ++ ms2)%list) => [[[qa fa] cssa]| |] //=.
case e2: call_back => [[[qb fb] csb]| |] //=; case e3: (session _ _ _ _ _ ms3) => [[[qc fc] cssc]| |] //= -[_ <- _].
have hl : @life k r S q now now' (ms ++ ms2)%list = Ok (qa, fa, cs0 :: cssa) by rewrite /life e0 /= e1.
have ha : agree qa fa by apply: life_yaw hl; apply/List.Forall_app.
have [hb hyb] := @serve_yaw k r S qa fa (Req n) qb fb csb I ha e2.
by have [_ hy] := session_yaw hd3' hb e3; rewrite hy // hyb.
Qed.
Print Assumptions C69_yaw.

(** A filter started by a request that leaves the yaw alone, after a message with a heading and
    at least one turn of the script's loop. *)
Definition start_after k r S (m : compass_msg) (s0 : state) : Prop :=
  exists q now now' l1 l2 a b l3 q1 f css n q2 f2 cs t s,
  [/\ List.Forall quiet l2, List.Forall no_tick l3 /\ List.Forall keeping l3,
      List.Forall direct_event (l1 ++ Heard m :: l2 ++ Tick a b :: l3)%list,
      @life k r S q now now' (drive None (l1 ++ Heard m :: l2 ++ Tick a b :: l3)%list).1 = Ok (q1, f, css) &
      [/\ forall y, y_yaw (n_dyn n y) = y_yaw y, @serve k r S q1 f (Req n) = Ok (q2, f2, cs),
          List.In (CInit t s) cs & s_val s = FState s0]].

Definition attitude (s0 : state) (q : quat) : Prop := exists i, nth_error s0 2 = Some i /\ ival i = VQuat q.

Lemma yaw_attitude k S y h scale vals q : k = NPosition \/ k = NPositionPose ->
  init_values k S y h scale = Ok (Some (vals, q)) -> q = yaw_quat (y_yaw y).
Proof. by case=> ->; rewrite /init_values; [case=> _ <-|case: ifP => // _ [_ <-]]. Qed.

(** The attitude the filter starts with is the heading about the vertical axis. *)
Theorem C69_start k r S m x s0 : k = NPosition \/ k = NPositionPose ->
  heard None m = Some x -> start_after k r S m s0 ->
  let a := Rmult (Rdiv (clamp (IZR (-180)) (IZR 180) x) (IZR 180)) PI in
  exists q, [/\ attitude s0 q, m3vec (qrot q) (V3 R1 R0 R0) = V3 (cos a) (sin a) R0 &
                m3vec (qrot q) (V3 R0 R0 R1) = V3 R0 R0 R1].
Proof.
move=> hk hx [q [now [now' [l1 [l2 [a [b [l3 [q1 [f [css [n [q2 [f2 [cs [t [s]]]]]]]]]]]]]]]]].
case=> hq [ht hkp] hd hl [hn hs hin hv].
have hy := C69_yaw hx hq ht hkp hd hl.
have hdd : List.Forall direct (drive None (l1 ++ Heard m :: l2 ++ Tick a b :: l3)%list).1 by exact: drive_direct.
have [ha1 ha2] := life_yaw hdd hl.
have [e _] := call_back_step hs.
have hnan : s_val s <> FNan by rewrite hv.
have [y' [sc [hm [ey _]]]] := config_init e hin hnan.
have [vals [q0 [ei e0]]] := init_state_of hm hv.
have [_ h2] := init_attitude ei e0.
have eq0 := yaw_attitude hk ei.
have yy : y_yaw y' = clamp (IZR (-180)) (IZR 180) x.
  rewrite ey; have -> : forall z, y_yaw (no_delay k z) = y_yaw z by case: (k).
  by rewrite /= hn ha1 ha2 hy.
have [p1 p2] := yaw_points (y_yaw y').
exists q0; split.
- by rewrite /attitude h2 /inst_at; case: (k); eexists.
- by rewrite eq0 -yy.
- by rewrite eq0.
Qed.
Print Assumptions C69_start.

(** Headings up to half a turn are kept. *)
Lemma degrees_range a : Rle (Ropp PI) a -> Rle a PI -> clamp (IZR (-180)) (IZR 180) (degrees a) = degrees a.
Proof.
have hp := PI_RGT_0; move=> h1 h2; apply: clamp_id; rewrite /degrees.
- apply: (Rmult_le_reg_r PI) => //; have -> : Rmult (Rdiv (Rmult a (IZR 180)) PI) PI = Rmult a (IZR 180) by field; lra.
  lra.
- apply: (Rmult_le_reg_r PI) => //; have -> : Rmult (Rdiv (Rmult a (IZR 180)) PI) PI = Rmult a (IZR 180) by field; lra.
  lra.
Qed.

(** From an IMU with a compass: the filter starts looking where the IMU looks, levelled. *)
Theorem C69_compass k r S o s0 : k = NPosition \/ k = NPositionPose -> qnorm2 o = R1 ->
  let d := m3vec (qrot o) (V3 R1 R0 R0) in
  let n := sqrt (Rplus (Rmult (v3x d) (v3x d)) (Rmult (v3y d) (v3y d))) in
  Rlt tf_eps n -> start_after k r S (OnImu o) s0 ->
  exists q, [/\ attitude s0 q, m3vec (qrot q) (V3 R1 R0 R0) = V3 (Rdiv (v3x d) n) (Rdiv (v3y d) n) R0 &
                m3vec (qrot q) (V3 R0 R0 R1) = V3 R0 R0 R1].
Proof.
move=> hk ho d n hn hs; have [q [h1 h2 h3]] := C69_start hk (erefl : heard None (OnImu o) = Some _) hs.
exists q; split=> //; rewrite {}h2.
have [e1 e2] := @tf_column o ho.
have en : n = sqrt (Rplus (Rmult (tf_m00 o) (tf_m00 o)) (Rmult (tf_m10 o) (tf_m10 o))) by rewrite /n /d e1 e2.
have hpos : Rlt R0 (Rplus (Rmult (tf_m00 o) (tf_m00 o)) (Rmult (tf_m10 o) (tf_m10 o))).
  have h0 : Rlt R0 n by apply: Rlt_trans hn; rewrite /tf_eps; lra.
  case: (Rlt_or_le R0 (Rplus (Rmult (tf_m00 o) (tf_m00 o)) (Rmult (tf_m10 o) (tf_m10 o)))) => // h.
  by exfalso; move: h0; rewrite en sqrt_neg_0 //; apply: Rlt_irrefl.
have ey : tf_yaw o = atan2 (tf_m10 o) (tf_m00 o).
  by rewrite /tf_yaw -en; case: Rlt_dec.
have [[c1 c2] [b1 b2]] := @atan2_spec _ _ hpos.
rewrite ey degrees_range ?degrees_back; [|lra|lra].
by rewrite c1 c2 -en /d e1 e2.
Qed.
Print Assumptions C69_compass.

(** The filter starts with the heading it is given in radians. *)
Definition C69_radians_full : Prop := forall k r S a s0, k = NPosition \/ k = NPositionPose ->
  start_after k r S (OnRadians a) s0 ->
  exists q, attitude s0 q /\ m3vec (qrot q) (V3 R1 R0 R0) = V3 (cos a) (sin a) R0.

(** True up to half a turn; beyond that (a heading from 0 to 360 degrees) the server replaces it
    by 180 degrees. *)
Theorem C69_radians_partial k r S a s0 : k = NPosition \/ k = NPositionPose ->
  Rle (Ropp PI) a -> Rle a PI -> start_after k r S (OnRadians a) s0 ->
  exists q, attitude s0 q /\ m3vec (qrot q) (V3 R1 R0 R0) = V3 (cos a) (sin a) R0.
Proof.
move=> hk ha1 ha2 hs; have [q [h1 h2 _]] := C69_start hk (erefl : heard None (OnRadians a) = Some _) hs.
by exists q; split=> //; rewrite h2 degrees_range // degrees_back.
Qed.
Print Assumptions C69_radians_partial.

(** The length of the quaternion in the message does not matter unless it is close to zero. *)
Theorem C69_length h q c : let q' := Quat (Rmult c (qw q)) (Rmult c (qx q)) (Rmult c (qy q)) (Rmult c (qz q)) in
  Rle (Rdiv R1 (IZR 1000000000000)) (qnorm2 q) -> Rle (Rdiv R1 (IZR 1000000000000)) (qnorm2 q') ->
  heard h (OnImu q') = heard h (OnImu q).
Proof.
move=> q' h1 h2; have e : qnorm2 q' = Rmult (Rmult c c) (qnorm2 q) by rewrite /q' /qnorm2 /=; ring.
have t : Rlt tf_eps (Rdiv R1 (IZR 1000000000000)) by rewrite /tf_eps; lra.
have hc : c <> R0 by move=> hc; rewrite e hc in h2; lra.
have hq : qnorm2 q <> R0 by move=> hq; rewrite hq in h1; lra.
have m0 : tf_m00 q' = tf_m00 q.
  rewrite /tf_m00; do 2 (case: Rlt_dec => ? ; first by exfalso; lra).
  by rewrite e /q'; cbn [qw qx qy qz]; field; split.
have m1 : tf_m10 q' = tf_m10 q.
  rewrite /tf_m10; do 2 (case: Rlt_dec => ? ; first by exfalso; lra).
  by rewrite e /q'; cbn [qw qx qy qz]; field; split.
by rewrite /heard /tf_yaw m0 m1.
Qed.
Print Assumptions C69_length.

(** So in degrees, of which the message has three: the one about the z axis counts. *)
Theorem C69_degrees_partial k r S v s0 : k = NPosition \/ k = NPositionPose ->
  Rle (IZR (-180)) (v3z v) -> Rle (v3z v) (IZR 180) -> start_after k r S (OnDegrees v) s0 ->
  exists q, attitude s0 q /\ m3vec (qrot q) (V3 R1 R0 R0) =
    V3 (cos (Rdiv (Rmult (v3z v) PI) (IZR 180))) (sin (Rdiv (Rmult (v3z v) PI) (IZR 180))) R0.
Proof.
move=> hk ha1 ha2 hs; have [q [h1 h2 _]] := C69_start hk (erefl : heard None (OnDegrees v) = Some _) hs.
exists q; split=> //; rewrite h2 /= clamp_id //.
by have -> : Rmult (Rdiv (v3z v) (IZR 180)) PI = Rdiv (Rmult (v3z v) PI) (IZR 180) by field.
Qed.
Print Assumptions C69_degrees_partial.

(** ** Runs *)

Definition begin : request := Request (fun y => y) None None (Some true) None (Zpos xH) (Zpos xH).
Lemma start_runs r S m x : heard None m = Some x -> exists s0, start_after NPosition r S m s0.
Proof.
move=> hx.
have [y1 e1] := @config_runs NPosition r S front_new (q_dyn (clamp_params defaults)) None (or_introl erefl).
set q1 := Params (clamp_dynamic dynamic_new) (clamp_scale R1) (clamp_height R1) false false.
have s1 : server_start NPosition r S defaults 0 0 = Ok (q1, Front y1 handlers_new (-1), [::]) by rewrite /server_start /call_back e1.
set n := Request (set_yaw x) None None None None Z0 Z0.
have [y2 e2] := @config_runs NPosition r S (Front y1 handlers_new (-1)) (q_dyn (clamp_params (merge q1 n))) None (or_introl erefl).
set q2 := clamp_params (merge q1 n).
have s2 : serve NPosition r S q1 (Front y1 handlers_new (-1)) (Req n) = Ok (q2, Front y2 handlers_new (-1), [::]) by rewrite /serve /call_back e2.
have hdr : (drive None ([::] ++ Heard m :: [::] ++ Tick Z0 Z0 :: [::])%list).1 = [:: Req n] by rewrite /= hx.
eexists; exists defaults, Z0, Z0, [::], [::], Z0, Z0, [::], q2, (Front y2 handlers_new (-1)), [:: [::]; [::]], begin.
eexists; eexists; eexists; eexists; eexists; split.
- by constructor.
- by split; constructor.
- by repeat constructor.
- by rewrite hdr /life s1; cbn [bind session]; rewrite s2.
- by split; [by []|reflexivity|left; reflexivity|reflexivity].
Qed.

Example C69_length_ex : Rle (Rdiv R1 (IZR 1000000000000)) (qnorm2 (Quat R1 R0 R0 R1)) /\ Rle (Rdiv R1 (IZR 1000000000000)) (qnorm2 (Quat (IZR 3) R0 R0 (IZR 3))).
Proof. by rewrite /qnorm2 /=; split; lra. Qed.
Example C69_degrees_ex : exists s0, start_after NPosition (some_process false) demo (OnDegrees (V3 R0 R0 (IZR 90))) s0.
Proof. exact: start_runs. Qed.
Theorem C69_radians_refuted : ~ C69_radians_full.
Proof.
move=> h; pose a := Rmult (IZR 3) (Rdiv PI (IZR 2)).
have hp := PI_RGT_0; have hk : NPosition = NPosition \/ NPosition = NPositionPose by left.
have [s0 hs] := @start_runs (some_process false) demo (OnRadians a) _ erefl.
have [q [[i [hi ei]] h1]] := h _ _ _ _ _ hk hs.
have [q' [[i' [hi' ei']] h2 _]] := C69_start hk (erefl : heard None (OnRadians a) = Some _) hs.
move: hi'; rewrite hi => -[eii]; move: ei'; rewrite -eii ei => -[eq']; move: h2; rewrite -eq' h1.
have -> : clamp (IZR (-180)) (IZR 180) (degrees a) = IZR 180.
  have -> : degrees a = IZR 270 by rewrite /degrees /a; field; lra.
  by rewrite /clamp; case: Rlt_dec => h3 /=; case: Rlt_dec => h4 //=; exfalso; move: h3 h4 => /=; lra.
have -> : Rmult (Rdiv (IZR 180) (IZR 180)) PI = PI by field.
rewrite cos_PI sin_PI => -[_ e]; move: e; rewrite /a sin_3PI2; lra.
Qed.
Print Assumptions C69_radians_refuted.

(** ** The topic with quaternions *)

(** An orientation as a quaternion gives a heading as well. *)
Definition C69_quaternion_full : Prop := forall o a b, qnorm2 o = R1 ->
  (drive None [:: Heard (OnQuaternion o); Tick a b]).1 <> [::].
Theorem C69_quaternion_refuted : ~ C69_quaternion_full.
Proof. by move=> h; apply: (h qone Z0 Z0) => //; rewrite /qnorm2 /qone /=; ring. Qed.
Print Assumptions C69_quaternion_refuted.

(** It never does: with this topic alone the script sends nothing. *)
Definition others (l : list event) : list message :=
  List.concat (List.map (fun e => match e with Other m => [:: m] | _ => [::] end) l).
Theorem C69_silent l : List.Forall quiet l -> drive None l = (others l, None).
Proof.
elim: l => [|e l IH] // hq; have [he hl] : quiet e /\ List.Forall quiet l by inversion hq.
by case: e he {hq} => [m [q ->]|a b _|m _] /=; rewrite IH.
Qed.
Print Assumptions C69_silent.

(** ** The script changes nothing else *)

Definition with_yaw (x : R) (q : params) : params := Params (set_yaw x (q_dyn q)) (q_scale q) (q_height q) (q_init q) (q_set q).
Definition own (e : event) : Prop := match e with Other _ => False | _ => True end.

Lemma set_yaw_twice x x' y : set_yaw x (set_yaw x' y) = set_yaw x y.
Proof. by []. Qed.
Lemma with_yaw_ranged x q : ranged_params q -> clamp_params (merge q (Request (set_yaw x) None None None None Z0 Z0)) = with_yaw (clamp_yaw x) q.
Proof.
case=> hr [h1 h2] [h3 h4]; rewrite /clamp_params /with_yaw /clamp_scale /clamp_height /= !clamp_id //.
congr Params; move: (clamp_dynamic_id hr); case: (q_dyn q) => zp zq d1 b1 b2 b3 b4 b5 pos d2 b6 press ang d3 dist d4 yaw /=.
by rewrite /clamp_dynamic /set_yaw /= => -[-> -> -> -> -> -> -> -> -> -> _].
Qed.

Theorem C69_harmless k r S q now now' l0 q1 f1 css1 h l :
  k = NPosition \/ k = NPositionPose -> List.Forall direct l0 -> @life k r S q now now' l0 = Ok (q1, f1, css1) ->
  List.Forall own l ->
  exists x f2 css2,
    [/\ @session k r S q1 f1 (drive h l).1 = Ok (with_yaw x q1, f2, css2), List.concat css2 = [::], f_h f2 = f_h f1, i_seq f2 = i_seq f1 &
        f2 = f1 \/ f_dyn f2 = set_yaw x (q_dyn q1)].
Proof.
move=> hk hd hl; have [hr _] := C68_ranges hd hl; move: {hl hd l0 css1 q now now'} hr.
have hyaw q : with_yaw (y_yaw (q_dyn q)) q = q by case: q => -[].
suff H : forall l h q f, List.Forall own l -> ranged_params q -> exists x f2 css2,
    [/\ @session k r S q f (drive h l).1 = Ok (with_yaw x q, f2, css2), List.concat css2 = [::], f_h f2 = f_h f, i_seq f2 = i_seq f &
        (f2 = f /\ x = y_yaw (q_dyn q)) \/ f_dyn f2 = set_yaw x (q_dyn q)].
  move=> hr ho; have [x [f2 [css2 [h1 h2 h3 h4 h5]]]] := H l h q1 f1 ho hr.
  by exists x, f2, css2; split=> //; case: h5 => [[-> _]|]; [left|right].
elim=> [|e l' IH] h' q f ho hr.
  by exists (y_yaw (q_dyn q)), f, [::]; rewrite hyaw; split=> //; left.
have [he hl] : own e /\ List.Forall own l' by inversion ho.
case: e he {ho} => [m|a b|//] _ /=; first exact: IH.
case E: (drive h' l') => [ms h2] /=.
case: h' E => [x|] E /=; last by have := IH None q f hl hr; rewrite E.
have [y' e1] := @config_runs k r S f (set_yaw (clamp_yaw x) (q_dyn q)) None (or_introl erefl).
have ey : y' = set_yaw (clamp_yaw x) (q_dyn q).
  have hk' : k <> NPosePressure by case: hk => ->.
  by have [_ ] := C66_settings_partial (or_introl hk') e1; case: (hk) => ->.
have es : call_back k r S false q (with_yaw (clamp_yaw x) q) a b f = Ok (with_yaw (clamp_yaw x) q, Front y' (f_h f) (i_seq f), [::]).
  rewrite /call_back /with_yaw; cbn [q_init q_set q_dyn q_scale q_height]; rewrite !eqxx andbF.
  by cbn [orb andb negb]; rewrite e1.
rewrite with_yaw_ranged // es; cbn [bind].
have hr2 : ranged_params (with_yaw (clamp_yaw x) q).
  by have := clamp_params_in (merge q (Request (set_yaw x) None None None None Z0 Z0)); rewrite with_yaw_ranged.
have [x2 [f2 [css2 [h1 h3 h4 h5 h6]]]] := IH (Some x) _ (Front y' (f_h f) (i_seq f)) hl hr2.
rewrite E in h1; rewrite h1; cbn [bind].
exists x2, f2, ([::] :: css2); split=> //; right.
by case: h6 => [[-> ->]|->].
Qed.
Print Assumptions C69_harmless.

(** ** An example: an IMU that looks left and a little back *)
Example C69_ex : exists o s0 q,
  [/\ qnorm2 o = R1, start_after NPosition (some_process false) demo (OnImu o) s0, attitude s0 q &
      m3vec (qrot q) (V3 R1 R0 R0) = V3 (Rdiv (IZR (-7)) (IZR 25)) (Rdiv (IZR 24) (IZR 25)) R0].
Proof.
pose o := Quat (Rdiv (IZR 3) (IZR 5)) R0 R0 (Rdiv (IZR 4) (IZR 5)).
have ho : qnorm2 o = R1 by rewrite /qnorm2 /o /=; field.
have [s0 hs] := @start_runs (some_process false) demo (OnImu o) _ erefl.
have ed : m3vec (qrot o) (V3 R1 R0 R0) = V3 (Rdiv (IZR (-7)) (IZR 25)) (Rdiv (IZR 24) (IZR 25)) R0.
  by rewrite /m3vec /qrot /v3dot /o /=; congr V3; field.
have en : sqrt (Rplus (Rmult (v3x (m3vec (qrot o) (V3 R1 R0 R0))) (v3x (m3vec (qrot o) (V3 R1 R0 R0))))
                      (Rmult (v3y (m3vec (qrot o) (V3 R1 R0 R0))) (v3y (m3vec (qrot o) (V3 R1 R0 R0))))) = R1.
  by rewrite ed /=; have -> : Rplus (Rmult (Rdiv (IZR (-7)) (IZR 25)) (Rdiv (IZR (-7)) (IZR 25)))
      (Rmult (Rdiv (IZR 24) (IZR 25)) (Rdiv (IZR 24) (IZR 25))) = R1; [field|exact: sqrt_1].
have hk : NPosition = NPosition \/ NPosition = NPositionPose by left.
have [|q [h1 h2 _]] := C69_compass hk ho _ hs; first by rewrite en /tf_eps; lra.
exists o, s0, q; split=> //; rewrite h2 en ed /=; congr V3; field.
Qed.
