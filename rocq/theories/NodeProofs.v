(** Lemmas about the nodes (Node.v). *)

From Coq Require Import Reals ZArith Lia Lra List.
From mathcomp Require Import all_ssreflect all_algebra.
From Verif Require Import Outcome SortedContainer Core CoreBasics Geom GeomProofs StateList Propagate ProcNoise Cov RField Sensors Filter FilterState
  Readings Handlers Messages PropertiesFilter Node.

Set Implicit Arguments.
Unset Strict Implicit.
Unset Printing Implicit Defensive.

Lemma shipped_kind k r : shipped (dim k) (config_of k r).
Proof. by case: k; constructor. Qed.

(** ** Initial states *)

Lemma yaw_unit y : qnorm2 (yaw_quat y) = R1.
Proof.
rewrite /yaw_quat; apply: qnormalize_unit; rewrite /qnorm2; cbn [qw qx qy qz].
have := sin2_cos2 (Rdiv (Rmult (Rdiv y (IZR 180)) PI) (IZR 2)); rewrite /Rsqr => h; lra.
Qed.

Lemma nonzeroP x : nonzero x = true <-> x <> R0.
Proof. by rewrite /nonzero; case: (Req_EM_T x _). Qed.
Lemma zero_qP q : zero_q q = false <-> qnorm2 q <> R0.
Proof. by rewrite /zero_q; case e: (nonzero _) => /=; split=> // h; [apply/nonzeroP|have := proj2 (nonzeroP _) h; rewrite e]. Qed.

Definition start_q (received : bool) (q_ic0 q_cv : quat) : quat :=
  qnormalize (if received then qconj (qmul (qmul (qnormalize q_ic0) (qconj q_cv)) qone) else qone).
Lemma start_q_unit received q_ic0 q_cv : qnorm2 q_ic0 <> R0 -> (received = true -> qnorm2 q_cv <> R0) ->
  qnorm2 (start_q received q_ic0 q_cv) = R1.
Proof.
move=> h1 h2; rewrite /start_q; apply: qnormalize_unit; case: received h2 => h2; last by rewrite one_unit; lra.
rewrite qnorm2_conj !qnorm2_mul one_unit qnormalize_unit // qnorm2_conj; have := h2 erefl; lra.
Qed.

Definition Q0 : nat -> nat -> R := fun _ _ => R0.
Definition set3 (t : svar) (a : v3) := Inst t (vvec a) Q0 true.
Lemma var_vec t a : vkd t = KVec 3 -> var_ok (Inst t (vvec a) Q0 true).
Proof.
move=> h; split; [by rewrite /shape_ok /= h|split=> // _].
by exists R0; split; [exact: Rle_refl|move=> i j; case: Nat.eqb].
Qed.
Lemma var_vec0 t a : vkd t = KVec 3 -> var_ok (Inst t (VVec [:: a; a; a]) Q0 false).
Proof.
move=> h; split; [by rewrite /shape_ok /= h|split=> // _].
by exists R0; split; [exact: Rle_refl|move=> i j; case: Nat.eqb].
Qed.
Lemma var_real t x : vkd t = KVec 1 -> var_ok (Inst t (VVec [:: x]) Q0 true).
Proof.
move=> h; split; [by rewrite /shape_ok /= h|split=> // _].
by exists R0; split; [exact: Rle_refl|move=> i j; case: Nat.eqb].
Qed.
Lemma var_quat t q : vkd t = KQuat -> qnorm2 q = R1 -> var_ok (Inst t (VQuat q) Q0 true).
Proof.
move=> h hq; split; [by rewrite /shape_ok /= h|split=> [q' [<-] //|_]].
by exists R0; split; [exact: Rle_refl|move=> i j; case: Nat.eqb].
Qed.

(** The variables of an initial state, and where it comes from. *)
Definition inst_at (k : kind) (r : process) (j : nat) (x : value) : option inst :=
  match nth_error (c_vars (config_of k r)) j with Some t => Some (Inst t x Q0 true) | None => None end.

Lemma init_fine k r S y h scale vals q : init_values k S y h scale = Ok (Some (vals, q)) ->
  (k = NPositionPose -> qnorm2 (a_zq (h_pose h)) = R1) ->
  exists s, [/\ initial_state (c_vars (config_of k r)) vals = Ok s, fine (c_vars (config_of k r)) s,
    nth_error s 3 = inst_at k r 3 (vvec v3zero) /\ nth_error s 4 = inst_at k r 4 (vvec v3zero),
    (has_pose k -> nth_error s 5 = inst_at k r 5 (VVec [:: scale])) &
    (k = NPose -> [/\ nth_error s 6 = inst_at k r 6 (VQuat qone), nth_error s 7 = inst_at k r 7 (vvec v3zero),
                      nth_error s 8 = inst_at k r 8 (VQuat (qnormalize (k_q_ic S))) &
                      nth_error s 9 = inst_at k r 9 (vvec (k_p_ic S))])].
Proof.
have hu := one_unit.
case: k => /=.
- move=> -[<- _] _; eexists; split; [reflexivity| |by []|by []|by []].
  split; first by []. repeat (apply: List.Forall_cons; [first [exact: var_vec|apply: var_quat => //; exact: yaw_unit]|]); exact: List.Forall_nil.
- move=> -[<- _] _; eexists; split; [reflexivity| |by []|by []|by []].
  split; first by []. repeat (apply: List.Forall_cons; [first [exact: var_vec|apply: var_quat => //; exact: yaw_unit]|]); exact: List.Forall_nil.
- case: ifP => // /Bool.orb_false_iff [/Bool.orb_false_iff [hs hi] hq] [<- _] _.
  eexists; split; [reflexivity| |by []|by []|by []].
  have h1 : qnorm2 (k_q_ic S) <> R0 by apply/zero_qP.
  have h2 : qnorm2 (start_q (a_first (h_pose h)) (k_q_ic S) (a_zq (h_pose h))) = R1.
    by apply: start_q_unit => // e; apply/zero_qP; move: hq; rewrite e.
  split; first by [].
  repeat (apply: List.Forall_cons; [first [exact: var_vec|exact: var_real|by apply: var_quat => //; apply: qnormalize_unit]|]); exact: List.Forall_nil.
- case: (p_z _) => // zpress; case: ifP => // /Bool.orb_false_iff [/Bool.orb_false_iff [hs hi] hq] [<- _] _.
  eexists; split; [reflexivity| |by []|by []|by []].
  have h1 : qnorm2 (k_q_ic S) <> R0 by apply/zero_qP.
  have h2 : qnorm2 (start_q (a_first (h_pose h)) (k_q_ic S) (a_zq (h_pose h))) = R1.
    by apply: start_q_unit => // e; apply/zero_qP; move: hq; rewrite e.
  split; first by [].
  repeat (apply: List.Forall_cons; [first [exact: var_vec|exact: var_real|by apply: var_quat => //; apply: qnormalize_unit|exact: var_vec0]|]); exact: List.Forall_nil.
- case: ifP => // /Bool.orb_false_iff [hs hi] [<- _] /(_ erefl) hz.
  eexists; split; [reflexivity| |by []|by []|by []].
  have h1 : qnorm2 (k_q_ic S) <> R0 by apply/zero_qP.
  have h3 := yaw_unit (y_yaw y).
  have h4 : qnorm2 (qconj (qmul (qmul (yaw_quat (y_yaw y)) (qnormalize (k_q_ic S))) (qconj (a_zq (h_pose h))))) = R1.
    by rewrite qnorm2_conj !qnorm2_mul qnorm2_conj hz h3 qnormalize_unit //; ring.
  split; first by [].
  repeat (apply: List.Forall_cons; [first [exact: var_vec|exact: var_real|by apply: var_quat => //; apply: qnormalize_unit]|]); exact: List.Forall_nil.
Qed.

Lemma init_pip k r S y h scale vals q s : k = NPosition \/ k = NSpherical -> init_values k S y h scale = Ok (Some (vals, q)) ->
  initial_state (c_vars (config_of k r)) vals = Ok s -> nth_error s 5 = inst_at k r 5 (vvec (k_p_ip S)).
Proof. by case=> -> [<- _] [<-]. Qed.

(** ** From the front to the core *)

Lemma node_lift k r S d (J : front -> Prop) (Q : call (filter (dim k) (config_of k r)) -> Prop) (G : input -> Prop) :
  (forall f i f' cs, J f -> G i -> front_step k r S f i = Ok (f', cs) -> J f' /\ List.Forall Q cs) ->
  forall l f c f' c' ev, J f -> List.Forall G l -> node_run S d f c l = Ok (f', c', ev) ->
  exists calls, [/\ J f', List.Forall Q calls & run (filter (dim k) (config_of k r)) d c calls = Ok (c', ev)].
Proof.
move=> hstep; elim=> [|i l IH] f c f' c' ev hJ hG /=.
  by case=> <- <- <-; exists [::]; split=> //; constructor.
have [hi hl] : G i /\ List.Forall G l by inversion hG.
case e1: (front_step _ _ _ _ _) => [[f1 cs]| |] //=.
case e2: (run _ _ _ _) => [[c1 ev1]| |] //=.
case e3: (node_run _ _ _ _) => [[[f2 c2] ev2]| |] //= -[<- <- <-].
have [h1 h2] := hstep _ _ _ _ hJ hi e1.
have [calls [h3 h4 h5]] := IH _ _ _ _ _ h1 hl e3.
exists (cs ++ calls)%list; split=> //; first by apply/List.Forall_app.
by rewrite run_app e2 /= h5.
Qed.

(** ** Calls of the front *)

Lemma fine_state_of l s : fine l s -> state_of l s.
Proof. by move/state_of_fine. Qed.

Definition flags (y : dynamic) : bool * bool * bool * bool * bool * bool :=
  (y_fix_L y, y_fix_qwv y, y_fix_pwv y, y_fix_qic y, y_fix_pic y, y_fix_pip y).

Definition ext_nonzero (msg : ext_ekf) : Prop :=
  exists j x, [/\ (6 <= j < 10)%N, nth_error (e_state msg) j = Some x & x <> R0].

Lemma at_some (l : list R) i x : at_ l i = Ok x -> nth_error l i = Some x.
Proof. by rewrite /at_; case: nth_error => // y [<-]. Qed.

Lemma callback_inv playback msg x taken : state_callback playback true msg = Ok (x, taken) ->
  exists a b c d, [/\ nth_error (e_state msg) 6 = Some a, nth_error (e_state msg) 7 = Some b,
    nth_error (e_state msg) 8 = Some c, nth_error (e_state msg) 9 = Some d &
    x.2 = qnormalize (Quat a b c d) /\ (taken = true -> playback = false /\ e_flag msg = current_state)].
Proof.
rewrite /state_callback; cbv zeta.
do 6 (case: (at_ _ _) => [?| |]; cbn [bind]; try done).
case e6: (at_ (e_state msg) 6) => [h6| |]; cbn [bind] => //.
case e7: (at_ (e_state msg) 7) => [h7| |]; cbn [bind] => //.
case e8: (at_ (e_state msg) 8) => [h8| |]; cbn [bind] => //.
case e9: (at_ (e_state msg) 9) => [h9| |]; cbn [bind] => //.
case=> <- <-; exists h6, h7, h8, h9; split; try exact: at_some.
by split=> //; case: playback => //; case: (e_flag msg).
Qed.

Lemma ext_unit playback msg x taken : state_callback playback true msg = Ok (x, taken) ->
  (playback = false -> e_flag msg = current_state -> ext_nonzero msg) -> taken = true -> qnorm2 x.2 = R1.
Proof.
move/callback_inv=> [h6 [h7 [h8 [h9 [e6 e7 e8 e9 [-> ht]]]]]] h /ht [/h h' /h' [j [y [hj hy hn]]]].
apply: qnormalize_unit; rewrite /qnorm2 /= => hz.
have sq z : Rle R0 (Rmult z z) by have := Rle_0_sqr z.
have sq0 z : Rmult z z = R0 -> z = R0 by exact: Rsqr_0_uniq.
have := sq h6; have := sq h7; have := sq h8; have := sq h9 => g9 g8 g7 g6.
apply: hn; have : j = 6%N \/ j = 7%N \/ j = 8%N \/ j = 9%N by move: hj => /andP [/leP ? /ltP ?]; lia.
case=> [ej|[ej|[ej|ej]]]; move: hy; rewrite ej.
- by rewrite e6 => -[<-]; apply: sq0; lra.
- by rewrite e7 => -[<-]; apply: sq0; lra.
- by rewrite e8 => -[<-]; apply: sq0; lra.
- by rewrite e9 => -[<-]; apply: sq0; lra.
Qed.

Lemma scale_calls k r S f now x f' cs : front_step k r S f (IScale now x) = Ok (f', cs) ->
  f' = f /\ (cs = [::] \/ k = NPose /\ exists c, cs = [:: c] /\ manager_init k r S (f_dyn f) (f_h f) now x = Ok c).
Proof.
case: k cs => cs /=; try by case=> <- <-; split=> //; left.
case e: (manager_init _ _ _ _ _ _ _) => [c| |] //= -[<- <-]; split=> //; right; split=> //; by exists c.
Qed.
Lemma height_calls k r S f now z f' cs : front_step k r S f (IHeight now z) = Ok (f', cs) ->
  f' = f /\ (cs = [::] \/ k = NPose /\ exists c, cs = [:: c] /\
    manager_init k r S (f_dyn f) (f_h f) now (Rdiv (v3z (a_zp (h_pose (f_h f)))) z) = Ok c).
Proof.
case: k cs => cs /=; try by case=> <- <-; split=> //; left.
rewrite /on_height; case: ifP => _ /=; first by case=> <- <-; split=> //; left.
case: Rlt_dec => _ /=; last by case=> <- <-; split=> //; left.
case e: (manager_init _ _ _ _ _ _ _) => [c| |] //= -[<- <-]; split=> //; right; split=> //; by exists c.
Qed.

Section Calls.
Variables (k : kind) (r : process) (S : settings).
Let F := filter (dim k) (config_of k r).
Let cfg := config_of k r.
Variables (FP : bool * bool * bool * bool * bool * bool -> Prop) (SP HP : R -> Prop) (ZP : v3 -> Prop).
Variables (VP : state -> Prop) (RM : reading -> Prop).
Hypothesis hinit : forall y h scale vals q s, SP scale -> init_values k S y h scale = Ok (Some (vals, q)) ->
  (k = NPositionPose -> qnorm2 (a_zq (h_pose h)) = R1) ->
  initial_state (c_vars cfg) vals = Ok s -> VP s.
Hypothesis hheight : forall zp z, ZP zp -> HP z -> SP (Rdiv (v3z zp) z).
Hypothesis hpose : has_pose k -> forall y g zp zq Rm, FP (flags y) -> RM (RPose (pose_fixedstates y) g zp zq Rm).
Hypothesis hpos : has_pos k -> forall y g z Rm, FP (flags y) -> RM (RPosition (pos_fixedstates (c_pip cfg) y) g z Rm).
Hypothesis hpress : has_press k -> forall g z Rm, RM (RPressure g z Rm).
Hypothesis hangle : has_sph k -> forall y g th ph Rm, FP (flags y) -> RM (RAngle (pos_fixedstates (c_pip cfg) y) g th ph Rm).
Hypothesis hdist : has_sph k -> forall y g z Rm, FP (flags y) -> RM (RDistance (pos_fixedstates (c_pip cfg) y) g z Rm).

Definition in_ok (i : input) : Prop :=
  match i with
  | IExt msg _ _ _ => k_playback S = false -> e_flag msg = current_state -> ext_nonzero msg
  | IPose m => (k = NPositionPose -> qnorm2 (m_q m) = R1) /\
               ZP (pose_reading (k_pose_fixed S) (k_world S) (m_p m) (m_q m)).1
  | IConfig y init height =>
    [/\ FP (flags y), (forall now x, init = Some (now, x) -> SP x) &
        (has_pose k -> forall now z, height = Some (now, z) -> HP z)]
  | IScale _ x => k = NPose -> SP x
  | IHeight _ z => k = NPose -> HP z
  | _ => True
  end.
Definition front_ok (f : front) : Prop :=
  [/\ FP (flags (f_dyn f)), (k = NPositionPose -> qnorm2 (a_zq (h_pose (f_h f))) = R1) & ZP (a_zp (h_pose (f_h f)))].
Let ok := @call_ok (dim k) cfg VP (@any_cov (dim k)) RM.

Lemma nan_init now : ok (CInit now (@mkst F v3zero v3zero FNan (PMat (initial_cov k)))).
Proof. by []. Qed.

Lemma init_ok y h now scale c : SP scale -> (k = NPositionPose -> qnorm2 (a_zq (h_pose h)) = R1) ->
  manager_init k r S y h now scale = Ok c -> ok c.
Proof.
move=> hs hz; rewrite /manager_init; case e: (init_values _ _ _ _ _) => [[[vals q]|]| |] //=.
- have [s [h1 h2 _ _ _]] := init_fine r e hz.
  rewrite h1 /= => -[<-]; split=> //=; split; first exact: fine_state_of.
  exact: hinit hs e hz h1.
- by case=> <-; exact: nan_init.
Qed.

Lemma no_delay_flags y : flags (no_delay k y) = flags y.
Proof. by case: k. Qed.
Lemma keep_flags y y' : flags (keep_noise y y') = flags y'.
Proof. by []. Qed.

Lemma pose_zq y h m h' o : pose_callback S y h m = Ok (h', o) ->
  qnorm2 (m_q m) = R1 -> qnorm2 (a_zq h) = R1 -> qnorm2 (a_zq h') = R1.
Proof.
rewrite /pose_callback; case: (watch_dog _ _) => [[w last]| |] //=; case: ifP => he; first by case=> <-.
case: (throttle _ _ _) => [[] prev] //=; last by case=> <-.
rewrite /pose_message he => -[<- _] h1 h2 /=.
by rewrite /pose_reading; case: (k_pose_fixed S); case: (k_world S); rewrite /= ?qnorm2_conj.
Qed.

Lemma pose_zp y h m h' o : pose_callback S y h m = Ok (h', o) ->
  ZP (pose_reading (k_pose_fixed S) (k_world S) (m_p m) (m_q m)).1 -> ZP (a_zp h) -> ZP (a_zp h').
Proof.
rewrite /pose_callback; case: (watch_dog _ _) => [[w last]| |] //=; case: ifP => he; first by case=> <-.
case: (throttle _ _ _) => [[] prev] //=; last by case=> <-.
by rewrite /pose_message he => -[<- _].
Qed.

Lemma front_step_ok f i f' cs : front_ok f -> in_ok i -> front_step k r S f i = Ok (f', cs) ->
  front_ok f' /\ List.Forall ok cs.
Proof.
move=> [hf hq hz]; case: i => [seq a g t|msg a g t|m|m|m|m|m|y init height|now x|now x] hi; last 2 first.
- move/scale_calls=> [-> [->|[hk [c [-> e]]]]]; split=> //; constructor=> //.
  exact: init_ok (hi hk) hq e.
- move/height_calls=> [-> [->|[hk [c [-> e]]]]]; split=> //; constructor=> //.
  exact: init_ok (hheight hz (hi hk)) hq e.
all: move: hi => /= hi.
- case: (imu_watch _ _) => [last| |] //= -[<- <-]; split=> //; by constructor.
- case e: (state_callback _ _ _) => [[x taken]| |] //= -[<- <-]; split=> //; constructor=> //= ht.
  exact: (ext_unit e).
- case hp: (has_pose k) => /=; last by case=> <- <-; split=> //; constructor.
  case e: (pose_callback _ _ _ _) => [[p o]| |] //= -[<- <-]; split.
    case: hi => hi1 hi2; split=> //=; last exact: (pose_zp e hi2 hz).
    by move=> hk; exact: (pose_zq e (hi1 hk) (hq hk)).
  move: e; rewrite /pose_callback; case: (watch_dog _ _) => [[w last]| |] //=; case: ifP => he; first by case=> _ <-; constructor.
  case: (throttle _ _ _) => [[] prev] //=; last by case=> _ <-; constructor.
  rewrite /pose_message he => -[_ <-] /=; constructor; last by constructor.
  exact: hpose.
- case hp: (has_pos k) => /=; last by case=> <- <-; split=> //; constructor.
  case e: (pos_callback _ _ _ _ _) => [[p o]| |] //= -[<- <-]; split=> //.
  move: e; rewrite /pos_callback; case: (watch_dog _ _) => [[w last]| |] //=; case: ifP => he; first by case=> _ <-; constructor.
  rewrite /position_message; case: ifP => _ -[_ <-] /=; constructor; last by constructor.
  exact: hpos.
- case hp: (has_press k) => /=; last by case=> <- <-; split=> //; constructor.
  case e: (press_callback _ _ _ _) => [[p o]| |] //= -[<- <-]; split=> //.
  move: e; rewrite /press_callback; case: (watch_dog _ _) => [[w last]| |] //=; case: ifP => he -[_ <-] /=; constructor; last by constructor.
  exact: hpress.
- case hp: (has_sph k) => /=; last by case=> <- <-; split=> //; constructor.
  case e: (angle_callback _ _ _ _ _) => [[p o]| |] //= -[<- <-]; split=> //.
  move: e; rewrite /angle_callback /angle_message; case: (watch_dog _ _) => [[w last]| |] //=; case: ifP => he -[_ <-] /=; constructor; last by constructor.
  exact: hangle.
- case hp: (has_sph k) => /=; last by case=> <- <-; split=> //; constructor.
  case e: (dist_callback _ _ _ _ _) => [[p o]| |] //= -[<- <-]; split=> //.
  move: e; rewrite /dist_callback /distance_message; case: (watch_dog _ _) => [[w last]| |] //=; case: ifP => he -[_ <-] /=; constructor; last by constructor.
  exact: hdist.
- case: hi => h1 h2 h3; rewrite /on_config.
  have hy : FP (flags (no_delay k y)) by rewrite no_delay_flags.
  have hc1 : forall c1, (match init with
             | Some (now, scale) => let* c := manager_init k r S (no_delay k y) (f_h f) now scale in Ok [:: c]
             | None => Ok [::] end) = Ok c1 -> List.Forall ok c1.
    move=> c1; case: init h2 => [[now x]|] h2; last by case=> <-; constructor.
    case e: (manager_init _ _ _ _ _ _ _) => [c| |] //= -[<-]; constructor; last by constructor.
    exact: init_ok (h2 _ _ erefl) hq e.
  case: (match init with Some _ => _ | None => _ end) hc1 => [c1| |] //= /(_ _ erefl) hc1.
  case: height h3 => [[now z]|] h3; last by case=> <- <-.
  case hp: (has_pose k) => /=; last by case=> <- <-.
  have hh := hheight hz (h3 hp _ _ erefl).
  case: ifP => _; first by case=> <- <-; split=> //; split=> //=; case: (k) hy => //.
  case: ifP => _ /=.
    case e: (manager_init _ _ _ _ _ _ _) => [c| |] //= -[<- <-]; split=> //; apply/List.Forall_app; split=> //.
    constructor; [exact: init_ok hh hq e|by constructor].
  case=> <- <-; split=> //; apply/List.Forall_app; split=> //.
  by constructor; [exact: nan_init|constructor].
Qed.
End Calls.
