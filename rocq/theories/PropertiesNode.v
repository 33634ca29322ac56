(** C65: which messages reach the filter.  C66: the whole node. *)

From Coq Require Import Reals ZArith Lia Lra List.
From mathcomp Require Import all_ssreflect all_algebra.
From Verif Require Import Outcome SortedContainer Core CoreBasics CoreSafety Geom GeomProofs StateList Propagate ProcNoise Cov CovSpec RField Sensors Filter FilterState
  SensorsProofs PropertiesSensors Readings Handlers Messages PropertiesCov PropertiesFilter Node NodeProofs.

Set Implicit Arguments.
Unset Strict Implicit.
Unset Printing Implicit Defensive.

(** ** C65: pose messages *)

(** Messages with a covariance count; others only if the covariance is a setting. *)
Definition eligible (S : settings) (m : pose_msg) : Prop :=
  match m_topic m with TPoseCov | TOdometry => True | TTransform | TPose => k_pose_fixed S = true end.

(** [t] is the stamp of the last message before number [n] that was handed on, or 0. *)
Definition last_handed (l : list (dynamic * pose_msg)) (outs : list (option (Z * reading))) (n : nat) (t : Z) : Prop :=
  (exists i y m o, [/\ (i < n)%coq_nat, nth_error l i = Some (y, m), nth_error outs i = Some (Some o), m_stamp m = t &
     forall j, (i < j)%coq_nat -> (j < n)%coq_nat -> nth_error outs j = Some None]) \/
  (forall j, (j < n)%coq_nat -> nth_error outs j = Some None) /\ t = Z0.

(** What is handed on: the stamp without the delay, the flags of the settings, the reading. *)
Definition flags_of (y : dynamic) (fs : Z) : Prop := forall j,
  Z.testbit fs (Z.of_nat j) = true <->
  j = 5%N /\ y_fix_L y = true \/ j = 6%N /\ y_fix_qwv y = true \/ j = 7%N /\ y_fix_pwv y = true \/
  j = 8%N /\ y_fix_qic y = true \/ j = 9%N /\ y_fix_pic y = true.
Definition pose_handed (S : settings) (y : dynamic) (m : pose_msg) (o : Z * reading) : Prop :=
  o.1 = Z.sub (m_stamp m) (y_pose_delay y) /\
  match o.2 with
  | RPose fs g zp zq _ => [/\ flags_of y fs, g = k_gate S &
      (k_world S = true \/ k_pose_fixed S = true -> zp = m_p m /\ zq = m_q m) /\
      (k_world S = false -> k_pose_fixed S = false -> zq = qconj (m_q m) /\
        (qnorm2 (m_q m) = R1 -> v3add (m3vec (qrot (m_q m)) zp) (m_p m) = v3zero))]
  | _ => False
  end.

Lemma testbit_bit b k j : Z.testbit (bit b (Z.of_nat k)) (Z.of_nat j) = b && (j == k).
Proof.
rewrite /bit; case: b; last by rewrite Z.bits_0.
case: (eqVneq j k) => [->|hn].
  by rewrite Z.shiftl_spec ?Z.sub_diag //; lia.
have hn' : j <> k by move/eqP: hn.
rewrite Z.shiftl_spec; last lia.
case: (Z.lt_ge_cases (Z.of_nat j) (Z.of_nat k)) => h; first by rewrite Z.testbit_neg_r //; lia.
by rewrite -[Zpos 1]/(Z.pow 2 0) Z.pow2_bits_false //; lia.
Qed.
Lemma flags_ok y : flags_of y (pose_fixedstates y).
Proof.
move=> j; rewrite /pose_fixedstates !Z.lor_spec.
rewrite (testbit_bit _ 5) (testbit_bit _ 6) (testbit_bit _ 7) (testbit_bit _ 8) (testbit_bit _ 9); split.
- case/orP=> [/orP[/orP[/orP[|]|]|]|] /andP[h /eqP ->]; tauto.
- by move=> [[->]|[[->]|[[->]|[[->]|[->]]]]] ->; rewrite ?andbF ?orbT //= ?orbT.
Qed.

Lemma handed_ok S y m o (h : pose_handler) h' : pose_callback S y h m = Ok (h', Some o) -> pose_handed S y m o.
Proof.
rewrite /pose_callback; case: (watch_dog _ _) => [[w last]| |] //=; case: ifP => // he.
case: (throttle _ _ _) => [[] prev] //=; rewrite /pose_message he => -[_ <-].
split=> //=; split; [exact: flags_ok|by []|].
rewrite /pose_reading; case: (k_pose_fixed S) => /=; first by split.
case: (k_world S) => /=; first by split.
split; first by case.
move=> _ _; split=> // hq.
have e : m3vec (qrot (m_q m)) (m3vec (m3neg (m3tr (qrot (m_q m)))) (m_p m)) = v3neg (m_p m).
  rewrite qrot_tr_conj m3neg_vec m3vec_neg; congr v3neg.
  exact: qrot_conj_vec.
by rewrite e; case: (m_p m) => a b c; rewrite /v3add /v3neg /v3zero /=; f_equal; ring.
Qed.

Definition pose_msgs := list (dynamic * pose_msg).

Definition last_from (l : pose_msgs) (outs : list (option (Z * reading))) (n : nat) (t0 t : Z) : Prop :=
  (exists i y m o, [/\ (i < n)%coq_nat, nth_error l i = Some (y, m), nth_error outs i = Some (Some o), m_stamp m = t &
     forall j, (i < j)%coq_nat -> (j < n)%coq_nat -> nth_error outs j = Some None]) \/
  (forall j, (j < n)%coq_nat -> nth_error outs j = Some None) /\ t = t0.

Lemma last_shift l outs n t0 t1 t y m o :
  (match o with Some _ => t1 = m_stamp m | None => t1 = t0 end) ->
  last_from l outs n t1 t -> last_from ((y, m) :: l) (o :: outs) n.+1 t0 t.
Proof.
move=> ho [[i [y' [m' [o' [h1 h2 h3 h4 h5]]]]]|[h1 h2]].
- left; exists i.+1, y', m', o'; split=> //; first by lia.
  by move=> [|j] ha hb; [lia|apply: h5; lia].
- case: o ho => [o|] ho.
  + left; exists O, y, m, o; split=> //; [lia|by rewrite h2 ho|].
    by move=> [|j] ha hb; [lia|apply: h1; lia].
  + right; split; last by rewrite h2 ho.
    by move=> [|j] hb //; apply: h1; lia.
Qed.

Definition choice (S : settings) (y : dynamic) (m : pose_msg) (t : Z) (o : option (option (Z * reading))) : Prop :=
  match o with
  | Some (Some o) => [/\ eligible S m, Z.lt (Z.sub (k_min_dt S) 1000000) (Z.sub (m_stamp m) t) & pose_handed S y m o]
  | Some None => ~ eligible S m \/ Z.le (Z.sub (m_stamp m) t) (Z.sub (k_min_dt S) 1000000)
  | None => False
  end.

Lemma eligibleP S m : (negb (carries_cov (m_topic m)) && negb (k_pose_fixed S)) = false <-> eligible S m.
Proof. by rewrite /eligible; case: (m_topic m) => /=; case: (k_pose_fixed S). Qed.

Lemma callback_spec S y h m h' o : pose_callback S y h m = Ok (h', o) ->
  choice S y m (a_prev h) (Some o) /\
  [/\ a_prev h' = (if o is Some _ then m_stamp m else a_prev h),
      a_first h' = true <-> a_first h = true \/ eligible S m &
      match o with
      | Some (_, RPose _ _ zp zq _) => a_zp h' = zp /\ a_zq h' = zq
      | Some _ => False
      | None => a_zp h' = a_zp h /\ a_zq h' = a_zq h
      end].
Proof.
move=> e; have hd := @handed_ok S y m _ h h'.
move: e hd; rewrite /pose_callback; case: (watch_dog _ _) => [[w last]| |] //=; case: ifP => he.
  move=> -[<- <-] _; split.
    by left=> /eligibleP; rewrite he.
  split=> //=; rewrite he; case: (a_first h) => /=; split=> //; first by left.
  by case=> // hx; move: (proj2 (eligibleP S m) hx); rewrite he.
have hel : eligible S m by apply/eligibleP.
rewrite /throttle /epsilon; case: Z.leb_spec => hle /=.
  move=> -[<- <-] _; split; first by right.
  by split=> //=; rewrite he; case: (a_first h) => /=; split=> // _; right.
rewrite /pose_message he => -[<- <-] /(_ _ erefl) hh; split; first by split.
by split=> //=; split=> // _; right.
Qed.

Lemma session_spec S l : forall h h' outs, pose_session S h l = Ok (h', outs) ->
  List.length outs = List.length l /\
  forall n y m, nth_error l n = Some (y, m) ->
  exists t, last_from l outs n (a_prev h) t /\ choice S y m t (nth_error outs n).
Proof.
elim: l => [|[y0 m0] l IH] h h' outs /=; first by case=> _ <-; split=> // -[|n].
case e1: (pose_callback _ _ _ _) => [[h1 o]| |] //=.
case e2: (pose_session _ _ _) => [[h2 os]| |] //= -[_ <-].
have [hc [hp _ _]] := callback_spec e1.
have [hl hn] := IH _ _ _ e2; split; first by rewrite /= hl.
case=> [|n] y m /=.
  case=> <- <-; exists (a_prev h); split=> //; right; split=> // j; lia.
move/hn=> [t [h3 h4]]; exists t; split=> //; apply: last_shift h3.
by case: (o) hp.
Qed.

(** C65, pose messages: a message is handed on if and only if it is eligible and more than the
    minimum interval less 1 ms after the last one handed on; then with these contents. *)
Theorem C65_pose S (l : pose_msgs) h outs : pose_session S pose_handler_new l = Ok (h, outs) ->
  List.length outs = List.length l /\
  forall n y m, nth_error l n = Some (y, m) ->
  exists t, last_handed l outs n t /\
  match nth_error outs n with
  | Some (Some o) => [/\ eligible S m, Z.lt (Z.sub (k_min_dt S) 1000000) (Z.sub (m_stamp m) t) & pose_handed S y m o]
  | Some None => ~ eligible S m \/ Z.le (Z.sub (m_stamp m) t) (Z.sub (k_min_dt S) 1000000)
  | None => False
  end.
Proof. exact: session_spec. Qed.
Print Assumptions C65_pose.

(** What the handler keeps for the initialisation: the flag says whether any message was
    eligible; the pose is the last one handed on. *)
Definition kept (outs : list (option (Z * reading))) (zp : v3) (zq : quat) : Prop :=
  (exists n ts fs g Rm, nth_error outs n = Some (Some (ts, RPose fs g zp zq Rm)) /\
     forall j, (n < j)%coq_nat -> (j < List.length outs)%coq_nat -> nth_error outs j = Some None) \/
  (forall o, List.In o outs -> o = None) /\ zp = v3zero /\ zq = qone.

Definition kept_from (outs : list (option (Z * reading))) (zp0 : v3) (zq0 : quat) (zp : v3) (zq : quat) : Prop :=
  (exists n ts fs g Rm, nth_error outs n = Some (Some (ts, RPose fs g zp zq Rm)) /\
     forall j, (n < j)%coq_nat -> (j < List.length outs)%coq_nat -> nth_error outs j = Some None) \/
  (forall o, List.In o outs -> o = None) /\ zp = zp0 /\ zq = zq0.

Lemma all_none_nth A (outs : list (option A)) : (forall o, List.In o outs -> o = None) ->
  forall j, (j < List.length outs)%coq_nat -> nth_error outs j = Some None.
Proof.
elim: outs => [|o outs IH] h j /= hj; first lia.
case: j hj => [|j] hj /=; first by rewrite (h o) //; left.
by apply: IH => [x hx|]; [apply: h; right|lia].
Qed.

Lemma kept_cons outs zp0 zq0 zp1 zq1 zp zq o :
  match o with
  | Some (_, RPose _ _ zp' zq' _) => zp1 = zp' /\ zq1 = zq'
  | Some _ => False
  | None => zp1 = zp0 /\ zq1 = zq0
  end ->
  kept_from outs zp1 zq1 zp zq -> kept_from (o :: outs) zp0 zq0 zp zq.
Proof.
move=> ho [[n [ts [fs [g [Rm [h1 h2]]]]]]|[h1 [h2 h3]]].
- left; exists n.+1, ts, fs, g, Rm; split=> //= -[|j] ha hb; [lia|apply: h2; lia].
- have hno := all_none_nth h1.
  case: o ho => [[ts [? ? ? ?|fs g zp' zq' Rm|? ? ?|? ? ? ?|? ? ? ? ?]]|] //= [ea eb].
  + left; exists O, ts, fs, g, Rm; split; first by rewrite /= h2 h3 ea eb.
    by move=> [|j] ha hb /=; [lia|apply: hno; move: hb => /=; lia].
  + by right; split; [move=> o [<-|/h1]|rewrite h2 h3].
Qed.

Theorem C65_pose_kept S (l : pose_msgs) h outs : pose_session S pose_handler_new l = Ok (h, outs) ->
  (a_first h = true <-> exists y m, List.In (y, m) l /\ eligible S m) /\ kept outs (a_zp h) (a_zq h).
Proof.
have hg : forall l h0 h outs, pose_session S h0 l = Ok (h, outs) ->
  (a_first h = true <-> a_first h0 = true \/ exists y m, List.In (y, m) l /\ eligible S m) /\
  kept_from outs (a_zp h0) (a_zq h0) (a_zp h) (a_zq h).
  elim=> [|[y0 m0] l' IH] h0 h1 os /=.
    case=> <- <-; split; last by right.
    by split; [left|case=> // -[? [? []]]].
  case e1: (pose_callback _ _ _ _) => [[h2 o]| |] //=.
  case e2: (pose_session _ _ _) => [[h3 os']| |] //= -[<- <-].
  have [_ [_ hf hz]] := callback_spec e1.
  have [h4 h5] := IH _ _ _ e2.
  split; last by apply: kept_cons h5.
  split.
  - case/h4=> [/hf [h6|h6]|[y [m [h6 h7]]]]; [by left| |].
      by right; exists y0, m0; split=> //; left.
    by right; exists y, m; split=> //; right.
  - case=> [h6|[y [m [[[_ <-]|h6] h7]]]]; apply/h4; [by left; apply/hf; left|by left; apply/hf; right|].
    by right; exists y, m.
move/hg=> [h1 h2]; split=> //; split.
  by case/h1.
by move=> h3; apply/h1; right.
Qed.
Print Assumptions C65_pose_kept.

(** The flag promises a measured pose; it can be set while nothing was ever handed on. *)
Definition C65_flag_full : Prop := forall S (l : pose_msgs) h outs,
  pose_session S pose_handler_new l = Ok (h, outs) -> a_first h = true -> exists o, List.In (Some o) outs.

Lemma none_or_some A (outs : list (option A)) : (forall o, List.In o outs -> o = None) \/ exists o, List.In (Some o) outs.
Proof.
elim: outs => [|[o|] outs [h|[o' h]]]; [by left|by right; exists o; left|by right; exists o; left| |by right; exists o'; right].
by left=> o [<-|/h].
Qed.

(** It holds if the stamps are beyond the minimum interval. *)
Theorem C65_flag_partial S (l : pose_msgs) h outs :
  (forall y m, List.In (y, m) l -> Z.lt (Z.sub (k_min_dt S) 1000000) (m_stamp m)) ->
  pose_session S pose_handler_new l = Ok (h, outs) -> a_first h = true -> exists o, List.In (Some o) outs.
Proof.
move=> hst e hf; have [h1 [h2 h3]] := conj (C65_pose e) (C65_pose_kept e).
case: (none_or_some outs) => // hno.
have [y [m [hin hel]]] := proj1 h2 hf.
have [n hn] := In_nth_error _ _ hin.
have [t [hl hc]] := proj2 h1 n y m hn.
have hlt : (n < List.length outs)%coq_nat.
  by rewrite (proj1 h1); apply: (proj1 (List.nth_error_Some _ _)); rewrite hn.
have := all_none_nth hno hlt => e1; move: hc; rewrite e1.
have := hst y m hin; case: hl => [[i [y' [m' [o [ha hb hc hd _]]]]]|[_ ->]] hx; last by rewrite Z.sub_0_r; case=> //; lia.
by have := all_none_nth hno (Nat.lt_trans _ _ _ ha hlt); rewrite hc.
Qed.
Print Assumptions C65_flag_partial.

(** A pose message at time 10 ms (simulated time), as shipped: minimum interval 50 ms. *)
Definition plain_settings (fixed : bool) (p_ip : v3) : settings :=
  Settings fixed true 50000000 fixed fixed (Gate false R0) v3zero qone p_ip false.
Definition pose_at (seq stamp : Z) (p : v3) (q : quat) : pose_msg := PoseMsg TPoseCov seq stamp p q (fun _ => R1).

Theorem C65_flag_refuted : ~ C65_flag_full.
Proof.
move=> h.
have e : pose_session (plain_settings true v3zero) pose_handler_new
  [:: (dynamic_new, pose_at 1 10000000 (V3 R1 R0 R0) qone)] =
  Ok (PoseHandler 1 true 0 v3zero qone, [:: None]) by reflexivity.
have [o [|[]]] := h _ _ _ _ e erefl; done.
Qed.
Print Assumptions C65_flag_refuted.

(** Four messages, 100 ms, 120 ms, 160 ms and 200 ms: the second is too early, the third 60 ms
    after the first, the fourth 40 ms after the third. *)
Example C65_pose_ex :
  let p i := V3 (IZR i) R0 R0 in
  let l := [:: (dynamic_new, pose_at 1 100000000 (p (Zpos 1)) qone); (dynamic_new, pose_at 2 120000000 (p (Zpos 2)) qone);
               (dynamic_new, pose_at 3 160000000 (p (Zpos 3)) qone); (dynamic_new, pose_at 4 200000000 (p (Zpos 4)) qone)] in
  exists h a c, pose_session (plain_settings true v3zero) pose_handler_new l =
    Ok (h, [:: Some (Zpos 100000000, a); None; Some (Zpos 160000000, c); None]) /\ a_zp h = p (Zpos 3) /\ a_first h = true.
Proof. by do 3 eexists; split; [reflexivity|]. Qed.

(** ** C65: position messages *)

Definition position_handed (S : settings) (pip : nat) (y : dynamic) (m : pos_msg) (o : Z * reading) : Prop :=
  o.1 = Z.sub (n_stamp m) (y_pos_delay y) /\
  match o.2 with
  | RPosition fs g z _ => [/\ forall j, Z.testbit fs (Z.of_nat j) = true <-> j = pip /\ y_fix_pip y = true, g = k_gate S & z = n_p m]
  | _ => False
  end.
(** Four of five transforms are skipped; without a fixed covariance a satellite fix with a
    known covariance is needed. *)
Definition wanted (S : settings) (m : pos_msg) : Prop :=
  match n_topic m with TPosTransform => Z.divide 5 (n_seq m) | _ => True end /\
  (k_pos_fixed S = true \/
   match n_topic m with TFix t => (0 < t <= 3)%N /\ n_cov m 0%N <> R0 | _ => False end).

Lemma skippedP m : skipped m = false <-> match n_topic m with TPosTransform => Z.divide 5 (n_seq m) | _ => True end.
Proof.
rewrite /skipped; case: (n_topic m) => //; case: Z.eqb_spec => h /=; split=> //.
- by move=> _; apply: (proj1 (Z.mod_divide _ _ _)).
- by move=> hd; case: h; apply: (proj2 (Z.mod_divide _ _ _)).
Qed.

Lemma passedP m : (passed_cov m 0%N == R0) = false <-> match n_topic m with TFix t => (0 < t <= 3)%N /\ n_cov m 0%N <> R0 | _ => False end.
Proof.
rewrite /passed_cov; case: (n_topic m) => [||t]; try by rewrite eqxx; split.
case: t => [|[|[|[|t]]]] /=; rewrite ?eqxx; split=> //; try by case.
- by move/eqP.
- by move=> [_ /eqP/negbTE].
- by move/eqP.
- by move=> [_ /eqP/negbTE].
- by move/eqP.
- by move=> [_ /eqP/negbTE].
Qed.

Lemma pos_callback_spec pip S y h m h' o : pos_callback pip S y h m = Ok (h', o) ->
  match o with
  | Some o => [/\ wanted S m, position_handed S pip y m o & b_z h' = n_p m]
  | None => ~ wanted S m /\ b_z h' = b_z h
  end /\
  (b_first h' = true <-> b_first h = true \/ match n_topic m with TPosTransform => Z.divide 5 (n_seq m) | _ => True end).
Proof.
rewrite /pos_callback /wanted; case: (watch_dog _ _) => [[w last]| |] //=; case: ifP => hs.
  have hn : ~ match n_topic m with TPosTransform => Z.divide 5 (n_seq m) | _ => True end.
    by move/skippedP; rewrite hs.
  by move=> -[<- <-]; split=> /=; [split=> // -[]|split; [left|case]].
have hk := proj1 (skippedP m) hs.
rewrite /position_message; case: ifP.
  case/andP=> hf hz -[<- <-]; split=> /=; last by split=> // _; right.
  split=> // -[_ [h1|/passedP h1]]; first by rewrite h1 in hf.
  by rewrite hz in h1.
move=> hc -[<- <-]; split=> /=; last by split=> // _; right.
split=> //; first split=> //.
- move: hc; case: (k_pos_fixed S) => /=; [by left|move=> hx; right; apply/passedP].
  exact: hx.
- split=> //=; split=> // j; rewrite /pos_fixedstates testbit_bit; split.
    by case/andP=> ? /eqP ->.
  by case=> -> ->; rewrite eqxx.
Qed.

Definition pos_msgs := list (dynamic * pos_msg).
Theorem C65_position pip S (l : pos_msgs) : forall h0 h outs, pos_session pip S h0 l = Ok (h, outs) ->
  List.length outs = List.length l /\
  forall n y m, nth_error l n = Some (y, m) ->
  match nth_error outs n with
  | Some (Some o) => wanted S m /\ position_handed S pip y m o
  | Some None => ~ wanted S m
  | None => False
  end.
Proof.
elim: l => [|[y0 m0] l IH] h0 h outs /=; first by case=> _ <-; split=> // -[|n].
case e1: (pos_callback _ _ _ _ _) => [[h1 o]| |] //=.
case e2: (pos_session _ _ _ _) => [[h2 os]| |] //= -[_ <-].
have [hc _] := pos_callback_spec e1.
have [hl hn] := IH _ _ _ e2; split; first by rewrite /= hl.
case=> [|n] y m /=; last exact: hn.
by case=> <- <-; case: (o) hc => [o' []|[]].
Qed.
Print Assumptions C65_position.

(** Here the flag says nothing about measurements: a point without covariance sets it. *)
Definition C65_position_flag_full : Prop := forall pip S (l : pos_msgs) h outs,
  pos_session pip S pos_handler_new l = Ok (h, outs) -> b_first h = true -> exists o, List.In (Some o) outs.
Theorem C65_position_flag_refuted : ~ C65_position_flag_full.
Proof.
move=> h.
have e : pos_session 5 (plain_settings false v3zero) pos_handler_new
  [:: (dynamic_new, PosMsg TPoint 1 1000000000 (V3 R1 R0 R0) (fun _ => R1))] =
  Ok (PosHandler 1 true v3zero, [:: None]).
  rewrite /= /pos_callback /=.
  by rewrite /position_message /= /passed_cov /= eqxx.
have [o [|[]]] := h _ _ _ _ _ e erefl; done.
Qed.
Print Assumptions C65_position_flag_refuted.

(** With the fixed covariance it does. *)
Theorem C65_position_flag_partial pip S (l : pos_msgs) h outs : k_pos_fixed S = true ->
  pos_session pip S pos_handler_new l = Ok (h, outs) -> b_first h = true -> exists o, List.In (Some o) outs.
Proof.
move=> hfix.
have hg : forall l h0 h outs, pos_session pip S h0 l = Ok (h, outs) -> b_first h = true ->
  b_first h0 = true \/ exists o, List.In (Some o) outs.
  elim=> [|[y0 m0] l' IH] h0 h1 os /=; first by case=> <- _; left.
  case e1: (pos_callback _ _ _ _ _) => [[h2 o]| |] //=.
  case e2: (pos_session _ _ _ _) => [[h3 os']| |] //= -[<- <-] hf.
  have [hc hf2] := pos_callback_spec e1.
  case: (IH _ _ _ e2 hf) => [/hf2 [h4|h4]|[o' h4]]; [by left| |by right; exists o'; right].
  case: o hc {e1} => [o' _|[h5 _]]; first by right; exists o'; left.
  by case: h5; split=> //; left.
by move=> e hf; case: (hg _ _ _ _ e hf).
Qed.
Print Assumptions C65_position_flag_partial.

(** Transforms 9, 10, 11 and a point: 10 and the point pass. *)
Example C65_position_ex :
  let tr s := (dynamic_new, PosMsg TPosTransform s (Z.mul s 1000000000) (V3 (IZR s) R0 R0) (fun _ => R0)) in
  exists h a b, pos_session 5 (plain_settings true v3zero) pos_handler_new
    [:: tr (Zpos 9); tr (Zpos 10); tr (Zpos 11); (dynamic_new, PosMsg TPoint 12 12000000000 v3zero (fun _ => R0))] =
    Ok (h, [:: None; Some (Zpos 10000000000, a); None; Some (Zpos 12000000000, b)]).
Proof. by do 3 eexists. Qed.

(** ** C65: heights, angles and distances *)
Theorem C65_pressure S y h m h' o : press_callback S y h m = Ok (h', o) ->
  match o with
  | Some (t, RPressure g z _) => [/\ Z.divide 10 (q_seq m), t = q_stamp m, g = k_gate S, z = q_z m & p_z h' = Some (q_z m)]
  | Some _ => False
  | None => ~ Z.divide 10 (q_seq m) /\ p_z h' = p_z h
  end.
Proof.
rewrite /press_callback; case: (watch_dog _ _) => [[w last]| |] //=; case: Z.eqb_spec => hs /= -[<- <-].
- by split=> //; apply: (proj1 (Z.mod_divide _ _ _)).
- by split=> // hd; case: hs; apply: (proj2 (Z.mod_divide _ _ _)).
Qed.
Print Assumptions C65_pressure.

Theorem C65_spherical pip S y h h' o hd hd' od m md :
  angle_callback pip S y h m = Ok (h', o) -> dist_callback pip S y hd md = Ok (hd', od) ->
  match o with
  | Some (t, RAngle _ g th ph _) => [/\ k_sph_fixed S = true, t = Z.sub (g_stamp m) (y_angle_delay y), g = k_gate S, th = g_theta m & ph = g_phi m]
  | Some _ => False
  | None => k_sph_fixed S = false
  end /\
  match od with
  | Some (t, RDistance _ g z _) => [/\ k_sph_fixed S = true, t = Z.sub (d_stamp md) (y_dist_delay y), g = k_gate S & z = d_z md]
  | Some _ => False
  | None => k_sph_fixed S = false
  end.
Proof.
rewrite /angle_callback /dist_callback /angle_message /distance_message.
case: (watch_dog _ _) => [[w last]| |] //=; case: (watch_dog _ _) => [[w' last']| |] //=.
by case: (k_sph_fixed S) => /= -[_ <-] -[_ <-]; split.
Qed.
Print Assumptions C65_spherical.

Example C65_pressure_ex : exists h o,
  press_callback (plain_settings true v3zero) dynamic_new press_handler_new (PressMsg 20 1000000000 (IZR 7)) =
    Ok (h, Some (Zpos 1000000000, o)) /\ p_z h = Some (IZR 7).
Proof. by do 2 eexists. Qed.
Example C65_spherical_ex : exists h o hd od,
  angle_callback 5 (plain_settings true v3zero) dynamic_new angle_handler_new (AngleMsg 1 1000000000 R0 R1) = Ok (h, Some (Zpos 1000000000, o)) /\
  dist_callback 5 (plain_settings true v3zero) dynamic_new dist_handler_new (DistMsg 1 1000000000 R1) = Ok (hd, Some (Zpos 1000000000, od)).
Proof. by do 4 eexists. Qed.

(** Several topics feed one handler and share its counter: each topic counts 1, 2, 3, nothing
    is lost, and the watch dog warns. *)
Theorem C65_shared_counter_refuted : exists S (l : pose_msgs) h outs ws,
  [/\ List.map (fun x => m_seq x.2) (List.filter (fun x => carries_cov (m_topic x.2)) l) = [:: Zpos 1; Zpos 2; Zpos 3],
      List.map (fun x => m_seq x.2) (List.filter (fun x => negb (carries_cov (m_topic x.2))) l) = [:: Zpos 1; Zpos 2; Zpos 3],
      pose_session S pose_handler_new l = Ok (h, outs),
      watch_run 0 (List.map (fun x => m_seq x.2) l) = Ok ws & List.In true ws].
Proof.
pose a (s : Z) := (dynamic_new, PoseMsg TPoseCov s (Z.mul s 100000000) v3zero qone (fun _ => R1)).
pose b (s : Z) := (dynamic_new, PoseMsg TTransform s (Z.mul s 100000000) v3zero qone (fun _ => R1)).
exists (plain_settings false v3zero), [:: a (Zpos 1); b (Zpos 1); a (Zpos 2); b (Zpos 2); a (Zpos 3); b (Zpos 3)].
by do 3 eexists; split; [reflexivity|reflexivity|reflexivity|reflexivity|right; left].
Qed.
Print Assumptions C65_shared_counter_refuted.

(** ** C66: whole nodes *)

(** A node after its constructors; [y] are the settings of the first call of Config. *)
Definition started (y : dynamic) : front := Front y handlers_new (-1).

(** An external attitude that is taken over is not zero.  The position-pose node uses the pose
    as it comes, so there the attitude is of unit length. *)
Definition input_ok (k : kind) (S : settings) (i : input) : Prop :=
  match i with
  | IExt msg _ _ _ => k_playback S = false -> e_flag msg = current_state ->
      exists j x, [/\ (6 <= j < 10)%N, nth_error (e_state msg) j = Some x & x <> R0]
  | IPose m => k = NPositionPose -> qnorm2 (m_q m) = R1
  | _ => True
  end.
Definition configs_with (P : dynamic -> Prop) (i : input) : Prop := match i with IConfig y _ _ => P y | _ => True end.
Definition scales_with (P : R -> Prop) (i : input) : Prop :=
  match i with IConfig _ (Some (_, x)) _ => P x | IScale _ x => P x | _ => True end.
Definition no_height (i : input) : Prop := match i with IConfig _ _ (Some _) | IHeight _ _ => False | _ => True end.

Lemma node_calls k r S (FP : bool * bool * bool * bool * bool * bool -> Prop) (SP HP : R -> Prop) (ZP : v3 -> Prop)
  (VP : state -> Prop) (RM : reading -> Prop) d y0 l f c ev :
  (forall y h scale vals q s, SP scale -> init_values k S y h scale = Ok (Some (vals, q)) ->
    (k = NPositionPose -> qnorm2 (a_zq (h_pose h)) = R1) ->
    initial_state (c_vars (config_of k r)) vals = Ok s -> VP s) ->
  (forall zp z, ZP zp -> HP z -> SP (Rdiv (v3z zp) z)) -> ZP v3zero ->
  (has_pose k -> forall y g zp zq Rm, FP (flags y) -> RM (RPose (pose_fixedstates y) g zp zq Rm)) ->
  (has_pos k -> forall y g z Rm, FP (flags y) -> RM (RPosition (pos_fixedstates (c_pip (config_of k r)) y) g z Rm)) ->
  (has_press k -> forall g z Rm, RM (RPressure g z Rm)) ->
  (has_sph k -> forall y g th ph Rm, FP (flags y) -> RM (RAngle (pos_fixedstates (c_pip (config_of k r)) y) g th ph Rm)) ->
  (has_sph k -> forall y g z Rm, FP (flags y) -> RM (RDistance (pos_fixedstates (c_pip (config_of k r)) y) g z Rm)) ->
  FP (flags y0) -> List.Forall (in_ok k S FP SP HP ZP) l ->
  @node_run k r S d (started y0) (start _ _) l = Ok (f, c, ev) ->
  exists calls, List.Forall (@call_ok (dim k) (config_of k r) VP (@any_cov (dim k)) RM) calls /\
    run (filter (dim k) (config_of k r)) d (start _ _) calls = Ok (c, ev).
Proof.
move=> h1 h2 h0 h3 h4 h5 h6 h7 h8 h9 h10.
have := @node_lift k r S d (front_ok k FP ZP) (@call_ok (dim k) (config_of k r) VP (@any_cov (dim k)) RM) (in_ok k S FP SP HP ZP)
  (fun f i f' cs => @front_step_ok k r S FP SP HP ZP VP RM h1 h2 h3 h4 h5 h6 h7 f i f' cs) l (started y0) _ _ _ _ _ h9 h10.
case; first by split=> // _; exact: one_unit.
by move=> calls [_ hc hr]; exists calls.
Qed.

Lemma takes_kind k r :
  [/\ has_pose k -> forall fs g zp zq Rm, takes (config_of k r) (RPose fs g zp zq Rm),
      has_pos k -> forall fs g z Rm, takes (config_of k r) (RPosition fs g z Rm),
      has_press k -> forall g z Rm, takes (config_of k r) (RPressure g z Rm) &
      (has_sph k -> forall fs g th ph Rm, takes (config_of k r) (RAngle fs g th ph Rm)) /\
      (has_sph k -> forall fs g z Rm, takes (config_of k r) (RDistance fs g z Rm))].
Proof. by case: k. Qed.

Theorem C66_well_formed k r S d y0 l f c ev t s :
  List.Forall (input_ok k S) l ->
  @node_run k r S d (started y0) (start _ _) l = Ok (f, c, ev) -> seen c ev t s ->
  match s_val s with FState s0 => state_of (c_vars (config_of k r)) s0 | FNan => True | FUB => False end /\
  match s_cov s with PUB => False | _ => True end.
Proof.
move=> hl hr; have [t1 t2 t3 [t4 t5]] := takes_kind k r.
suff [calls [hc hrun]] : exists calls, List.Forall (@call_ok (dim k) (config_of k r) any_state (@any_cov (dim k)) (takes (config_of k r))) calls /\
    run (filter (dim k) (config_of k r)) d (start _ _) calls = Ok (c, ev).
  exact: C50_well_formed (shipped_kind k r) hc hrun.
apply: (@node_calls k r S (fun _ => True) (fun _ => True) (fun _ => True) (fun _ => True)) hr => //; auto.
by apply: Forall_impl hl => -[].
Qed.
Print Assumptions C66_well_formed.

(** With the option for a fixed bias both biases stay zero. *)
Theorem C66_fixed_bias k r S d y0 l f c ev t s s0 :
  List.Forall (input_ok k S) l -> r_bias r = true ->
  @node_run k r S d (started y0) (start _ _) l = Ok (f, c, ev) -> seen c ev t s -> s_val s = FState s0 ->
  exists bw ba, [/\ nth_error s0 3 = Some bw, nth_error s0 4 = Some ba,
    ival bw = VVec [:: R0; R0; R0] & ival ba = VVec [:: R0; R0; R0]].
Proof.
move=> hl hb hr hs es; have [t1 t2 t3 [t4 t5]] := takes_kind k r.
have [bw [ba [ew ea hw ha]]] : exists bw ba, [/\ inst_at k r 3 (vvec v3zero) = Some bw, inst_at k r 4 (vvec v3zero) = Some ba,
    ival bw = VVec [:: R0; R0; R0] & ival ba = VVec [:: R0; R0; R0]].
  by case: (k); do 2 eexists.
have hfb : c_fixed_bias (config_of k r) = true by case: (k).
suff [calls [hc hrun]] : exists calls, List.Forall (@call_ok (dim k) (config_of k r)
    (fun s => nth_error s 3 = Some bw /\ nth_error s 4 = Some ba) (@any_cov (dim k)) (takes (config_of k r))) calls /\
    run (filter (dim k) (config_of k r)) d (start _ _) calls = Ok (c, ev).
  have [h3 h4] := C51_fixed_bias (shipped_kind k r) hfb hc hrun hs es.
  by exists bw, ba.
apply: (@node_calls k r S (fun _ => True) (fun _ => True) (fun _ => True) (fun _ => True)) hr => //; auto.
  move=> y h scale vals q s1 _ e hq hi; have [s2 [e2 _ [e3 e4] _ _]] := init_fine r e hq.
  by move: hi; rewrite e2 => -[<-]; rewrite e3 e4.
by apply: Forall_impl hl => -[].
Qed.
Print Assumptions C66_fixed_bias.

(** The scale: nonnegative if it is set to nonnegative values. *)
Definition C66_scale_full : Prop := forall k r S d y0 l f c ev t s s0,
  has_pose k -> List.Forall (input_ok k S) l -> List.Forall (scales_with (Rle R0)) l ->
  @node_run k r S d (started y0) (start _ _) l = Ok (f, c, ev) -> seen c ev t s -> s_val s = FState s0 ->
  exists i L, [/\ nth_error s0 5 = Some i, ival i = VVec [:: L] & Rle R0 L].

Theorem C66_scale_partial k r S d y0 l f c ev t s s0 :
  has_pose k -> List.Forall (input_ok k S) l -> List.Forall (scales_with (Rle R0)) l -> List.Forall no_height l ->
  @node_run k r S d (started y0) (start _ _) l = Ok (f, c, ev) -> seen c ev t s -> s_val s = FState s0 ->
  exists i L, [/\ nth_error s0 5 = Some i, ival i = VVec [:: L] & Rle R0 L].
Proof.
move=> hp hl hsc hno hr hs es; have [t1 t2 t3 [t4 t5]] := takes_kind k r.
suff [calls [hc hrun]] : exists calls, List.Forall (@call_ok (dim k) (config_of k r)
    scale_nonneg (@any_cov (dim k)) (takes (config_of k r))) calls /\
    run (filter (dim k) (config_of k r)) d (start _ _) calls = Ok (c, ev).
  have hsc' : c_scale (config_of k r) = Some 5%N by case: (k) hp.
  have h1 := C52_scale_nonneg (shipped_kind k r) hsc' hc hrun hs es.
  have [+ _] := C66_well_formed hl hr hs; rewrite es => -[ht hprop].
  have [x [hx hk]] : exists x, nth_error (c_vars (config_of k r)) 5 = Some x /\ vkd x = KVec 1 by case: (k) hp => //; eexists.
  case e: (nth_error s0 5) => [i|]; last first.
    by move: hx; rewrite -ht List.nth_error_map e.
  have ei : itype i = x by move: hx; rewrite -ht List.nth_error_map e /= => -[].
  have [+ _] := hprop i (nth_error_In _ _ e); rewrite ei hk; case ev': (ival i) => [xs|] //.
  case: xs ev' => [|L [|? ?]] // ev' _; exists i, L; split=> //; exact: h1 e ev'.
apply: (@node_calls k r S (fun _ => True) (Rle R0) (fun _ => False) (fun _ => True)) hr => //; auto.
- move=> y h scale vals q s1 hge e hq hi; have [s2 [e2 _ _ e5 _]] := init_fine r e hq.
  move: hi; rewrite e2 => -[<-] i L; rewrite (e5 hp) /inst_at; case: nth_error => // x [<-] /= -[<-] //.
- elim: l hl hsc hno => // i l IH hl hsc hno; inversion hl; inversion hsc; inversion hno; subst.
  constructor; last exact: IH.
  case: i H1 H5 H9 {hl hsc hno} => //= y init height _ h1 h2; split=> //; last by case: height h2.
  by move=> now x e; rewrite e in h1.
Qed.
Print Assumptions C66_scale_partial.

(** The height services divide the measured height by the known one. *)
(** Also with height requests, if the poses lie above the origin and the heights are positive. *)
Definition poses_with (P : v3 -> Prop) (i : input) : Prop := match i with IPose m => P (m_p m) | _ => True end.
Definition heights_with (P : R -> Prop) (i : input) : Prop :=
  match i with IConfig _ _ (Some (_, z)) => P z | IHeight _ z => P z | _ => True end.
Lemma scale_from k r S d y0 l f c ev t s s0 :
  has_pose k -> List.Forall (input_ok k S) l ->
  (exists calls, List.Forall (@call_ok (dim k) (config_of k r) scale_nonneg (@any_cov (dim k)) (takes (config_of k r))) calls /\
    run (filter (dim k) (config_of k r)) d (start _ _) calls = Ok (c, ev)) ->
  @node_run k r S d (started y0) (start _ _) l = Ok (f, c, ev) -> seen c ev t s -> s_val s = FState s0 ->
  exists i L, [/\ nth_error s0 5 = Some i, ival i = VVec [:: L] & Rle R0 L].
Proof.
move=> hp hl [calls [hc hrun]] hr hs es.
have hsc' : c_scale (config_of k r) = Some 5%N by case: (k) hp.
have h1 := C52_scale_nonneg (shipped_kind k r) hsc' hc hrun hs es.
have [+ _] := C66_well_formed hl hr hs; rewrite es => -[ht hprop].
have [x [hx hk]] : exists x, nth_error (c_vars (config_of k r)) 5 = Some x /\ vkd x = KVec 1 by case: (k) hp => //; eexists.
case e: (nth_error s0 5) => [i|]; last first.
  by move: hx; rewrite -ht List.nth_error_map e.
have ei : itype i = x by move: hx; rewrite -ht List.nth_error_map e /= => -[].
have [+ _] := hprop i (nth_error_In _ _ e); rewrite ei hk; case ev': (ival i) => [xs|] //.
case: xs ev' => [|L [|? ?]] // ev' _; exists i, L; split=> //; exact: h1 e ev'.
Qed.
Theorem C66_scale_above k r S d y0 l f c ev t s s0 :
  has_pose k -> k_pose_fixed S || k_world S ->
  List.Forall (input_ok k S) l -> List.Forall (scales_with (Rle R0)) l ->
  List.Forall (poses_with (fun p => Rle R0 (v3z p))) l -> List.Forall (heights_with (Rlt R0)) l ->
  @node_run k r S d (started y0) (start _ _) l = Ok (f, c, ev) -> seen c ev t s -> s_val s = FState s0 ->
  exists i L, [/\ nth_error s0 5 = Some i, ival i = VVec [:: L] & Rle R0 L].
Proof.
move=> hp hw hl hsc hpo hhe hr hs es; have [t1 t2 t3 [t4 t5]] := takes_kind k r.
apply: (scale_from hp hl _ hr hs es).
apply: (@node_calls k r S (fun _ => True) (Rle R0) (Rlt R0) (fun p => Rle R0 (v3z p))) hr => //; auto.
- move=> y h scale vals q s1 hge e hq hi; have [s2 [e2 _ _ e5 _]] := init_fine r e hq.
  move: hi; rewrite e2 => -[<-] i L; rewrite (e5 hp) /inst_at; case: nth_error => // x [<-] /= -[<-] //.
- by move=> zp z h1 h2; rewrite /Rdiv; apply: Rmult_le_pos => //; apply: Rlt_le; apply: Rinv_0_lt_compat.
- by rewrite /=; lra.
- elim: l hl hsc hpo hhe => // i l IH hl hsc hpo hhe; inversion hl; inversion hsc; inversion hpo; inversion hhe; subst.
  constructor; last exact: IH.
  case: i H1 H5 H9 H13 {hl hsc hpo hhe} => //=.
  + by move=> m h1 _ h2 _; split=> //; rewrite /pose_reading; case: (k_pose_fixed S) hw => //= ->.
  + by move=> y init height _ h1 _ h2; split=> // [now x e|_ now z e]; [rewrite e in h1|rewrite e in h2].
Qed.
Print Assumptions C66_scale_above.

Lemma nonzero_true x : x <> R0 -> nonzero x = true.
Proof. by move/nonzeroP. Qed.
Lemma zero_one : zero_q qone = false.
Proof. by apply/zero_qP; rewrite one_unit; lra. Qed.

Definition below : pose_msg := pose_at 1 1000000000 (V3 R0 R0 (IZR (-1))) qone.
Definition some_process (b : bool) : process := Process (Noise R1 R1 R1 R1) R0 R0 R0 R0 R0 b.
Definition demo : settings := plain_settings true v3zero.

Lemma below_front : exists rd,
  front_step NPose (some_process false) demo (started dynamic_new) (IPose below) =
  Ok (Front dynamic_new (Handlers (PoseHandler 1 true 1000000000 (V3 R0 R0 (IZR (-1))) qone) pos_handler_new press_handler_new
                                  angle_handler_new dist_handler_new) (-1),
      [:: CMeas (Zpos 1000000000) rd]).
Proof. by eexists. Qed.

Lemma scale_start r now L y h : L <> R0 -> a_first (h_pose h) = true -> a_zq (h_pose h) = qone -> exists s a,
  manager_init NPose r demo y h now L =
    Ok (CInit now (@mkst (filter 28 (config_of NPose r)) a v3zero (FState s) (PMat (initial_cov NPose)))) /\
  nth_error s 5 = inst_at NPose r 5 (VVec [:: L]).
Proof.
move=> hL hf hz; rewrite /manager_init.
have e : exists vals q, init_values NPose demo y h L = Ok (Some (vals, q)).
  by rewrite /init_values hf hz (nonzero_true hL) zero_one /=; do 2 eexists.
have [vals [q e']] := e; rewrite e'; have [s [e1 _ _ e5 _]] := @init_fine NPose r demo y h L vals q e' ltac:(done).
by exists s; eexists; rewrite /= in e1 *; rewrite e1 /=; split; [reflexivity|exact: e5].
Qed.

Lemma init_run k r S d f0 i1 f1 tm m i2 t s : front_step k r S f0 i1 = Ok (f1, [:: CMeas tm m]) ->
  front_step k r S f1 i2 = Ok (f1, [:: CInit t s]) -> t <> Z0 ->
  exists c, @node_run k r S d f0 (start _ _) [:: i1; i2] = Ok (f1, c, [::]) /\ List.In (t, s) (states c).
Proof.
move=> e1 e2 ht; cbn [node_run]; rewrite e1; cbn [bind run].
rewrite -[step _ _ _ _]/(Ok (start (dim k) (config_of k r), [::])); cbn [bind].
rewrite e2; cbn [bind run]; rewrite [step _ _ _ _]/step /Init.
case: Z.eqb_spec => // _; cbn [bind]; eexists; split; first reflexivity.
by left.
Qed.

Theorem C66_scale_refuted : ~ C66_scale_full.
Proof.
move=> hfull; set r := some_process false.
have [rd e1] := below_front.
set f1 := Front _ _ _ in e1.
have [s [a [e2 e3]]] := @scale_start r (Zpos 2000000000) (Rdiv (IZR (-1)) (IZR 1)) dynamic_new (f_h f1) ltac:(lra) erefl erefl.
have hn : no_position (f_h f1) = false.
  by rewrite /no_position /v3norm2 /v3dot /=; rewrite nonzero_true //; lra.
have e4 : front_step NPose r demo f1 (IHeight 2000000000 R1) = Ok (f1, [:: CInit (Zpos 2000000000) (mkst a v3zero (FState s) (PMat (initial_cov NPose)))]).
  rewrite /front_step /on_height hn; case: Rlt_dec => h; last by case: h; rewrite /min_height Rabs_R1; lra.
  by have e2' := e2; rewrite /= in e2' *; rewrite e2'.
have [c [e5 e6]] := init_run (fun _ => DecEnd) e1 e4 ltac:(done).
have [|||i [L [h1 h2 h3]]] := hfull NPose r demo (fun _ => DecEnd) dynamic_new _ _ _ _ _ _ _ _ _ _ e5 (or_introl e6) erefl; [by []|by repeat constructor|by repeat constructor|].
by move: h1; rewrite e3 /inst_at /= => -[ei]; move: h2; rewrite -ei /= => -[eL]; move: h3; rewrite -eL; lra.
Qed.
Print Assumptions C66_scale_refuted.

(** Calibration flags that are set in every configuration: the variables keep what the pose
    manager starts them with, whatever happens. *)
Definition flag_at (y : dynamic) (j : nat) : bool :=
  match j with
  | 5 => y_fix_L y | 6 => y_fix_qwv y | 7 => y_fix_pwv y | 8 => y_fix_qic y | 9 => y_fix_pic y
  | _ => false
  end%N.
Definition start_value (S : settings) (L : R) (j : nat) : value :=
  match j with
  | 5 => VVec [:: L]
  | 6 => VQuat qone
  | 8 => VQuat (qnormalize (k_q_ic S))
  | 9 => VVec [:: v3x (k_p_ic S); v3y (k_p_ic S); v3z (k_p_ic S)]
  | _ => VVec [:: R0; R0; R0]
  end%N.
Definition flag_of (x : bool * bool * bool * bool * bool * bool) (j : nat) : bool :=
  match j with
  | 5 => x.1.1.1.1.1 | 6 => x.1.1.1.1.2 | 7 => x.1.1.1.2 | 8 => x.1.1.2 | 9 => x.1.2
  | _ => false
  end%N.
Lemma flag_ofE y j : flag_of (flags y) j = flag_at y j.
Proof. by do 10 (case: j => [|j] //). Qed.

Theorem C66_pose_fixed r S d y0 l f c ev t s s0 j L :
  (5 <= j <= 9)%N -> List.Forall (input_ok NPose S) l ->
  flag_at y0 j = true -> List.Forall (configs_with (fun y => flag_at y j = true)) l ->
  (j = 5%N -> [/\ Rle R0 L, List.Forall (scales_with (fun x => x = L)) l & List.Forall no_height l]) ->
  @node_run NPose r S d (started y0) (start _ _) l = Ok (f, c, ev) -> seen c ev t s -> s_val s = FState s0 ->
  exists i, nth_error s0 j = Some i /\ ival i = start_value S L j.
Proof.
move=> /andP [hj5 hj9] hl hy hcf h5 hr hs es.
have hj5' : (5 <= j)%coq_nat by apply/leP.
have hj9' : (j <= 9)%coq_nat by apply/leP.
have hjc : j = 5%N \/ j = 6%N \/ j = 7%N \/ j = 8%N \/ j = 9%N by lia.
have [v [ev0 hv]] : exists v, inst_at NPose r j (start_value S L j) = Some v /\ ival v = start_value S L j.
  by case: hjc => [->|[->|[->|[->|->]]]]; eexists.
have hbit y : flag_at y j = true -> Z.testbit (pose_fixedstates y) (Z.of_nat j) = true.
  move=> hf; apply: (proj2 (flags_ok y j)); move: hf.
  by case: hjc => [->|[->|[->|[->|->]]]] /= ->; tauto.
suff [calls [hc hrun]] : exists calls, List.Forall (@call_ok 28 (config_of NPose r) (fun s => nth_error s j = Some v) (@any_cov 28)
    (fun m => match m with
              | RPose fixedstates _ _ _ _ => c_scale (config_of NPose r) = Some 5%N /\ Z.testbit fixedstates (Z.of_nat j) = true
              | _ => False end)) calls /\
    run (filter 28 (config_of NPose r)) d (start _ _) calls = Ok (c, ev).
  exists v; split=> //; refine (C53_pose_fixed (shipped_kind NPose r) hj5' hj9' _ hc hrun hs es erefl).
  by move=> ej L' ; rewrite hv ej /= => -[<-]; case: (h5 ej).
apply: (@node_calls NPose r S (fun x => flag_of x j = true) (fun x => j = 5%N -> x = L) (fun _ => j <> 5%N) (fun _ => True)) hr => //.
- move=> y h scale vals q s1 hsc e hq hi; have [s2 [e2 _ _ e5 e6]] := init_fine r e hq.
  move: hi; rewrite e2 => -[<-]; rewrite -ev0; have [g6 g7 g8 g9] := e6 erefl.
  move: hsc; clear - hjc e5 g6 g7 g8 g9; case: hjc => [->|[->|[->|[->|->]]]] // hsc.
  by rewrite (e5 isT) (hsc erefl).
- by move=> _ y g zp zq Rm; rewrite flag_ofE => /hbit.
- have hx : forall i, List.In i l -> input_ok NPose S i /\ configs_with (fun y => flag_at y j = true) i /\
      (j = 5%N -> scales_with (fun x => x = L) i /\ no_height i).
    move=> i hi; split; first by move/Forall_forall: hl; apply.
    split; first by move/Forall_forall: hcf; apply.
    by case/h5=> _ /Forall_forall a /Forall_forall b; split; [apply: a|apply: b].
  apply/Forall_forall=> i /hx [h1 [h2 h3]]; case: i h1 h2 h3 => //=.
  + move=> y init height _ h2 h3; split; first by rewrite flag_ofE.
      by move=> now x ei ej; move: h3; rewrite ei => /(_ ej) [].
    by move=> _ now z eh ej; have [_] := h3 ej; rewrite eh.
  + by move=> now x _ _ h3 _ /h3 [].
  + by move=> now x _ _ h3 _ /h3 [_ []].
Qed.
Print Assumptions C66_pose_fixed.

(** The same for the antenna of the position node. *)
Theorem C66_position_fixed r S d y0 l f c ev t s s0 :
  List.Forall (input_ok NPosition S) l ->
  y_fix_pip y0 = true -> List.Forall (configs_with (fun y => y_fix_pip y = true)) l ->
  @node_run NPosition r S d (started y0) (start _ _) l = Ok (f, c, ev) -> seen c ev t s -> s_val s = FState s0 ->
  exists i, nth_error s0 5 = Some i /\ ival i = VVec [:: v3x (k_p_ip S); v3y (k_p_ip S); v3z (k_p_ip S)].
Proof.
move=> hl hy hcf hr hs es.
have [v [ev0 hv]] : exists v, inst_at NPosition r 5 (vvec (k_p_ip S)) = Some v /\ ival v = vvec (k_p_ip S) by eexists.
suff [calls [hc hrun]] : exists calls, List.Forall (@call_ok 18 (config_of NPosition r) (fun s => nth_error s (c_pip (config_of NPosition r)) = Some v) (@any_cov 18)
    (fun m => match m with
              | RPosition fixedstates _ _ _ => c_pip (config_of NPosition r) <> 0%N /\ Z.testbit fixedstates (Z.of_nat (c_pip (config_of NPosition r))) = true
              | _ => False end)) calls /\
    run (filter 18 (config_of NPosition r)) d (start _ _) calls = Ok (c, ev).
  exists v; split=> //; exact: (C53_position_fixed (shipped_kind NPosition r) hc hrun hs es).
apply: (@node_calls NPosition r S (fun x => x.2 = true) (fun _ => True) (fun _ => True) (fun _ => True)) hr => //.
- move=> y h scale vals q s1 _ e _ hi; rewrite -ev0; apply: init_pip e hi; by left.
- by move=> _ y g z Rm hf; split=> //; rewrite /pos_fixedstates testbit_bit eqxx andbT.
- have hx : forall i, List.In i l -> input_ok NPosition S i /\ configs_with (fun y => y_fix_pip y = true) i.
    move=> i hi; split; first by move/Forall_forall: hl; apply.
    by move/Forall_forall: hcf; apply.
  by apply/Forall_forall=> i /hx [h1 h2]; case: i h1 h2.
Qed.
Print Assumptions C66_position_fixed.

(** The position-pose manager does not normalise what it derives from the pose: after a pose
    with attitude (2, 0, 0, 0) the initial attitude of the vision frame has length 2. *)
Definition C66_unit_full : Prop := forall k r S d y0 l f c ev t s s0 i q,
  List.Forall (fun i => match i with IPose m => True | _ => input_ok k S i end) l ->
  @node_run k r S d (started y0) (start _ _) l = Ok (f, c, ev) -> seen c ev t s -> s_val s = FState s0 ->
  List.In i s0 -> ival i = VQuat q -> qnorm2 q = R1.
Definition two_q : quat := Quat (IZR 2) R0 R0 R0.
Definition long_pose : pose_msg := pose_at 1 1000000000 v3zero two_q.

Theorem C66_unit_refuted : ~ C66_unit_full.
Proof.
move=> hfull; set r := some_process false.
have [rd e1] : exists rd, front_step NPositionPose r demo (started dynamic_new) (IPose long_pose) =
  Ok (Front dynamic_new (Handlers (PoseHandler 1 true 1000000000 v3zero two_q) pos_handler_new press_handler_new
                                  angle_handler_new dist_handler_new) (-1),
      [:: CMeas (Zpos 1000000000) rd]) by eexists.
set f1 := Front _ _ _ in e1.
have h1 : R1 <> R0 by lra.
have [vals [q [s [e2 e3 [i [hi ei]]]]]] : exists vals q s, [/\ init_values NPositionPose demo dynamic_new (f_h f1) R1 = Ok (Some (vals, q)),
    initial_state (c_vars (config_of NPositionPose r)) vals = Ok s &
    exists i, List.In i s /\ ival i = VQuat (qconj (qmul (qmul (yaw_quat R0) (qnormalize qone)) (qconj two_q)))].
  rewrite /init_values (nonzero_true h1) [zero_q _]zero_one /=; do 3 eexists; split; [reflexivity|reflexivity|].
  by eexists; split; first (do 6 right; left; reflexivity).
have e4 : exists s1 : st (filter 31 (config_of NPositionPose r)), s_val s1 = FState s /\
    front_step NPositionPose r demo f1 (IConfig dynamic_new (Some (Zpos 2000000000, R1)) None) = Ok (f1, [:: CInit (Zpos 2000000000) s1]).
  rewrite /front_step /on_config /manager_init e2; cbn [bind]; rewrite e3; cbn [bind].
  by eexists; split; last reflexivity.
have [s1 [es e5]] := e4.
have [c [e6 e7]] := init_run (fun _ => DecEnd) e1 e5 ltac:(done).
have := hfull NPositionPose r demo (fun _ => DecEnd) dynamic_new _ _ _ _ _ _ _ i _ _ e6 (or_introl e7) es hi ei.
rewrite qnorm2_conj !qnorm2_mul qnorm2_conj yaw_unit qnormalize_unit; last by rewrite one_unit.
rewrite /qnorm2 /=; have hl : List.Forall (fun i => match i with IPose m => True | _ => input_ok NPositionPose demo i end)
  [:: IPose long_pose; IConfig dynamic_new (Some (Zpos 2000000000, R1)) None] by repeat constructor.
by move=> /(_ hl); lra.
Qed.
Print Assumptions C66_unit_refuted.

(** Every initialisation starts with a covariance that is not symmetric. *)
Theorem C66_covariance_refuted k r S y h now scale c : manager_init k r S y h now scale = Ok c ->
  exists t s P, [/\ c = CInit t s, s_cov s = PMat P & ~ sym P].
Proof.
have hc : ~ sym (initial_cov k) by case: (k); exact: C25_never_symmetric.
rewrite /manager_init; case: (init_values _ _ _ _ _) => [[[vals q]|]| |] //=.
- case: (initial_state _ _) => [s| |] //= -[<-]; do 3 eexists; split; [reflexivity|reflexivity|exact: hc].
- case=> <-; do 3 eexists; split; [reflexivity|reflexivity|exact: hc].
Qed.
Print Assumptions C66_covariance_refuted.

(** ** C66: at rest *)

(** A filter starts at rest: no velocity and no rotation, and the acceleration a level platform
    measures, up to the value of gravity: the managers use 9.81, the propagation 9.80834. *)
Lemma qinverse_one q : qnorm2 q = R1 -> qinverse q = qconj q.
Proof.
move=> h; rewrite /qinverse; case: Rlt_dec => h' /=; last by exfalso; apply: h'; rewrite h; lra.
by rewrite /qinv h; case: q {h h'} => w x y z; rewrite /qscale /qconj /=; f_equal; field.
Qed.
Lemma init_attitude k r S y h scale vals q s : init_values k S y h scale = Ok (Some (vals, q)) ->
  initial_state (c_vars (config_of k r)) vals = Ok s ->
  nth_error s 1 = inst_at k r 1 (vvec v3zero) /\ nth_error s 2 = inst_at k r 2 (VQuat q).
Proof.
case: k => /=.
- by move=> -[<- <-] [<-].
- by move=> -[<- <-] [<-].
- by case: ifP => // _ -[<- <-] [<-].
- by case: (p_z _) => // zpress; case: ifP => // _ -[<- <-] [<-].
- by case: ifP => // _ -[<- <-] [<-].
Qed.
Theorem C66_rest k r S y h now scale t s s0 : (k = NPositionPose -> qnorm2 (a_zq (h_pose h)) = R1) ->
  manager_init k r S y h now scale = Ok (CInit t s) -> s_val s = FState s0 ->
  exists v q, [/\ nth_error s0 1 = Some v /\ ival v = VVec [:: R0; R0; R0],
                  exists i, nth_error s0 2 = Some i /\ ival i = VQuat q, qnorm2 q = R1,
                  s_gyr s = V3 R0 R0 R0 & m3vec (qrot q) (s_acc s) = V3 R0 R0 (Rdiv (IZR 981) (IZR 100))].
Proof.
move=> hu; rewrite /manager_init; case ei: (init_values _ _ _ _ _) => [[[vals q]|]| |] //; cbn [bind]; last first.
  by case=> _ <-.
have [s1 [e1 hf _ _ _]] := init_fine r ei hu; have [h1 h2] := init_attitude ei e1.
rewrite e1; cbn [bind] => -[_ <-]; cbn [s_val s_gyr s_acc] => -[<-] {s s0}.
have [v [hv ev]] : exists v, inst_at k r 1 (vvec v3zero) = Some v /\ ival v = VVec [:: R0; R0; R0] by rewrite /inst_at; case: (k); eexists.
have [i [hi vi]] : exists i, inst_at k r 2 (VQuat q) = Some i /\ ival i = VQuat q by rewrite /inst_at; case: (k); eexists.
have hq : qnorm2 q = R1.
  have [_ hall] := hf; have hin : List.In i s1 by apply: (@nth_error_In _ _ 2); rewrite h2.
  by move/List.Forall_forall: hall => /(_ _ hin) [_ [hx _]]; apply: hx.
exists v, q; split=> //; first by rewrite h1.
- by exists i; rewrite h2.
- by rewrite qinverse_one // qrot_conj_vec.
Qed.
Print Assumptions C66_rest.

(** A platform at rest stays at rest in its first step. *)
Definition C66_rest_full : Prop := forall k r S y h now scale t s s0 i q dt,
  (k = NPositionPose -> qnorm2 (a_zq (h_pose h)) = R1) ->
  manager_init k r S y h now scale = Ok (CInit t s) -> s_val s = FState s0 -> nth_error s0 2 = Some i -> ival i = VQuat q ->
  Rlt R0 dt -> propagate_v dt q q (m3vec (qrot (qconj q)) Propagate.gravity) (s_acc s) v3zero = v3zero.
(** It gets 0.83 mm/s for every second of the step. *)
Theorem C66_rest_partial k r S y h now scale t s s0 i q dt :
  (k = NPositionPose -> qnorm2 (a_zq (h_pose h)) = R1) ->
  manager_init k r S y h now scale = Ok (CInit t s) -> s_val s = FState s0 -> nth_error s0 2 = Some i -> ival i = VQuat q ->
  propagate_v dt q q (m3vec (qrot (qconj q)) Propagate.gravity) (s_acc s) v3zero = V3 R0 R0 (Rmult dt (Rdiv (IZR 83) (IZR 100000))).
Proof.
move=> hu hm es h2 vi; have [v [q' [_ [i' [h2' vi']] hq _ ha]]] := C66_rest hu hm es.
move: h2'; rewrite h2 => -[e]; move: vi'; rewrite -e vi => -[e']; rewrite -e' in hq ha.
rewrite /propagate_v ha qrot_conj_vec // /v3add /v3scale /v3sub /v3zero /Propagate.gravity /=; f_equal; field.
Qed.
Print Assumptions C66_rest_partial.
Theorem C66_rest_refuted : ~ C66_rest_full.
Proof.
move=> h; set hs := Handlers (PoseHandler 1 true 1000000000 (V3 R0 R0 R1) qone) pos_handler_new press_handler_new angle_handler_new dist_handler_new.
have [s [a [e _]]] := @scale_start (some_process false) (Zpos xH) R1 dynamic_new hs ltac:(lra) erefl erefl.
have hu : NPose = NPositionPose -> qnorm2 (a_zq (h_pose hs)) = R1 by [].
have [v [q [_ [i [hi vi]] _ _ _]]] := C66_rest hu e erefl.
have := h _ _ _ _ _ _ _ _ _ _ _ _ R1 hu e erefl hi vi ltac:(lra).
rewrite (C66_rest_partial R1 hu e erefl hi vi) /v3zero => -[]; lra.
Qed.
Print Assumptions C66_rest_refuted.

(** ** C66: the initial state explains the readings it was made of *)

Lemma v3_eta v : V3 (v3x v) (v3y v) (v3z v) = v.
Proof. by case: v. Qed.

Lemma init_state_of k r S y h now scale t s s0 : manager_init k r S y h now scale = Ok (CInit t s) -> s_val s = FState s0 ->
  exists vals q, init_values k S y h scale = Ok (Some (vals, q)) /\ initial_state (c_vars (config_of k r)) vals = Ok s0.
Proof.
rewrite /manager_init; case ei: (init_values _ _ _ _ _) => [[[vals q]|]| |] //; cbn [bind]; last by case=> _ <-.
case e1: (initial_state _ _) => [s1| |] //; cbn [bind] => -[_ <-]; cbn [s_val] => -[<-].
by exists vals, q.
Qed.

Theorem C66_consistent k r S y h now scale t s s0 :
  (k = NPositionPose -> qnorm2 (a_zq (h_pose h)) = R1) ->
  manager_init k r S y h now scale = Ok (CInit t s) -> s_val s = FState s0 ->
  let zp := a_zp (h_pose h) in let zq := a_zq (h_pose h) in
  match k with
  | NPosition => exists ps, [/\ pos_state_at s0 5 = Ok ps, position_residual (b_z (h_pos h)) ps = v3zero & a_pip ps = k_p_ip S]
  | NSpherical => exists ps, [/\ pos_state_at s0 5 = Ok ps,
      position_residual (spherical_point (e_z (h_dist h)) (g_z (h_angle h)).1 (g_z (h_angle h)).2) ps = v3zero & a_pip ps = k_p_ip S]
  | NPose => exists ps, [/\ pose_state_at s0 = Ok ps, (a_first (h_pose h) -> pose_residual zp zq ps = (v3zero, v3zero, R0)),
      b_L ps = scale, b_pic ps = k_p_ic S & b_qic ps = qnormalize (k_q_ic S)]
  | NPosePressure => exists ps b z, [/\ pose_state_at s0 = Ok ps, (a_first (h_pose h) -> pose_residual zp zq ps = (v3zero, v3zero, R0)),
      b_L ps = scale, b_pic ps = k_p_ic S /\ b_qic ps = qnormalize (k_q_ic S) &
      [/\ get_real s0 10 = Ok b, p_z (h_press h) = Some z &
          (a_first (h_pose h) -> pressure_residual z b (b_p ps) = v3z (m3vec (qrot (b_q ps)) (k_p_ic S)))]]
  | NPositionPose => exists ps qs, [/\ pose_state_at s0 = Ok ps, (pose_residual zp zq ps).1 = (v3zero, v3zero),
      b_L ps = scale, b_pic ps = k_p_ic S /\ b_qic ps = qnormalize (k_q_ic S) &
      [/\ pos_state_at s0 10 = Ok qs, position_residual (b_z (h_pos h)) qs = v3zero & a_pip qs = k_p_ip S]]
  end.
Proof.
move=> hu hm hv; have [vals [q0 [ei e0]]] := init_state_of hm hv; move: ei e0 {hm hv s t now}.
case: k hu => hu /=.
- move=> [<- _] /= -[<-]; eexists; split; [reflexivity| |exact: v3_eta].
  rewrite !v3_eta; exact: position_init_ok.
- move=> [<- _] /= -[<-]; eexists; split; [reflexivity| |exact: v3_eta].
  rewrite !v3_eta; exact: position_init_ok.
- case: ifP => // /Bool.orb_false_iff [/Bool.orb_false_iff [hs /negbT hi] _] [<- _] /= -[<-].
  have hs' : scale <> R0 by apply/nonzeroP; move: hs; case: (nonzero _).
  have h1 : qnorm2 (k_q_ic S) <> R0 by apply/zero_qP; apply: negbTE.
  eexists; split; [reflexivity| |by []|exact: v3_eta|by []].
  move=> hf; have := @pose_init_ok scale (a_zp (h_pose h)) (a_zq (h_pose h)) (k_p_ic S) (k_q_ic S) hs' h1.
  by rewrite !v3_eta hf.
- case: (p_z _) => // zpress; case: ifP => // /Bool.orb_false_iff [/Bool.orb_false_iff [hs /negbT hi] _] [<- _] /= -[<-].
  have hs' : scale <> R0 by apply/nonzeroP; move: hs; case: (nonzero _).
  have h1 : qnorm2 (k_q_ic S) <> R0 by apply/zero_qP; apply: negbTE.
  eexists; eexists; exists zpress; split; [reflexivity| |by []|by split=> //; exact: v3_eta|split; [reflexivity|by []|]].
  + move=> hf; have := @C39_pose_pressure_pose scale (a_zp (h_pose h)) (a_zq (h_pose h)) (k_p_ic S) (k_q_ic S) zpress hs' h1.
    by rewrite !v3_eta hf.
  + move=> hf; rewrite !v3_eta hf.
    exact: (@C39_pressure scale (a_zp (h_pose h)) (a_zq (h_pose h)) (k_p_ic S) (k_q_ic S) zpress _ _ hs' erefl).
- case: ifP => // /Bool.orb_false_iff [hs /negbT hi] [<- _] /= -[<-].
  have hs' : scale <> R0 by apply/nonzeroP; move: hs; case: (nonzero _).
  have h1 : qnorm2 (k_q_ic S) <> R0 by apply/zero_qP; apply: negbTE.
  have [e1 e2] := @C39_position_pose_partial scale (y_yaw y) (b_z (h_pos h)) (a_zp (h_pose h)) (a_zq (h_pose h)) (k_p_ic S) (k_q_ic S) (k_p_ip S) _ _ hs' (hu erefl) h1 erefl.
  eexists; eexists; split; [reflexivity|by rewrite !v3_eta; exact: e1|by []|by split=> //; exact: v3_eta|split; [reflexivity|by rewrite !v3_eta; exact: e2|exact: v3_eta]].
Qed.
Print Assumptions C66_consistent.

(** ** C66: undefined behaviour in the front *)

(** Sequence numbers that have a successor of type int, external states with at least ten
    entries. *)
Definition counted (n : Z) : Prop := Z.le 0 n /\ Z.lt n 2147483647.
Definition input_defined (i : input) : Prop :=
  match i with
  | IImu n _ _ _ => counted n
  | IExt msg _ _ _ => (10 <= List.length (e_state msg))%coq_nat
  | IPose m => counted (m_seq m)
  | IPosition m => counted (n_seq m)
  | IPressure m => counted (q_seq m)
  | IAngle m => counted (g_seq m)
  | IDistance m => counted (d_seq m)
  | _ => True
  end.
(** The pose-pressure node is only asked to initialise after a height with a sequence number
    that is a multiple of ten. *)
Fixpoint primed (k : kind) (known : Prop) (l : list input) : Prop :=
  match l with
  | [::] => True
  | IPressure m :: l' => primed k (known \/ Z.divide 10 (q_seq m)) l'
  | IConfig _ init height :: l' => (k = NPosePressure -> init = None /\ height = None \/ known) /\ primed k known l'
  | _ :: l' => primed k known l'
  end.

Lemma watch_ok last seq : last <> int_max -> exists w n, watch_dog last seq = Ok (w, n) /\ (counted seq -> n <> int_max).
Proof.
move=> h; rewrite /watch_dog /inc; case: Z.eqb_spec => // _; cbn [bind]; do 2 eexists; split; first reflexivity.
by case=> h1 h2; rewrite /to_int Z.mod_small; [case: Z.leb_spec; rewrite /int_max; lia|lia].
Qed.
Lemma to_int_low seq : counted seq -> to_int seq <> int_max.
Proof. by case=> h1 h2; rewrite /to_int Z.mod_small; [case: Z.leb_spec; rewrite /int_max; lia|lia]. Qed.

Definition counters_ok (f : front) : Prop :=
  [/\ a_last (h_pose (f_h f)) <> int_max, b_last (h_pos (f_h f)) <> int_max, p_last (h_press (f_h f)) <> int_max &
      [/\ g_last (h_angle (f_h f)) <> int_max, e_last (h_dist (f_h f)) <> int_max & i_seq f <> int_max]].
Definition pressure_ok (k : kind) (f : front) : Prop := k = NPosePressure -> p_z (h_press (f_h f)) <> None.

Lemma init_defined k r S y h now scale : (k = NPosePressure -> p_z (h_press h) <> None) ->
  exists c, manager_init k r S y h now scale = Ok c.
Proof.
move=> hp; rewrite /manager_init /init_values.
case: k hp => hp /=; try by eexists.
- by case: ifP => _ /=; eexists.
- by case: (p_z (h_press h)) (hp erefl) => // zp _; case: ifP => _ /=; eexists.
- by case: ifP => _ /=; eexists.
Qed.

Lemma pose_defined S y h m : a_last h <> int_max -> counted (m_seq m) ->
  exists h' o, pose_callback S y h m = Ok (h', o) /\ a_last h' <> int_max.
Proof.
move=> h1 h2; have [w [n [e hn]]] := watch_ok (m_seq m) h1; rewrite /pose_callback e; cbn [bind].
case: ifP => he; first by do 2 eexists; split; [reflexivity|exact: hn].
case: (throttle _ _ _) => [[] prev] /=; last by do 2 eexists; split; [reflexivity|exact: hn].
by rewrite /pose_message he; do 2 eexists; split; [reflexivity|exact: hn].
Qed.
Lemma pos_defined pip S y h m : b_last h <> int_max -> counted (n_seq m) ->
  exists h' o, pos_callback pip S y h m = Ok (h', o) /\ b_last h' <> int_max.
Proof.
move=> h1 h2; have [w [n [e hn]]] := watch_ok (n_seq m) h1; rewrite /pos_callback e; cbn [bind].
case: ifP => he; first by do 2 eexists; split; [reflexivity|exact: hn].
by rewrite /position_message; case: ifP => _; do 2 eexists; split; [reflexivity|exact: hn|reflexivity|exact: hn].
Qed.
Lemma press_defined S y h m : p_last h <> int_max -> counted (q_seq m) ->
  exists h' o, [/\ press_callback S y h m = Ok (h', o), p_last h' <> int_max &
    p_z h <> None \/ Z.divide 10 (q_seq m) -> p_z h' <> None].
Proof.
move=> h1 h2; have [w [n [e hn]]] := watch_ok (q_seq m) h1; rewrite /press_callback e; cbn [bind].
case: Z.eqb_spec => he /=.
  by do 2 eexists; split; [reflexivity|exact: hn|].
do 2 eexists; split; [reflexivity|exact: hn|case=> //= hd].
by case: he; apply: (proj2 (Z.mod_divide _ _ _)).
Qed.
Lemma angle_defined pip S y h m : g_last h <> int_max -> counted (g_seq m) ->
  exists h' o, angle_callback pip S y h m = Ok (h', o) /\ g_last h' <> int_max.
Proof.
move=> h1 h2; have [w [n [e hn]]] := watch_ok (g_seq m) h1; rewrite /angle_callback e /angle_message; cbn [bind].
by case: ifP => _; do 2 eexists; split; [reflexivity|exact: hn|reflexivity|exact: hn].
Qed.
Lemma dist_defined pip S y h m : e_last h <> int_max -> counted (d_seq m) ->
  exists h' o, dist_callback pip S y h m = Ok (h', o) /\ e_last h' <> int_max.
Proof.
move=> h1 h2; have [w [n [e hn]]] := watch_ok (d_seq m) h1; rewrite /dist_callback e /distance_message; cbn [bind].
by case: ifP => _; do 2 eexists; split; [reflexivity|exact: hn|reflexivity|exact: hn].
Qed.
Lemma ext_defined pb msg : (10 <= List.length (e_state msg))%coq_nat -> exists x b, state_callback pb true msg = Ok (x, b).
Proof.
move=> h; have hat i : (i < 10)%coq_nat -> exists x, at_ (e_state msg) i = Ok x.
  move=> hi; rewrite /at_; case e: nth_error => [x|]; first by exists x.
  by have := proj1 (nth_error_None _ _) e; lia.
rewrite /state_callback; cbv zeta.
do 10 (match goal with |- context [at_ (e_state msg) ?i] => have [? ->] := hat i ltac:(lia) end; cbn [bind]).
by do 2 eexists.
Qed.

Lemma scale_defined k r S f now x : exists cs, front_step k r S f (IScale now x) = Ok (f, cs).
Proof.
case: k => /=; try by eexists.
by have [c ->] := @init_defined NPose r S (f_dyn f) (f_h f) now x ltac:(done); eexists.
Qed.
Lemma height_defined k r S f now x : exists cs, front_step k r S f (IHeight now x) = Ok (f, cs).
Proof.
case: k => /=; try by eexists.
rewrite /on_height; case: ifP => _; first by eexists.
case: (Rlt_dec min_height (Rabs x)) => hx; last by eexists.
by have [c ->] := @init_defined NPose r S (f_dyn f) (f_h f) now (Rdiv (v3z (a_zp (h_pose (f_h f)))) x) ltac:(done); eexists.
Qed.

Lemma front_defined k r S f i (known : Prop) : counters_ok f -> (known -> pressure_ok k f) -> input_defined i ->
  match i with IConfig _ init height => k = NPosePressure -> init = None /\ height = None \/ known | _ => True end ->
  exists f' cs, [/\ front_step k r S f i = Ok (f', cs), counters_ok f' &
    match i with IPressure m => known \/ Z.divide 10 (q_seq m) | _ => known end -> pressure_ok k f'].
Proof.
move=> [c1 c2 c3 [c4 c5 c6]] hk.
case: i => [seq a g t|msg a g t|m|m|m|m|m|y init height|now x|now x] hi hp; last 2 first.
- by have [cs ->] := scale_defined k r S f now x; exists f, cs.
- by have [cs ->] := height_defined k r S f now x; exists f, cs.
all: rewrite /front_step; cbv zeta.
- rewrite /imu_watch /inc; case: Z.eqb_spec => // _; cbn [bind]; do 2 eexists; split; first reflexivity; last exact: hk.
  by split=> //; split=> //=; exact: to_int_low.
- by have [x [b e]] := ext_defined (k_playback S) hi; rewrite e; cbn [bind]; do 2 eexists; split; first reflexivity.
- case: has_pose => /=; last by do 2 eexists; split; first reflexivity.
  by have [h' [o [-> h2]]] := pose_defined S (f_dyn f) c1 hi; cbn [bind]; do 2 eexists; split; first reflexivity.
- case: has_pos => /=; last by do 2 eexists; split; first reflexivity.
  by have [h' [o [-> h2]]] := pos_defined (c_pip (config_of k r)) S (f_dyn f) c2 hi; cbn [bind]; do 2 eexists; split; first reflexivity.
- case hpr: has_press => /=; last first.
    by do 2 eexists; split; first reflexivity; move=> // _ ek; move: hpr; rewrite ek.
  have [h' [o [-> h2 h3]]] := press_defined S (f_dyn f) c3 hi; cbn [bind]; do 2 eexists; split; [reflexivity|by split|].
  by move=> hd ek; apply: h3; case: hd => [/hk/(_ ek)|]; [left|right].
- case: has_sph => /=; last by do 2 eexists; split; first reflexivity.
  by have [h' [o [-> h2]]] := angle_defined (c_pip (config_of k r)) S (f_dyn f) c4 hi; cbn [bind]; do 2 eexists; split; first reflexivity.
- case: has_sph => /=; last by do 2 eexists; split; first reflexivity.
  by have [h' [o [-> h2]]] := dist_defined (c_pip (config_of k r)) S (f_dyn f) c5 hi; cbn [bind]; do 2 eexists; split; first reflexivity.
- rewrite /on_config; cbv zeta.
  have hin : init <> None \/ height <> None -> k = NPosePressure -> p_z (h_press (f_h f)) <> None.
    by move=> hne ek; case: (hp ek) => [[e1 e2]|/hk/(_ ek)] //; case: hne; rewrite ?e1 ?e2.
  have [c1' e1] : exists cs, (match init with
      | Some (now, scale) => let* c := manager_init k r S (no_delay k y) (f_h f) now scale in Ok [:: c]
      | None => Ok [::] end) = Ok cs.
    case: (init) hin => [[now scale]|] hin; last by eexists.
    have [c ->] := @init_defined k r S (no_delay k y) (f_h f) now scale ltac:(by apply: hin; left).
    by eexists.
  rewrite e1; cbn [bind]; case: (height) hin => [[now z]|] hin; last by do 2 eexists; split; first reflexivity.
  case: has_pose => /=; last by do 2 eexists; split; first reflexivity.
  case: ifP => _; first by do 2 eexists; split; first reflexivity.
  case: ifP => _ /=; last by do 2 eexists; split; first reflexivity.
  have [c ->] := @init_defined k r S (no_delay k y) (f_h f) now (Rdiv (v3z (a_zp (h_pose (f_h f)))) z) ltac:(by apply: hin; right).
  by cbn [bind]; do 2 eexists; split; first reflexivity.
Qed.

(** The calls a node makes are inside the envelope of C15. *)
Fixpoint node_admissible k r S d (imu : bool) (f : front) (c : core (filter (dim k) (config_of k r))) (l : list input) : Prop :=
  match l with
  | [::] => True
  | i :: l' => forall f' cs, front_step k r S f i = Ok (f', cs) ->
      admissible_run (filter (dim k) (config_of k r)) d imu c cs /\
      forall c' ev, run (filter (dim k) (config_of k r)) d c cs = Ok (c', ev) -> node_admissible S d imu f' c' l'
  end.

(** Then, with sequence numbers and arrays as above and after a first height, nothing a node
    does is undefined. *)
Theorem C66_defined_partial k r S d imu y0 l :
  (forall n, (0 < n)%coq_nat -> d n <> DecUB) ->
  List.Forall input_defined l -> primed k False l ->
  @node_admissible k r S d imu (started y0) (start _ _) l ->
  exists f c ev, @node_run k r S d (started y0) (start _ _) l = Ok (f, c, ev).
Proof.
move=> hd.
have hg : forall l f c (known : Prop), counters_ok f -> (known -> pressure_ok k f) ->
    safe (filter (dim k) (config_of k r)) imu c ->
    List.Forall input_defined l -> primed k known l -> node_admissible S d imu f c l ->
    exists f' c' ev, node_run S d f c l = Ok (f', c', ev).
  elim=> [|i l' IH] f c known hc hk hs hl hp ha; first by do 3 eexists.
  have [hi hl'] : input_defined i /\ List.Forall input_defined l' by inversion hl.
  have [|f1 [cs [e1 hc1 hk1]]] := @front_defined k r S f i known hc hk hi.
    by case: (i) hp => //= y init height [].
  have [ha1 ha2] := ha _ _ e1.
  have [c1 [ev1 [e2 hs1]]] := run_safe _ _ hd _ _ _ hs ha1.
  have [f2 [c2 [ev2 e3]]] : exists f' c' ev, node_run S d f1 c1 l' = Ok (f', c', ev).
    apply: (IH f1 c1 (match i with IPressure m => known \/ Z.divide 10 (q_seq m) | _ => known end)) => //; last exact: ha2 e2.
    by case: (i) hp => //= y init height [].
  by cbn [node_run]; rewrite e1; cbn [bind]; rewrite e2; cbn [bind]; rewrite e3; cbn [bind]; do 3 eexists.
move=> hl hp ha; apply: (hg l (started y0) _ False) => //; exact: core_new_safe.
Qed.
Print Assumptions C66_defined_partial.

(** Without a first height the pose-pressure node reads a member that was never set. *)
Definition C66_defined_full : Prop := forall k r S d imu y0 l,
  (forall n, (0 < n)%coq_nat -> d n <> DecUB) -> List.Forall input_defined l ->
  @node_admissible k r S d imu (started y0) (start _ _) l ->
  @node_run k r S d (started y0) (start _ _) l <> UB.
Theorem C66_defined_refuted : ~ C66_defined_full.
Proof.
move=> h.
apply: (h NPosePressure (some_process false) demo (fun _ => DecEnd) true dynamic_new
          [:: IConfig dynamic_new (Some (Zpos 1000000000, R1)) None]) => //; first by repeat constructor.
Qed.
Print Assumptions C66_defined_refuted.

(** One message too many: the counter of a handler overflows. *)
Theorem C66_counter_refuted : exists r S d y0 l,
  primed NPosition False l /\ @node_admissible NPosition r S d true (started y0) (start _ _) l /\
  @node_run NPosition r S d (started y0) (start _ _) l = UB.
Proof.
pose p n := IPosition (PosMsg TPoint n 1000000000 v3zero (fun _ => R1)).
exists (some_process false), demo, (fun _ => DecEnd), dynamic_new, [:: p (Zpos 2147483647); p (Zpos 2147483648)].
split; first by []; split; last by [].
move=> f' cs [<- <-]; split; first by split=> //; cbn [admissible] => hi.
by move=> c' ev [<- _] f2 cs2.
Qed.
Print Assumptions C66_counter_refuted.

(** ** C66: settings and requests *)

(** A reconfiguration takes effect, except that the pose-pressure node keeps its noise settings
    when it refuses a height request in the same call. *)
Definition C66_settings_full : Prop := forall k r S f y init height f' cs,
  front_step k r S f (IConfig y init height) = Ok (f', cs) ->
  [/\ y_zp (f_dyn f') = y_zp y, y_zq (f_dyn f') = y_zq y & y_press (f_dyn f') = y_press y].
Theorem C66_settings_partial k r S f y init height f' cs : k <> NPosePressure \/ height = None ->
  front_step k r S f (IConfig y init height) = Ok (f', cs) ->
  f_h f' = f_h f /\ f_dyn f' = match k with
  | NPosePressure => Dynamic (y_zp y) (y_zq y) 0 (y_fix_L y) (y_fix_qwv y) (y_fix_pwv y) (y_fix_qic y) (y_fix_pic y)
      (y_pos y) (y_pos_delay y) (y_fix_pip y) (y_press y) (y_angle y) (y_angle_delay y) (y_dist y) (y_dist_delay y) (y_yaw y)
  | _ => y
  end.
Proof.
move=> hk; rewrite /front_step /on_config; cbv zeta.
case: (match init with Some _ => _ | None => _ end) => [c1| |] //=.
have e : no_delay k y = match k with
  | NPosePressure => Dynamic (y_zp y) (y_zq y) 0 (y_fix_L y) (y_fix_qwv y) (y_fix_pwv y) (y_fix_qic y) (y_fix_pic y)
      (y_pos y) (y_pos_delay y) (y_fix_pip y) (y_press y) (y_angle y) (y_angle_delay y) (y_dist y) (y_dist_delay y) (y_yaw y)
  | _ => y end by [].
case: height hk => [[now z]|] hk; last by case=> <- _.
have hk' : k <> NPosePressure by case: hk.
case: (negb _); first by case=> <- _.
case: no_position; first by case=> <- _; split=> //=; case: (k) hk'.
case: (if nonzero z then _ else _) => [c2| |] //= -[<- _]; by split.
Qed.
Print Assumptions C66_settings_partial.

Theorem C66_settings_refuted : ~ C66_settings_full.
Proof.
move=> h; set y := Dynamic R1 R1 0 false false false false false R1 0 false R1 R1 0 R1 0 R0.
have e : exists f', front_step NPosePressure (some_process false) demo (started dynamic_new)
    (IConfig y None (Some (Zpos 1000000000, R1))) = Ok (f', [::]) /\ y_zp (f_dyn f') = Rdiv (IZR 1) (IZR 1000000).
  rewrite /front_step /on_config; cbn [bind has_pose negb].
  have -> : no_position (f_h (started dynamic_new)) = true.
    rewrite /no_position; case en: nonzero => //; move/nonzeroP: en; case.
    by rewrite /v3norm2 /v3dot /=; lra.
  by eexists; split; first reflexivity.
have [f' [e1 e2]] := e; have [+ _ _] := h _ _ _ _ _ _ _ _ _ e1.
by rewrite e2 /= ; lra.
Qed.
Print Assumptions C66_settings_refuted.

(** The height service refuses heights up to a centimetre. *)
Theorem C66_height_service r S f now z : Rle (Rabs z) (Rdiv (IZR 1) (IZR 100)) ->
  front_step NPose r S f (IHeight now z) = Ok (f, [::]).
Proof.
move=> h; rewrite /front_step /on_height; case: no_position => //.
by case: (Rlt_dec min_height (Rabs z)) => // h'; move: h'; rewrite /min_height => ?; lra.
Qed.
Print Assumptions C66_height_service.

(** The height of a reconfigure request lies between 0.1 and 20 (Reconfigure.v).  Initialising
    with it gives numbers unless the pose has height zero. *)
Definition C66_height_full : Prop := forall k r S f y now z f' cs t s,
  Rle (Rdiv (IZR 1) (IZR 10)) z -> Rle z (IZR 20) ->
  qnorm2 (k_q_ic S) = R1 -> qnorm2 (a_zq (h_pose (f_h f))) = R1 ->
  front_step k r S f (IConfig y None (Some (now, z))) = Ok (f', cs) -> List.In (CInit t s) cs -> s_val s <> FNan.
Lemma init_number k r S y h now scale t s : scale <> R0 -> zero_q (k_q_ic S) = false -> zero_q (a_zq (h_pose h)) = false ->
  manager_init k r S y h now scale = Ok (CInit t s) -> s_val s <> FNan.
Proof.
move=> /nonzero_true h1 h2 h3; rewrite /manager_init.
case e: (init_values k S y h scale) => [[[vals q]|]| |] //=.
- by case: initial_state => [s0| |] //= -[_ <-].
- move=> _; exfalso; clear s; move: e; rewrite /init_values h1 h2 h3 andbF /=; case: k => //=.
  by case: (p_z (h_press h)).
Qed.
Theorem C66_height_partial k r S f y now z f' cs t s :
  Rle (Rdiv (IZR 1) (IZR 10)) z -> Rle z (IZR 20) -> v3z (a_zp (h_pose (f_h f))) <> R0 ->
  qnorm2 (k_q_ic S) = R1 -> qnorm2 (a_zq (h_pose (f_h f))) = R1 ->
  front_step k r S f (IConfig y None (Some (now, z))) = Ok (f', cs) -> List.In (CInit t s) cs -> s_val s <> FNan.
Proof.
move=> hz _ h1 h2 h3; rewrite /front_step /on_config; cbn [bind].
case: (~~ has_pose k); first by case=> _ <-.
case: (no_position _); first by case=> _ <-.
have hz' : z <> R0 by lra.
rewrite (nonzero_true hz'); case e: (manager_init _ _ _ _ _ _ _) => [c| |] //= -[_ <-] [ec|[]].
rewrite ec in e; apply: (init_number _ _ _ e).
- by rewrite /Rdiv; apply: Rmult_integral_contrapositive_currified => //; apply: Rinv_neq_0_compat.
- by apply/zero_qP; rewrite h2; lra.
- by apply/zero_qP; rewrite h3; lra.
Qed.
Print Assumptions C66_height_partial.

Definition level : pose_msg := pose_at 1 1000000000 (V3 R1 R0 R0) qone.
Theorem C66_height_refuted : ~ C66_height_full.
Proof.
move=> h; pose f1 := Front dynamic_new (Handlers (PoseHandler 1 true 1000000000 (V3 R1 R0 R0) qone) pos_handler_new press_handler_new
                                  angle_handler_new dist_handler_new) (-1).
have hz : nonzero (Rdiv R0 R1) = false by case e: nonzero => //; move/nonzeroP: e; case; lra.
have hn : no_position (f_h f1) = false.
  by rewrite /no_position /v3norm2 /v3dot /=; rewrite nonzero_true //; lra.
have e : front_step NPose (some_process false) demo f1 (IConfig dynamic_new None (Some (Zpos 1000000000, R1))) =
  Ok (f1, [:: CInit (Zpos 1000000000) (@mkst (filter 28 (config_of NPose (some_process false))) v3zero v3zero FNan (PMat (initial_cov NPose)))]).
  rewrite /front_step /on_config; cbn [bind has_pose negb]; rewrite hn (@nonzero_true R1); last by lra.
  by rewrite /manager_init /init_values -[v3z _]/R0 hz.
apply: (h _ _ _ _ _ _ _ _ _ _ _ _ _ _ _ e (or_introl erefl) erefl); [lra|lra|exact: one_unit|exact: one_unit].
Qed.
Print Assumptions C66_height_refuted.

(** The front of the witness is the one after the message [level]. *)
Example C66_height_ex : exists rd, front_step NPose (some_process false) demo (started dynamic_new) (IPose level) =
  Ok (Front dynamic_new (Handlers (PoseHandler 1 true 1000000000 (V3 R1 R0 R0) qone) pos_handler_new press_handler_new
                                  angle_handler_new dist_handler_new) (-1), [:: CMeas (Zpos 1000000000) rd]).
Proof. by eexists. Qed.

(** ** Examples *)

(** The pose node of the refutation above, initialised to a positive scale: settings that fix
    all variables, one pose, a scale request; every hypothesis of the theorems holds. *)
Definition fixed_all : dynamic := Dynamic R1 R1 0 true true true true true R1 0 true R1 R1 0 R1 0 R0.
Example C66_ex : let l := [:: IPose below; IScale 2000000000 R1] in
  exists f c s s0, [/\ @node_run NPose (some_process true) demo (fun _ => DecEnd) (started fixed_all) (start _ _) l = Ok (f, c, [::]),
    seen c [::] (Zpos 2000000000) s, s_val s = FState s0,
    List.Forall (input_ok NPose demo) l /\ List.Forall (configs_with (fun y => flag_at y 5 = true)) l &
    [/\ List.Forall (scales_with (fun x => x = R1)) l, List.Forall no_height l, List.Forall input_defined l, primed NPose False l &
        exists i, nth_error s0 5 = Some i /\ ival i = VVec [:: R1]]].
Proof.
have [rd e1] : exists rd, front_step NPose (some_process true) demo (started fixed_all) (IPose below) =
  Ok (Front fixed_all (Handlers (PoseHandler 1 true 1000000000 (V3 R0 R0 (IZR (-1))) qone) pos_handler_new press_handler_new
                                  angle_handler_new dist_handler_new) (-1),
      [:: CMeas (Zpos 1000000000) rd]) by eexists.
set f1 := Front _ _ _ in e1.
have [s [a [e2 e3]]] := @scale_start (some_process true) (Zpos 2000000000) R1 fixed_all (f_h f1) ltac:(lra) erefl erefl.
have e4 : front_step NPose (some_process true) demo f1 (IScale 2000000000 R1) =
    Ok (f1, [:: CInit (Zpos 2000000000) (mkst a v3zero (FState s) (PMat (initial_cov NPose)))]).
  by have e2' := e2; rewrite /front_step; cbn [f_dyn f_h f1] in *; rewrite e2'.
have [c [e5 e6]] := init_run (fun _ => DecEnd) e1 e4 ltac:(done).
exists f1, c; eexists; exists s; split; [exact: e5|left; exact: e6|by []|by split; repeat constructor|].
split; [by repeat constructor|by repeat constructor| |by []|by eexists; split; [exact: e3|]].
by constructor; [split=> /=; lia|repeat constructor].
Qed.

(** A pose one above the origin and a known height of four. *)
Definition raised : pose_msg := pose_at 1 1000000000 (V3 R0 R0 R1) qone.
Example C66_above_ex : let l := [:: IPose raised; IHeight 2000000000 (IZR 4)] in
  exists f c s s0, [/\ @node_run NPose (some_process true) demo (fun _ => DecEnd) (started dynamic_new) (start _ _) l = Ok (f, c, [::]),
    seen c [::] (Zpos 2000000000) s, s_val s = FState s0,
    List.Forall (input_ok NPose demo) l /\ List.Forall (poses_with (fun p => Rle R0 (v3z p))) l &
    [/\ List.Forall (heights_with (Rlt R0)) l, List.Forall (scales_with (Rle R0)) l &
        exists i, nth_error s0 5 = Some i /\ ival i = VVec [:: Rdiv R1 (IZR 4)]]].
Proof.
have [rd e1] : exists rd, front_step NPose (some_process true) demo (started dynamic_new) (IPose raised) =
  Ok (Front dynamic_new (Handlers (PoseHandler 1 true 1000000000 (V3 R0 R0 R1) qone) pos_handler_new press_handler_new
                                  angle_handler_new dist_handler_new) (-1),
      [:: CMeas (Zpos 1000000000) rd]) by eexists.
set f1 := Front _ _ _ in e1.
have [s [a [e2 e3]]] := @scale_start (some_process true) (Zpos 2000000000) (Rdiv R1 (IZR 4)) dynamic_new (f_h f1) ltac:(lra) erefl erefl.
have known : no_position (f_h f1) = false.
  by rewrite /no_position nonzero_true //= /v3norm2 /v3dot /=; lra.
have e4 : front_step NPose (some_process true) demo f1 (IHeight 2000000000 (IZR 4)) =
    Ok (f1, [:: CInit (Zpos 2000000000) (mkst a v3zero (FState s) (PMat (initial_cov NPose)))]).
  have e2' := e2; rewrite /front_step /on_height known; case: Rlt_dec => hlt /=.
    by cbn [f_dyn f_h f1] in *; rewrite e2'.
  by exfalso; move: hlt; rewrite /min_height Rabs_pos_eq; lra.
have [c [e5 e6]] := init_run (fun _ => DecEnd) e1 e4 ltac:(done).
exists f1, c; eexists; exists s; split; [exact: e5|left; exact: e6|by []| |].
- by split; [repeat constructor|constructor; [rewrite /=; lra|repeat constructor]].
- split; [|by repeat constructor|by eexists; split; [exact: e3|]].
  by constructor; [|constructor; [rewrite /=; lra|constructor]].
Qed.
