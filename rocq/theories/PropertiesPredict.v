(** C21, C22: one prediction step of the covariance. *)

From Coq Require Import Reals ZArith Lia Lra List.
From mathcomp Require Import all_ssreflect all_algebra.
From Verif Require Import Outcome Geom StateList StateListProofs Core Propagate NavOps QCore ProcNoise ProcNoiseProofs QdProofs
  Cov CovSpec CovProofs RField Predict PredictProofs PropertiesState PropertiesSensors.
Import GRing.Theory Num.Theory.

Set Implicit Arguments.
Unset Strict Implicit.
Unset Printing Implicit Defensive.
Local Open Scope ring_scope.

(** ** C21 *)

(** A positive time step for a list of variables the code compiles for, core variables first,
    auxiliary noise blocks multiples of the identity (as every manager sets them and as they
    are constructed), and nothing foreign in the matrix the noise is written to. *)
Definition step_ok n (old new : full n) : Prop :=
  [/\ vars_ok n (f_vars new), aux_noise_ok (f_vars new), q_clean (f_vars new) (f_Qd old) &
      Z.lt (f_time old) (f_time new)].

(** Step length in seconds. *)
Definition step_dt n (old new : full n) : R := Rdiv (IZR (Z.sub (f_time new) (f_time old))) (IZR 1000000000).

Definition noise_nonneg (nz : noise) : Prop :=
  [/\ Rle R0 (n_acc nz), Rle R0 (n_accbias nz), Rle R0 (n_gyr nz) & Rle R0 (n_gyrbias nz)].

(** The property in full. *)
Definition C21_full : Prop :=
  forall n nz an (old new : full n) tP old' new' tP' q ew ea,
    step_ok old new -> noise_nonneg nz -> inputs new q ew ea -> qnorm2 q = R1 -> cov_ok (f_P old) ->
    predict_process_covariance std_layout nz (calc_q_aux an) old new tP = Ok (old', new', tP') ->
    cov_ok (f_P new').

Lemma inputs_det n (f : full n) q ew ea q' ew' ea' :
  inputs f q ew ea -> inputs f q' ew' ea' -> q = q' /\ ew = ew' /\ ea = ea'.
Proof.
move=> [bw [ba [g1 g2 g3 -> ->]]] [bw' [ba' [g1' g2' g3' -> ->]]].
by move: g1 g2 g3; rewrite g1' g2' g3' => -[->] [->] [->].
Qed.

(** Below entry 15 nothing was left behind outside the entries that are written. *)
Lemma clean_core n (f : full n) Q : vars_ok n (f_vars f) -> q_clean (f_vars f) Q ->
  forall r c, Z.lt r 15 -> Z.lt c 15 -> is_core_cell r c = false -> Q r c = R0.
Proof.
move=> [_ _ hf _ _] hq r c hr hc hcell; apply: hq => // -[j [i [R1 [R2 A]]]].
have := own_start_late _ _ _ _ hf A R1; lia.
Qed.

(** It holds when the accelerometer bias noise is not large compared to the accelerometer
    noise over the step and either the gyroscope is taken to be free of noise, or there is no
    rotation and no specific force.  (Missing: gyroscope noise while rotating or under load;
    see the refutations.) *)
Theorem C21_keeps_partial : forall n nz an (old new : full n) tP q ew ea,
  step_ok old new -> inputs new q ew ea -> cov_ok (f_P old) ->
  let dt := step_dt old new in
  Rle (Rmult (Rmult (n_accbias nz) (n_accbias nz)) (Rmult dt dt)) (Rmult (IZR 9) (Rmult (n_acc nz) (n_acc nz))) ->
  (ew = v3zero /\ ea = v3zero) \/ (n_gyr nz = R0 /\ n_gyrbias nz = R0) ->
  exists old' new', predict_process_covariance std_layout nz (calc_q_aux an) old new tP = Ok (old', new', f_time new) /\
    cov_ok (f_P new').
Proof.
move=> n nz an old new tP q ew ea [hv ha hq ht] hin hP dt hnz hg.
have [q1 [w1 [a1 [Qd [old' [new' [[hin1 e eP _ _] [h1 h2 h3 _]]]]]]]] := predict_step nz an tP hv ha hq ht.
have [? [? ?]] := inputs_det hin1 hin; subst q1 w1 a1.
exists old', new'; split=> //; rewrite eP; apply: propagate_ok => //.
apply: qd_ok => //; first exact: (n15 hv).
rewrite (@mx_ext 15 Qd (calc_q_core std_ix dt q ew ea nz (f_Qd old))); last first.
  by move=> i j hi hj; apply: h1; lia.
apply: core_ok => //; first exact: (clean_core hv).
by apply: Rlt_le; apply: seconds_pos; lia.
Qed.
Print Assumptions C21_keeps_partial.

Definition with_P n (f : full n) (P : 'M[R]_n) : full n :=
  Full (f_time f) (f_vars f) (f_imu f) P (f_Fd f) (f_Qd f).

(** Whether a step keeps every covariance a covariance is decided by the process noise of the
    core states alone. *)
Theorem C21_core_noise_decides_partial : forall n nz an (old new : full n) tP q ew ea,
  step_ok old new -> inputs new q ew ea ->
  ((forall P, cov_ok P -> exists old' new',
      predict_process_covariance std_layout nz (calc_q_aux an) (with_P old P) new tP = Ok (old', new', f_time new) /\
      cov_ok (f_P new'))
   <-> cov_ok (mx 15 (calc_q_core std_ix (step_dt old new) q ew ea nz zzero))).
Proof.
move=> n nz an old new tP q ew ea [hv ha hq ht] hin.
have key P : exists old' new' Qd,
  [/\ predict_process_covariance std_layout nz (calc_q_aux an) (with_P old P) new tP = Ok (old', new', f_time new),
      f_P new' = propagate_cov (mx n (calc_fd std_ix (step_dt old new) q ew ea (f_Fd old))) (mx n Qd) P,
      mx 15 Qd = mx 15 (calc_q_core std_ix (step_dt old new) q ew ea nz zzero),
      forall r c, Z.le 15 r \/ Z.le 15 c -> r <> c -> Qd r c = R0 &
      forall r, Z.le 15 r -> Rle R0 (Qd r r)].
  have [q1 [w1 [a1 [Qd [old' [new' [[hin1 e eP _ _] [h1 h2 h3 _]]]]]]]] :=
    @predict_step n nz an (with_P old P) new tP hv ha hq ht.
  have [? [? ?]] := inputs_det hin1 hin; subst q1 w1 a1.
  exists old', new', Qd; split=> //.
  apply: mx_ext => i j hi hj; rewrite h1; try lia.
  by apply: core_fresh => hcell; apply: (clean_core hv hq) => //; lia.
have h15 := n15 hv.
split=> [h|h P hP].
- have ok0 : cov_ok (0 : 'M[R]_n) by split; [rewrite /sym trmx0|exact: psd0].
  have [old' [new' [Qd [e eP e15 h0 h1]]]] := key 0.
  have [old2 [new2 [e2 ok2]]] := h 0 ok0.
  move: ok2; have -> : new2 = new' by move: e2; rewrite e => -[].
  rewrite eP /propagate_cov mulmx0 mul0mx add0r -e15 => ok2.
  by apply: (core_of_ok h15 ok2) => i j hi hj; split; apply: h0; lia.
- have [old' [new' [Qd [e eP e15 h0 h1]]]] := key P.
  exists old', new'; split=> //; rewrite eP; apply: propagate_ok => //.
  by apply: qd_ok => //; rewrite e15.
Qed.
Print Assumptions C21_core_noise_decides_partial.

(** *** Concrete steps *)

Definition still (q : quat) : state :=
  let Z0 := fun _ _ : nat => R0 in
  [:: Inst (Svar (KVec 3) 0 CoreProp 0) (VVec [:: R0; R0; R0]) Z0 false;
      Inst (Svar (KVec 3) 1 CoreProp 0) (VVec [:: R0; R0; R0]) Z0 false;
      Inst (Svar KQuat 2 CoreProp 0) (VQuat q) Z0 false;
      Inst (Svar (KVec 3) 3 CoreNoProp 0) (VVec [:: R0; R0; R0]) Z0 false;
      Inst (Svar (KVec 3) 4 CoreNoProp 0) (VVec [:: R0; R0; R0]) Z0 false;
      Inst (Svar (KVec 3) 5 Aux 0) (VVec [:: R0; R0; R0]) Z0 false].

Lemma still_ok q : vars_ok 18 (still q) /\ aux_noise_ok (still q).
Proof.
split.
- split=> //.
  + move=> x hx; repeat (case: hx => [<- //|hx]); by [].
  + split=> // x hx; repeat (case: hx => [<- [] //|hx]); by [].
  + by repeat constructor.
- move=> i hi _; exists R0; split; first exact: Rle_refl.
  move=> a b; rewrite if_same; repeat (case: hi => [<- //|hi]); by [].
Qed.

Lemma still_step q t t' u u' : Z.lt t t' -> step_ok (fresh 18 t (still q) u) (fresh 18 t' (still q) u').
Proof. by move=> h; have [h1 h2] := still_ok q; split=> //; exact: q_clean_zero. Qed.

Lemma still_inputs q t u : inputs (fresh 18 t (still q) u) q (v3sub (iw u) v3zero) (v3sub (ia u) v3zero).
Proof. by exists v3zero, v3zero. Qed.

(** Noise densities of the shipped configuration (msf_updates/position_sensor_fix.yaml, the same in viconpos, pose_pressure and position_pose). *)
Definition usual_noise : noise :=
  Noise (Rdiv (IZR 83) (IZR 1000)) (Rdiv (IZR 83) (IZR 10000)) (Rdiv (IZR 13) (IZR 10000)) (Rdiv (IZR 13) (IZR 100000)).

Definition ms5 : Z := 5000000.
Definition sec1 : Z := 1000000000.

Lemma step_ms5 q u u' : step_dt (fresh 18 0 (still q) u) (fresh 18 ms5 (still q) u') = Rdiv (IZR 5) (IZR 1000).
Proof.
rewrite /step_dt; cbn [f_time fresh]; rewrite /ms5.
rewrite Z.sub_0_r; lra.
Qed.
Lemma step_sec1 q u u' : step_dt (fresh 18 0 (still q) u) (fresh 18 sec1 (still q) u') = R1.
Proof.
rewrite /step_dt; cbn [f_time fresh]; rewrite /sec1.
rewrite Z.sub_0_r; lra.
Qed.

Lemma zero_ok n : cov_ok (0 : 'M[R]_n).
Proof. by split; [rewrite /sym trmx0|exact: psd0]. Qed.

(** The predicted covariance of a step that starts from certainty is the process noise. *)
Lemma still_predict nz an q t u u' tP : Z.lt 0 t -> exists old' new',
  predict_process_covariance std_layout nz (calc_q_aux an) (fresh 18 0 (still q) u) (fresh 18 t (still q) u') tP
    = Ok (old', new', t) /\
  forall i j : 'I_18, (i < 15)%N -> (j < 15)%N ->
    f_P new' i j = calc_q_core std_ix (step_dt (fresh 18 0 (still q) u) (fresh 18 t (still q) u')) q
      (v3sub (iw u') v3zero) (v3sub (ia u') v3zero) nz zzero (Z.of_nat i) (Z.of_nat j).
Proof.
move=> ht; have [hv ha hq ht'] := @still_step q 0 t u u' ht.
have [q1 [w1 [a1 [Qd [old' [new' [[hin1 e eP _ _] [h1 h2 h3 _]]]]]]]] := predict_step nz an tP hv ha hq ht'.
have [? [? ?]] := inputs_det hin1 (@still_inputs q t u'); subst q1 w1 a1.
exists old', new'; split=> // i j hi hj.
rewrite eP /propagate_cov mulmx0 mul0mx add0r mxE h1 //; apply: (proj1 (Nat2Z.inj_lt _ 15)); exact/ltP.
Qed.

(** Free fall, 5 ms, usual noise: the hypotheses of the partial theorem hold. *)
Example C21_keeps_ex : exists old' new',
  predict_process_covariance std_layout usual_noise (calc_q_aux (position_aux R1))
    (fresh 18 0 (still qone) (Imu v3zero v3zero)) (fresh 18 ms5 (still qone) (Imu v3zero v3zero)) 0
  = Ok (old', new', ms5) /\ cov_ok (f_P new') /\ f_P new' <> 0.
Proof.
have hs := @still_step qone 0 ms5 (Imu v3zero v3zero) (Imu v3zero v3zero) erefl.
have hi := @still_inputs qone ms5 (Imu v3zero v3zero).
have h0 : v3sub v3zero v3zero = v3zero by rewrite /v3sub /v3zero; cbn [v3x v3y v3z]; congr V3; ring.
have [|| old' [new' [e ok]]] := @C21_keeps_partial 18 usual_noise (position_aux R1) _ _ Z0 _ _ _ hs hi (zero_ok _).
- rewrite step_ms5 /usual_noise; cbn [n_acc n_accbias]; lra.
- by left; cbn [iw ia]; rewrite h0.
exists old', new'; split=> //; split=> // eP.
have [old2 [new2 [e2 hP]]] := @still_predict usual_noise (position_aux R1) qone ms5 (Imu v3zero v3zero) (Imu v3zero v3zero) Z0 erefl.
move: e2; rewrite e => -[_ e2]; rewrite -e2 eP in hP.
have := hP (inord 12) (inord 12); rewrite !inordK // => /(_ isT isT); rewrite mxE step_ms5 => h.
have := entry_ba_ba (Rdiv (IZR 5) (IZR 1000)) qone (v3sub v3zero v3zero) (v3sub v3zero v3zero) usual_noise.
rewrite -[calc_q_core _ _ _ _ _ _ _ _ _]h /usual_noise; cbn [n_accbias]; rewrite R0E; lra.
Qed.

(** Hovering at rest, usual noise, 5 ms, starting from certainty: the result is not symmetric. *)
Definition hover_imu : imu := Imu v3zero (V3 R0 R0 (Rdiv (IZR 981) (IZR 100))).
Theorem C21_symmetric_refuted : exists (old new old' new' : full 18) q ew ea,
  [/\ step_ok old new, noise_nonneg usual_noise, inputs new q ew ea, qnorm2 q = R1 & cov_ok (f_P old)] /\
  predict_process_covariance std_layout usual_noise (calc_q_aux (position_aux R1)) old new 0 = Ok (old', new', ms5) /\
  ~ sym (f_P new').
Proof.
have [old' [new' [e hP]]] := @still_predict usual_noise (position_aux R1) qone ms5 hover_imu hover_imu Z0 erefl.
exists (fresh 18 0 (still qone) hover_imu), (fresh 18 ms5 (still qone) hover_imu), old', new'.
exists qone, (v3sub (iw hover_imu) v3zero), (v3sub (ia hover_imu) v3zero); split; first split.
- exact: still_step.
- by split; rewrite /usual_noise; cbn [n_acc n_accbias n_gyr n_gyrbias]; lra.
- exact: still_inputs.
- by rewrite /qnorm2 /qone; cbn [qw qx qy qz]; ring.
- exact: zero_ok.
split=> // s.
have h1 := hP (inord 4) (inord 6); have h2 := hP (inord 6) (inord 4).
have h : f_P new' (inord 4) (inord 6) = f_P new' (inord 6) (inord 4) by rewrite -[in LHS]s mxE.
move: h1 h2; rewrite h !inordK // => -> // /(_ isT isT).
have -> : v3sub (iw hover_imu) v3zero = V3 R0 R0 R0 by rewrite /v3sub /v3zero; cbn [v3x v3y v3z iw hover_imu v3zero]; congr V3; ring.
have -> : v3sub (ia hover_imu) v3zero = V3 R0 R0 (Rdiv (IZR 981) (IZR 100)).
  by rewrite /v3sub /v3zero; cbn [v3x v3y v3z ia hover_imu]; congr V3; ring.
rewrite (entry_v_q_hover _ (Rdiv (IZR 981) (IZR 100)) usual_noise) entry_q_v step_ms5 /usual_noise; cbn [n_gyr]; lra.
Qed.
Print Assumptions C21_symmetric_refuted.

(** Turning at 2 rad/s over a gap of one second in the IMU data: the result has a negative
    variance. *)
Definition turn_imu : imu := Imu (V3 R0 R0 (IZR 2)) (V3 R0 R0 (Rdiv (IZR 981) (IZR 100))).
Theorem C21_semidefinite_refuted : exists (old new old' new' : full 18) q ew ea,
  [/\ step_ok old new, noise_nonneg usual_noise, inputs new q ew ea, qnorm2 q = R1 & cov_ok (f_P old)] /\
  predict_process_covariance std_layout usual_noise (calc_q_aux (position_aux R1)) old new 0 = Ok (old', new', sec1) /\
  ~ psd (f_P new').
Proof.
have [old' [new' [e hP]]] := @still_predict usual_noise (position_aux R1) qone sec1 turn_imu turn_imu Z0 erefl.
exists (fresh 18 0 (still qone) turn_imu), (fresh 18 sec1 (still qone) turn_imu), old', new'.
exists qone, (v3sub (iw turn_imu) v3zero), (v3sub (ia turn_imu) v3zero); split; first split.
- exact: still_step.
- by split; rewrite /usual_noise; cbn [n_acc n_accbias n_gyr n_gyrbias]; lra.
- exact: still_inputs.
- by rewrite /qnorm2 /qone; cbn [qw qx qy qz]; ring.
- exact: zero_ok.
split=> // p.
have := p (delta_mx (inord 6) 0); rewrite qfE (bigD1 (inord 6)) //= (bigD1 (inord 6)) //= big1 ?addr0; last first.
  by move=> j ne; rewrite [X in _ * _ * X]mxE (negbTE ne) mulr0.
rewrite big1 ?addr0; last first.
  by move=> i ne; rewrite big1 // => j _; rewrite [X in X * _ * _]mxE (negbTE ne) !mul0r.
rewrite !mxE !eqxx mul1r mulr1 => /RleE.
have := hP (inord 6) (inord 6); rewrite !inordK // => -> //.
rewrite (entry_q_q _ qone _ _ usual_noise) step_sec1 /usual_noise /v3sub; cbn [n_gyr n_gyrbias v3y v3z iw turn_imu v3zero].
rewrite R0E; lra.
Qed.
Print Assumptions C21_semidefinite_refuted.

Theorem C21_full_refuted : ~ C21_full.
Proof.
move=> h; have [old [new [old' [new' [q [ew [ea [[h1 h2 h3 h4 h5] [e n]]]]]]]]] := C21_symmetric_refuted.
by apply: n; have [] := h _ _ _ _ _ _ _ _ _ _ _ _ h1 h2 h3 h4 h5 e.
Qed.
Print Assumptions C21_full_refuted.

(** ** C22 *)

(** A prediction over a non-positive step returns both states and the bookkeeping time as they
    were. *)
Theorem C22_refused : forall n L nz aux (old new : full n) tP,
  Z.le (f_time new) (f_time old) ->
  predict_process_covariance L nz aux old new tP = Ok (old, new, tP).
Proof.
by move=> n L nz aux old new tP h; rewrite /predict_process_covariance (proj2 (Z.leb_le _ _)) //; lia.
Qed.
Print Assumptions C22_refused.

(** The same for the prediction of the core machine, whatever the filter's numbers are. *)
Theorem C22_core_refused : forall (O : ops) told (sold : st O) t s tP,
  Z.le t told -> pred_cov O told sold t s tP = (s, tP).
Proof.
by move=> O told sold t s tP h; rewrite /pred_cov (proj2 (Z.leb_le _ _)) //; lia.
Qed.
Print Assumptions C22_core_refused.

(** A prediction over a positive step moves the bookkeeping time to the new state. *)
Theorem C22_accepted : forall n nz an (old new : full n) tP, step_ok old new ->
  exists old' new', predict_process_covariance std_layout nz (calc_q_aux an) old new tP = Ok (old', new', f_time new) /\
    f_time old' = f_time old /\ f_vars old' = f_vars old /\ f_imu old' = f_imu old /\ f_P old' = f_P old /\
    f_time new' = f_time new /\ f_imu new' = f_imu new /\ List.map ival (f_vars new') = List.map ival (f_vars new).
Proof.
move=> n nz an old new tP [hv _ hq ht].
have [q [ew [ea [A [B [_ e _ _ _]]]]]] := predict_value nz an tP hv hq ht.
do 2! eexists; split; first exact: e.
by do ![split=> //]; cbn [f_vars]; rewrite calc_q_aux_vals.
Qed.
Print Assumptions C22_accepted.

Example C22_ex :
  predict_process_covariance std_layout usual_noise (calc_q_aux (position_aux R1))
    (fresh 18 ms5 (still qone) hover_imu) (fresh 18 ms5 (still qone) turn_imu) sec1 =
  Ok (fresh 18 ms5 (still qone) hover_imu, fresh 18 ms5 (still qone) turn_imu, sec1) /\
  step_ok (fresh 18 0 (still qone) hover_imu) (fresh 18 ms5 (still qone) turn_imu).
Proof. split; first by apply: C22_refused; cbn; lia. exact: still_step. Qed.

(** ** C47: nothing left behind by earlier predictions enters a prediction *)

(** States that have served as the older state of any number of predictions (with any noise
    setting), and otherwise been changed at will. *)
Inductive used n (l : list svar) : full n -> Prop :=
| used_new t s u P : used l (Full t s u P zeye zzero)
| used_change f t s u P : used l f -> used l (Full t s u P (f_Fd f) (f_Qd f))
| used_predict nz an old new tP old' new' tP' :
    used l old -> vars_ok n (f_vars new) -> types (f_vars new) = l ->
    predict_process_covariance std_layout nz (calc_q_aux an) old new tP = Ok (old', new', tP') -> used l old'.

(** Everything but the matrices that are recomputed. *)
Definition scrubbed n (f : full n) : full n := Full (f_time f) (f_vars f) (f_imu f) (f_P f) zeye zzero.

Lemma used_clean n l (f : full n) s : used l f -> types s = l ->
  q_clean s (f_Qd f) /\ forall r c, fd_cell r c = false -> f_Fd f r c = zeye r c.
Proof.
move=> h; elim: h s => {f} [t s' u P|f t s' u P _ ih|nz an old new tP old' new' tP' _ ih hv hl e] s hs.
- by split=> //; exact: q_clean_zero.
- exact: ih.
- have [h1 h2] := ih _ hl.
  case: (Z.lt_ge_cases (f_time old) (f_time new)) => ht; last first.
    move: e; rewrite C22_refused // => -[<- _ _]; split=> //.
    by apply: (q_clean_types _ _ _ _ h1); rewrite hs hl.
  have [q [ew [ea [A [B [_ e' _ _ hA]]]]]] := predict_value nz an tP hv h1 ht.
  move: e; rewrite e' => -[<- _ _]; cbn [f_Qd f_Fd]; split.
    by apply: (q_clean_types _ _ _ _ hA); rewrite hs hl.
  by move=> r c hc; rewrite calc_fd_cells hc h2.
Qed.

Theorem C47_no_leftovers : forall n nz an (old new : full n) tP,
  used (types (f_vars new)) old -> vars_ok n (f_vars new) ->
  Z.lt (f_time old) (f_time new) ->
  exists o1 n1 o2 n2,
    predict_process_covariance std_layout nz (calc_q_aux an) old new tP = Ok (o1, n1, f_time new) /\
    predict_process_covariance std_layout nz (calc_q_aux an) (scrubbed old) new tP = Ok (o2, n2, f_time new) /\
    f_P n1 = f_P n2 /\ (forall r c, f_Fd o1 r c = f_Fd o2 r c) /\ (forall r c, f_Qd o1 r c = f_Qd o2 r c).
Proof.
move=> n nz an old new tP hu hv ht; have [h1 h2] := used_clean hu (erefl _).
have [q [ew [ea [A [B [i1 e1 b1 q1 _]]]]]] := predict_value nz an tP hv h1 ht.
have [q' [ew' [ea' [A' [B' [i2 e2 b2 q2 _]]]]]] := @predict_value n nz an (scrubbed old) new tP hv (q_clean_zero _) ht.
have [? [? ?]] := inputs_det i2 i1; subst q' ew' ea'.
do 4! eexists; split; first exact: e1; split; first exact: e2; cbn [f_P f_Fd f_Qd scrubbed].
have eF r c : calc_fd std_ix (seconds (Z.sub (f_time new) (f_time old))) q ew ea (f_Fd old) r c =
              calc_fd std_ix (seconds (Z.sub (f_time new) (f_time old))) q ew ea zeye r c.
  by rewrite calc_fd_cells; case: ifP => // hc; rewrite h2 // calc_fd_cells hc.
have eQ r c : A r c = A' r c by rewrite q1 q2; move: b2; cbn [f_time scrubbed]; rewrite b1 => -[->].
split; last by split.
congr (propagate_cov _ _ _); first by apply: mx_ext => i j _ _; exact: eF.
by apply: mx_ext => i j _ _; exact: eQ.
Qed.
Print Assumptions C47_no_leftovers.

(** A state predicted from twice, the second time with other readings. *)
Example C47_ex : exists old' new',
  predict_process_covariance std_layout usual_noise (calc_q_aux (position_aux R1))
    (fresh 18 0 (still qone) hover_imu) (fresh 18 sec1 (still qone) turn_imu) 0 = Ok (old', new', sec1) /\
  used (types (still qone)) old' /\ f_Qd old' (Z.of_nat 6) (Z.of_nat 6) <> 0.
Proof.
have [hv ha hq ht] := @still_step qone 0 sec1 hover_imu turn_imu erefl.
have [q1 [w1 [a1 [Qd [old' [new' [[hin1 e eP _ eQ] [h1 h2 h3 _]]]]]]]] := predict_step usual_noise (position_aux R1) Z0 hv ha hq ht.
have [? [? ?]] := inputs_det hin1 (@still_inputs qone sec1 turn_imu); subst q1 w1 a1.
exists old', new'; split=> //; split.
  by apply: (used_predict _ hv _ e) => //; exact: used_new.
rewrite eQ h1 //.
have -> : seconds (Z.sub (f_time (fresh 18 sec1 (still qone) turn_imu)) (f_time (fresh 18 0 (still qone) hover_imu))) = R1.
  exact: (step_sec1 qone hover_imu turn_imu).
cbn [f_Qd fresh]; rewrite (entry_q_q _ qone _ _ usual_noise) /usual_noise /v3sub; cbn [n_gyr n_gyrbias v3y v3z iw turn_imu v3zero].
rewrite R0E; lra.
Qed.
