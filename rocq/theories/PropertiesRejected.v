(** C20 for the measurements of the repository: what a rejected one leaves behind. *)

From Coq Require Import Reals ZArith Lia Lra List.
From mathcomp Require Import all_ssreflect all_algebra.
From Verif Require Import Outcome Core Geom StateList StateListProofs Propagate NavOps Sensors SensorsSpec CovSpec Cov CovProofs RField GeomProofs SensorsProofs
  SensorsCov PropertiesState PropertiesCov PropertiesFixed ProcNoise ProcNoiseProofs QdProofs Fuzzy FuzzyProofs Predict PredictProofs PropertiesPredict Filter FilterState FilterProofs PropertiesFilter.
Import GRing.Theory Num.Theory.

Set Implicit Arguments.
Unset Strict Implicit.
Unset Printing Implicit Defensive.
Local Open Scope ring_scope.

(** ** Vocabulary *)

(** Entries [i] and [j] are on different sides of the variable at [a] of size [l]. *)
Definition apart (a l i j : nat) : Prop := (part a l i /\ ~ part a l j) \/ (part a l j /\ ~ part a l i).
(** The covariance without the cross covariances of the variables held fixed. *)
Definition cut n (X : nat -> nat -> Prop) (P Q : 'M[R]_n) : Prop :=
  forall i j : 'I_n, (X i j -> Q i j = 0) /\ (~ X i j -> Q i j = P i j).
Definition apart_pip (fs : Z) (k : nat) (l : pos_layout) (i j : nat) : Prop :=
  Z.testbit fs (Z.of_nat k) = true /\ apart (l_pip l) 3 i j.
Definition apart_pose (fs : Z) (l : pose_layout) (i j : nat) : Prop :=
  (Z.testbit fs 5 = true /\ apart (k_L l) 1 i j) \/ (Z.testbit fs 6 = true /\ apart (k_qwv l) 3 i j) \/
  (Z.testbit fs 7 = true /\ apart (k_pwv l) 3 i j) \/ (Z.testbit fs 8 = true /\ apart (k_qic l) 3 i j) \/
  (Z.testbit fs 9 = true /\ apart (k_pic l) 3 i j).

(** ** Lemmas *)

Lemma apartP a l i j : reflect (apart a l i j) (in_range a l i != in_range a l j).
Proof.
by apply: (iffP idP); rewrite /apart; case: (partP a l i) => h1; case: (partP a l j) => h2 //=; intuition.
Qed.
Lemma clear_if_cut n b a l (P : 'M[R]_n) : cut (fun i j => b = true /\ apart a l i j) P (clear_if b a l P).
Proof.
move=> i j; rewrite /clear_if; case: b; last by split=> // -[].
rewrite /clear_cross mxE; case: (apartP a l i j) => h; move: (h) => /apartP.
- by move=> hne; split=> [_|[]] //; move: hne; case: (in_range a l i); case: (in_range a l j).
- move=> hne; split=> [[_ //]|_]; move: hne; case: (in_range a l i); case: (in_range a l j) => //.
  all: by move=> h'; case: h; apply/apartP.
Qed.
Lemma cut_cut n X Y (P Q S : 'M[R]_n) : cut X P Q -> cut Y Q S -> cut (fun i j => Y i j \/ X i j) P S.
Proof.
move=> h1 h2 i j; have [a1 b1] := h1 i j; have [a2 b2] := h2 i j; split.
- move=> h; have [hy|hy] : Y i j \/ ~ Y i j by exact: Classical_Prop.classic.
  + exact: a2.
  + by rewrite b2 //; apply: a1; case: h.
- by move=> h; rewrite b2 ?b1 //; intuition.
Qed.
Lemma cut_same n (X Y : nat -> nat -> Prop) (P Q Q' : 'M[R]_n) : (forall i j, X i j <-> Y i j) -> cut X P Q -> cut Y P Q' -> Q = Q'.
Proof.
move=> h h1 h2; apply/matrixP => i j; have [a1 b1] := h1 i j; have [a2 b2] := h2 i j.
have [hy|hy] : X i j \/ ~ X i j by exact: Classical_Prop.classic.
- by rewrite a1 // a2 //; apply/h.
- by rewrite b1 // b2 // => /h.
Qed.
Lemma pose_cut n l fs (P : 'M[R]_n) : cut (apart_pose fs l) P (pose_clear l (pose_flags fs 5 9 8 6 7) P).
Proof.
have h1 := @clear_if_cut n (fixed_bit fs 5) (k_L l) 1 P.
have h2 := cut_cut h1 (@clear_if_cut n (fixed_bit fs 9) (k_pic l) 3 _).
have h3 := cut_cut h2 (@clear_if_cut n (fixed_bit fs 8) (k_qic l) 3 _).
have h4 := cut_cut h3 (@clear_if_cut n (fixed_bit fs 6) (k_qwv l) 3 _).
have h5 := cut_cut h4 (@clear_if_cut n (fixed_bit fs 7) (k_pwv l) 3 _).
move=> i j; have [a b] := h5 i j; split=> h; [apply: a|apply: b => h'; apply: h].
- by move: h; rewrite /apart_pose /fixed_bit; tauto.
- by move: h'; rewrite /apart_pose /fixed_bit; tauto.
Qed.

Lemma gate_spec n m thr (P : 'M[R]_n) (H : 'M[R]_(m, n)) (Rm : 'M[R]_m) v d : cov_ok P -> sym Rm -> pd Rm -> mahalanobis P H Rm v d ->
  (thr < d -> abs_update true thr P H Rm (Some v) = Some Rejected) /\
  (d <= thr -> exists c P1, abs_update true thr P H Rm (Some v) = Some (Applied (Some c) P1)).
Proof.
move=> hP hs hp hm; have [h1 h2] := @C20_gate _ n m unit (fun _ x => x) thr H Rm v tt P d hP hs hp hm.
split=> h; [move: (h1 h)|move: (h2 h)]; rewrite /apply_abs /abs_update [(tt, P).2]/=; case: (innov P H Rm \in unitmx) => //; rewrite /negb /=.
- by case: ifP.
- by case: ifP => //= _ _; do 2 eexists.
Qed.

Lemma number_flag n cfg g (c : 'cV[R]_n) s (P1 : 'M[R]_n) : exists v' g',
  (let '(v', g') := f_correct cfg g (Some c) s in (true, v', PMat P1, g')) = (true, v', PMat P1, g').
Proof. by case: (f_correct _ _ _ _) => v' g'; exists v', g'. Qed.

(** ** Rejection *)

(** Beyond the threshold a measurement is dropped: the state and the detector of wrong
    measurements stay, and of the covariance the cross covariances of the variables held
    fixed are gone.  Within the threshold it is applied.  The distance is that of the
    covariance without these cross covariances. *)
Theorem C20_position n cfg fs thr z Rm g s (P Q : 'M[R]_n) l ps d :
  pos_layout_at (types s) (c_pip cfg) = Ok l -> pos_state_at s (c_pip cfg) = Ok ps ->
  cov_ok P -> sym Rm -> pd Rm -> cut (apart_pip fs (c_pip cfg) l) P Q ->
  mahalanobis Q (hmx 3 n (position_H l (Z.testbit fs (Z.of_nat (c_pip cfg))) ps)) Rm (col3 (position_residual z ps)) d ->
  (thr < d -> f_apply cfg (RPosition fs (Gate true thr) z Rm) g (FState s) (PMat P) = (false, FState s, PMat Q, g)) /\
  (d <= thr -> exists v' P' g', f_apply cfg (RPosition fs (Gate true thr) z Rm) g (FState s) (PMat P) = (true, v', PMat P', g')).
Proof.
move=> hl hps hP hs hp hQ hm.
have eQ : clear_if (fixed_bit fs (c_pip cfg)) (l_pip l) 3 P = Q by apply: cut_same (clear_if_cut _ _ _ _) hQ.
have hQ' : cov_ok Q by rewrite -eQ; exact: clear_if_ok.
have [h1 h2] := gate_spec thr hQ' hs hp hm.
rewrite /f_apply /measure hl hps /bind /position_update eQ; split=> h.
- by rewrite h1.
- have [c [P1 ->]] := h2 h; by have [v' [g' ->]] := number_flag cfg g c s P1; exists v', P1, g'.
Qed.
Print Assumptions C20_position.

Theorem C20_pose n cfg fs thr z_p z_q Rm g s (P Q : 'M[R]_n) l ps r d :
  pose_layout_at (types s) = Ok l -> pose_state_at s = Ok ps -> pose_residual_col z_p z_q ps = Some r ->
  cov_ok P -> sym Rm -> pd Rm -> cut (apart_pose fs l) P Q ->
  mahalanobis Q (hmx 7 n (pose_H l (pose_flags fs 5 9 8 6 7) ps)) Rm r d ->
  (thr < d -> f_apply cfg (RPose fs (Gate true thr) z_p z_q Rm) g (FState s) (PMat P) = (false, FState s, PMat Q, g)) /\
  (d <= thr -> exists v' P' g', f_apply cfg (RPose fs (Gate true thr) z_p z_q Rm) g (FState s) (PMat P) = (true, v', PMat P', g')).
Proof.
move=> hl hps hr hP hs hp hQ hm.
have eQ : pose_clear l (pose_flags fs 5 9 8 6 7) P = Q by apply: cut_same (pose_cut _ _ _) hQ.
have hQ' : cov_ok Q by rewrite -eQ; exact: pose_clear_ok.
have [h1 h2] := gate_spec thr hQ' hs hp hm.
rewrite /f_apply /measure hl hps /bind /pose_update eQ hr; split=> h.
- by rewrite h1.
- have [c [P1 ->]] := h2 h; by have [v' [g' ->]] := number_flag cfg g c s P1; exists v', P1, g'.
Qed.
Print Assumptions C20_pose.

Theorem C20_pressure n cfg thr z Rm g s (P : 'M[R]_n) ip ib p b d :
  start_of (types s) 0 = Ok ip -> start_of (types s) (c_bp cfg) = Ok ib -> get_v3 s 0 = Ok p -> get_real s (c_bp cfg) = Ok b ->
  cov_ok P -> sym Rm -> pd Rm ->
  mahalanobis P (hmx 1 n (pressure_H ip ib)) Rm (col1 (pressure_residual z b p)) d ->
  (thr < d -> f_apply cfg (RPressure (Gate true thr) z Rm) g (FState s) (PMat P) = (false, FState s, PMat P, g)) /\
  (d <= thr -> exists v' P' g', f_apply cfg (RPressure (Gate true thr) z Rm) g (FState s) (PMat P) = (true, v', PMat P', g')).
Proof.
move=> h1 h2 h3 h4 hP hs hp hm; have [a1 a2] := gate_spec thr hP hs hp hm.
rewrite /f_apply /measure h1 h2 h3 h4 /bind; split=> h.
- by rewrite a1.
- have [c [P1 ->]] := a2 h; by have [v' [g' ->]] := number_flag cfg g c s P1; exists v', P1, g'.
Qed.
Print Assumptions C20_pressure.

Theorem C20_distance n cfg fs thr z Rm g s (P Q : 'M[R]_n) l ps d :
  pos_layout_at (types s) (c_pip cfg) = Ok l -> pos_state_at s (c_pip cfg) = Ok ps -> dist_ok ps ->
  cov_ok P -> sym Rm -> pd Rm -> cut (apart_pip fs (c_pip cfg) l) P Q ->
  mahalanobis Q (hmx 1 n (distance_H l ps)) Rm (col1 (distance_residual z ps)) d ->
  (thr < d -> f_apply cfg (RDistance fs (Gate true thr) z Rm) g (FState s) (PMat P) = (false, FState s, PMat Q, g)) /\
  (d <= thr -> exists v' P' g', f_apply cfg (RDistance fs (Gate true thr) z Rm) g (FState s) (PMat P) = (true, v', PMat P', g')).
Proof.
move=> hl hps hok hP hs hp hQ hm.
have eQ : clear_if (fixed_bit fs (c_pip cfg)) (l_pip l) 3 P = Q by apply: cut_same (clear_if_cut _ _ _ _) hQ.
have hQ' : cov_ok Q by rewrite -eQ; exact: clear_if_ok.
have [h1 h2] := gate_spec thr hQ' hs hp hm.
rewrite /f_apply /measure hl hps /bind hok /distance_update eQ; split=> h.
- by rewrite h1.
- have [c [P1 ->]] := h2 h; by have [v' [g' ->]] := number_flag cfg g c s P1; exists v', P1, g'.
Qed.
Print Assumptions C20_distance.

Theorem C20_angle n cfg fs thr z_theta z_phi Rm g s (P Q : 'M[R]_n) l ps r d :
  pos_layout_at (types s) (c_pip cfg) = Ok l -> pos_state_at s (c_pip cfg) = Ok ps -> angle_ok ps ->
  angle_residual_col z_theta z_phi ps = Some r ->
  cov_ok P -> sym Rm -> pd Rm -> cut (apart_pip fs (c_pip cfg) l) P Q ->
  mahalanobis Q (hmx 2 n (angle_H l ps)) Rm r d ->
  (thr < d -> f_apply cfg (RAngle fs (Gate true thr) z_theta z_phi Rm) g (FState s) (PMat P) = (false, FState s, PMat Q, g)) /\
  (d <= thr -> exists v' P' g', f_apply cfg (RAngle fs (Gate true thr) z_theta z_phi Rm) g (FState s) (PMat P) = (true, v', PMat P', g')).
Proof.
move=> hl hps hok hr hP hs hp hQ hm.
have eQ : clear_if (fixed_bit fs (c_pip cfg)) (l_pip l) 3 P = Q by apply: cut_same (clear_if_cut _ _ _ _) hQ.
have hQ' : cov_ok Q by rewrite -eQ; exact: clear_if_ok.
have [h1 h2] := gate_spec thr hQ' hs hp hm.
rewrite /f_apply /measure hl hps /bind hok hr /angle_update eQ; split=> h.
- by rewrite h1.
- have [c [P1 ->]] := h2 h; by have [v' [g' ->]] := number_flag cfg g c s P1; exists v', P1, g'.
Qed.
Print Assumptions C20_angle.

(** A rejected measurement leaves the filter untouched. *)
Definition C20_untouched_full : Prop := forall n cfg m g s (P : 'M[R]_n) v' P' g', shipped n cfg -> takes cfg m ->
  cov_ok P -> state_of (c_vars cfg) s -> noise_pd m ->
  f_apply cfg m g (FState s) (PMat P) = (false, v', P', g') -> v' = FState s /\ P' = PMat P /\ g' = g.

Definition holds_nothing (m : reading) : Prop :=
  match m with
  | RPosition fs _ _ _ | RPose fs _ _ _ _ | RDistance fs _ _ _ | RAngle fs _ _ _ _ => fs = Z0
  | RPressure _ _ _ => True
  end.

(** True of measurements that hold no variable fixed; of the others all but the covariance. *)
Theorem C20_untouched_partial n cfg m g s (P : 'M[R]_n) v' P' g' :
  f_apply cfg m g (FState s) (PMat P) = (false, v', P', g') -> v' = FState s /\ g' = g /\ (holds_nothing m -> P' = PMat P).
Proof.
rewrite /f_apply; case em: (measure _ _ _ _) => [[P0 [[|c P1]|]]| |] //; last by case: (f_correct _ _ _ _) => ? ?.
case=> <- <- <-; split=> //; split=> // hn; congr PMat; move: em.
case: m hn => [fs gt z Rm|fs gt zp zq Rm|gt z Rm|fs gt z Rm|fs gt a b Rm] /= hn; rewrite /bind.
- by rewrite hn; case: pos_layout_at => // l; case: pos_state_at => // ps [<- _]; rewrite /fixed_bit Z.testbit_0_l.
- by rewrite hn; case: pose_layout_at => // l; case: pose_state_at => // ps [<- _]; rewrite /pose_clear /pose_flags /fixed_bit /= .
- by do 2 (case: start_of => // ?); case: get_v3 => // ?; case: get_real => // ? [<- _].
- by rewrite hn; case: pos_layout_at => // l; case: pos_state_at => // ps [<- _]; rewrite /fixed_bit Z.testbit_0_l.
- by rewrite hn; case: pos_layout_at => // l; case: pos_state_at => // ps [<- _]; rewrite /fixed_bit Z.testbit_0_l.
Qed.
Print Assumptions C20_untouched_partial.

(** ** A rejection that changes the covariance *)

Section Witness.
Let cfg := position_filter usual_noise R1 false.
Let s := still qone.
Let ones : 'cV[R]_18 := const_mx 1.
Let P : 'M[R]_18 := 1%:M + ones *m ones^T.
Let e1 : 'cV[R]_3 := col3 (V3 R1 R0 R0).
Let far (c : R) : reading := RPosition 32 (Gate true R1) (V3 c R0 R0) 1%:M.

Lemma witness_cov : cov_ok P.
Proof.
split; first by rewrite /sym /P linearD /= trmx1 trmx_mul trmxK.
move=> x; rewrite /P qfD; apply: addr_ge0; first exact: (psd_scalar ler01).
by have := psd_congr ones (@psd_scalar _ 1 1 ler01) x; rewrite mulmx1.
Qed.

Lemma rejected : exists c Q, f_apply cfg (far c) (GMem fuzzy_new) (FState s) (PMat P) = (false, FState s, PMat Q, GMem fuzzy_new) /\
  Q (inord 0) (inord 15) = 0.
Proof.
have [l [hl h15]] : exists l, pos_layout_at (types s) (c_pip cfg) = Ok l /\ l_pip l = 15%N by eexists.
have [ps [hps hr]] : exists ps, pos_state_at s (c_pip cfg) = Ok ps /\ forall c, position_residual (V3 c R0 R0) ps = V3 c R0 R0.
  eexists; split; first reflexivity.
  by move=> c; rewrite /position_residual /m3vec /m3tr /qrot /v3dot /v3sub /v3add /=; congr V3; ring.
pose Q := clear_if true 15 3 P.
have hQ : cut (apart_pip 32 (c_pip cfg) l) P Q.
  by move=> i j; have [a b] := @clear_if_cut 18 true 15 3 P i j; rewrite /apart_pip h15; split=> h; [apply: a|apply: b]; move: h.
have hQ' : cov_ok Q by apply: clear_if_ok; exact: witness_cov.
pose H := hmx 3 18 (position_H l (Z.testbit 32 (Z.of_nat (c_pip cfg))) ps).
have hone : sym (1%:M : 'M[R]_3) by exact: trmx1.
have hpd : pd (1%:M : 'M[R]_3) by exact: one_pd.
have hpos : 0 < qf (invmx (innov Q H 1%:M)) e1.
  apply: pd_inv; [exact: innov_sym (proj1 hQ') hone|exact: innov_pd (proj2 hQ') hpd|].
  by apply/eqP => /matrixP /(_ 0 0); rewrite !mxE => h; have : R1 = R0 by []; lra.
set q := qf _ _ in hpos; pose c := Rplus (Rdiv R1 q) R1.
have hq : Rlt R0 q by apply/RField.ltrP.
have ec : col3 (V3 c R0 R0) = c *: e1.
  apply/matrixP => i j; rewrite !mxE; case: i => -[|[|[|]]] //= ? ; rewrite -[LHS]/(_ : R) -[RHS]/(Rmult c _); ring.
have hval : ((c *: e1)^T *m invmx (H *m Q *m H^T + 1%:M) *m (c *: e1)) 0 0 = Rmult (Rmult c c) q.
  have -> : (c *: e1)^T = c *: e1^T by apply/matrixP => i j; rewrite !mxE.
  by rewrite -!scalemxAl -scalemxAr scalerA mxE.
exists c, Q; split; last by rewrite /Q /clear_if /clear_cross mxE !inordK.
have hm : mahalanobis Q H 1%:M (col3 (position_residual (V3 c R0 R0) ps)) (sqrt (Rmult (Rmult c c) q)).
  have h0 : Rle R0 (Rmult (Rmult c c) q) by apply: Rmult_le_pos; [exact: Rle_0_sqr|lra].
  split; first by apply/RField.lerP; exact: sqrt_pos.
  by rewrite hr ec hval expr2; exact: sqrt_sqrt.
have [h _] := C20_position R1 (GMem fuzzy_new) hl hps witness_cov hone hpd hQ hm.
apply: h; apply/RField.ltrP; rewrite -[X in Rlt X _]sqrt_1; apply: sqrt_lt_1_alt; split; first lra.
have e2 : Rmult (Rmult c c) q = Rplus (Rplus (Rinv q) (IZR 2)) q by rewrite /c; field; lra.
have := Rinv_0_lt_compat q hq; rewrite e2; lra.
Qed.

Theorem C20_untouched_refuted : ~ C20_untouched_full.
Proof.
move=> h; have [c [Q [e h0]]] := rejected.
have hst : state_of (c_vars cfg) s by apply: still_of; rewrite /qnorm2 /qone; cbn [qw qx qy qz]; ring.
have ht : takes cfg (far c) by [].
have [_ [[eP] _]] := h 18%N cfg (far c) _ s P _ _ _ (Sh_position usual_noise R1 false) ht witness_cov hst (conj (trmx1 _ _) (@one_pd _)) e.
have hne : (inord 0 == inord 15 :> 'I_18) = false by apply/eqP => /(congr1 val); rewrite /= !inordK.
by move: h0; rewrite eP /P mxE [X in X + _]mxE hne [X in _ + X]mxE big_ord1 !mxE mulr1 add0r => /eqP; rewrite oner_eq0.
Qed.
End Witness.
Print Assumptions C20_untouched_refuted.
