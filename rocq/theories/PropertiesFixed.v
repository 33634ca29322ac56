(** C32: variables declared fixed are not moved by measurement updates. *)

From Coq Require Import Reals List Lia.
From mathcomp Require Import all_ssreflect all_algebra.
From Verif Require Import Outcome Geom StateList StateListProofs Sensors SensorsSpec SensorsProofs CovSpec Cov CovProofs RField
  SensorsCov PropertiesState PropertiesSensors.
Import GRing.Theory Num.Theory.

Set Implicit Arguments.
Unset Strict Implicit.
Unset Printing Implicit Defensive.
Local Open Scope ring_scope.

(** Entry [i] of the error state belongs to a variable the pose measurement holds fixed. *)
Definition held (l : pose_layout) (f : pose_fixed) (i : nat) : Prop :=
  (f_L f = true /\ part (k_L l) 1 i) \/ (f_pic f = true /\ part (k_pic l) 3 i) \/ (f_qic f = true /\ part (k_qic l) 3 i) \/
  (f_qwv f = true /\ part (k_qwv l) 3 i) \/ (f_pwv f = true /\ part (k_pwv l) 3 i).

Definition pose_layout_ok (n : nat) (l : pose_layout) : Prop :=
  pose_ordered n (k_p l) (k_q l) (k_L l) (k_qwv l) (k_pwv l) (k_qic l) (k_pic l).

(** ** Lemmas *)

Lemma partP a l i : reflect (part a l i) (in_range a l i).
Proof.
apply: (iffP idP) => [/andP[h1 h2]|[h1 h2]]; first by split; apply/leP.
by apply/andP; split; apply/leP.
Qed.
Lemma clear_row n b a l (P : 'M[R]_n) (i j : 'I_n) : b = true -> part a l i -> ~ part a l j -> clear_if b a l P i j = 0.
Proof.
move=> -> /partP hi /partP/negbTE hj; rewrite /clear_if /clear_cross mxE hi hj //.
Qed.
Lemma clear_keep n b a l (P : 'M[R]_n) (i j : 'I_n) : P i j = 0 -> clear_if b a l P i j = 0.
Proof. by rewrite /clear_if /clear_cross; case: b => // h; rewrite mxE h !if_same. Qed.

(** A cleared variable is correlated with itself only. *)
Lemma pose_clear_zero n l f (P : 'M[R]_n) (i j : 'I_n) : held l f i -> ~ held l f j -> pose_clear l f P i j = 0.
Proof.
rewrite /held /pose_clear => -[[e hi]|[[e hi]|[[e hi]|[[e hi]|[e hi]]]]] hj.
- by do 4 apply: clear_keep; apply: clear_row => // h; apply: hj; left.
- by do 3 apply: clear_keep; apply: clear_row => // h; apply: hj; right; left.
- by do 2 apply: clear_keep; apply: clear_row => // h; apply: hj; do 2 right; left.
- by apply: clear_keep; apply: clear_row => // h; apply: hj; do 3 right; left.
- by apply: clear_row => // h; apply: hj; do 4 right.
Qed.

Lemma gain_zero n m (P : 'M[R]_n) (H : 'M[R]_(m, n)) (Rm : 'M[R]_m) (X : nat -> Prop) (i : 'I_n) :
  (forall k (j : 'I_n), X j -> H k j = 0) -> (forall j : 'I_n, ~ X j -> P i j = 0) ->
  forall k, gain P H Rm i k = 0.
Proof.
move=> hH hP; apply: gain_fixed => j [k hk]; apply: hP => hX.
by rewrite hH // eqxx in hk.
Qed.

Lemma update_zero n m enable thr (P : 'M[R]_n) (H : 'M[R]_(m, n)) (Rm : 'M[R]_m) res c P' (X : nat -> Prop) (i : 'I_n) :
  (forall k (j : 'I_n), X j -> H k j = 0) -> (forall j : 'I_n, ~ X j -> P i j = 0) ->
  abs_update enable thr P H Rm res = Some (Applied (Some c) P') -> c i 0 = 0.
Proof.
move=> hH hP; rewrite /abs_update; case: ifP => // _; case: ifP => // _ [].
case: res => //= r [<- _]; rewrite mxE big1 // => k _.
by rewrite (gain_zero Rm hH hP) mul0r.
Qed.

(** ** C32

    The correction of every entry of a fixed variable is zero, for every covariance (it need
    not even be a covariance), noise, residual, gate setting and set of fixed variables. *)

Theorem C32_pose n (l : pose_layout) (f : pose_fixed) (s : pose_state) enable (thr : R)
    (P : 'M[R]_n) (Rm : 'M[R]_7) res c P' :
  pose_layout_ok n l ->
  pose_update l f s enable thr P Rm res = Some (Applied (Some c) P') ->
  forall i : 'I_n, held l f i -> c i 0 = 0.
Proof.
move=> hl hu i hi; apply: (update_zero (X := held l f) _ _ hu) => [k j hj|j hj]; last exact: pose_clear_zero.
by rewrite mxE (pose_H_fixed n).
Qed.
Print Assumptions C32_pose.

Theorem C32_position n (l : pos_layout) (s : pos_state) enable (thr : R)
    (P : 'M[R]_n) (Rm : 'M[R]_3) res c P' :
  pos_ordered n (l_p l) (l_q l) (l_pip l) ->
  position_update l true s enable thr P Rm res = Some (Applied (Some c) P') ->
  forall i : 'I_n, part (l_pip l) 3 i -> c i 0 = 0.
Proof.
move=> hl hu i hi; apply: (update_zero (X := part (l_pip l) 3) _ _ hu) => [k j hj|j hj].
  by rewrite mxE (position_H_fixed n).
exact: clear_row.
Qed.
Print Assumptions C32_position.

(** The relative pose update.  [Fa] is the product of the transition matrices between the two
    states; the rows of the fixed variables (none of them is a core state) are those of the
    identity. *)
Theorem C32_pose_relative n (l : pose_layout) (f : pose_fixed) (old new : pose_state)
    (Pold Fa Pnew : 'M[R]_n) (Rm : 'M[R]_7) res c P' :
  pose_layout_ok n l ->
  (forall i j : 'I_n, held l f i -> Fa i j = (i == j)%:R) ->
  pose_rel_update l f old new Pold Fa Pnew Rm res = Some (Some c, P') ->
  forall i : 'I_n, held l f i -> c i 0 = 0.
Proof.
move=> hl hF; rewrite /pose_rel_update /rel_update; case: ifP => // _ [].
case: res => //= r [<- _] i hi; rewrite mxE big1 // => k _.
rewrite /rel_gain mxE (gain_fixed _ _) ?mul0r // => j [k' hk'].
move: hk'; rewrite /joint_cov; case: (split_ordP j) => j' ->.
- rewrite row_mxEl block_mxEdl mxE /pose_H_old => hk'.
  have hj : ~ held l f j' by move=> h; move: hk'; rewrite (pose_H_fixed n) // (Ropp_0 : Ropp 0 = 0 :> R) eqxx.
  rewrite mxE (bigD1 i) //= hF // eqxx mul1r (pose_clear_zero _ hi hj) add0r big1 // => i' hne.
  by rewrite hF // eq_sym (negbTE hne) mul0r.
- rewrite row_mxEr block_mxEdr mxE => hk'; apply: pose_clear_zero => // h.
  by move: hk'; rewrite (pose_H_fixed n) // eqxx.
Qed.
Print Assumptions C32_pose_relative.

(** *** The variable itself *)

(** The correction vector as the list [correct] reads. *)
Definition corr_list n (c : 'cV[R]_n) : list R := [seq c i 0 | i <- enum 'I_n].
Lemma nthE (s : list R) j d : List.nth j s d = seq.nth d s j.
Proof. by elim: s j => [|x s IH] [|j] //=. Qed.
Lemma corr_nth n (c : 'cV[R]_n) (X : nat -> Prop) j :
  (forall i : 'I_n, X i -> c i 0 = 0) -> X j -> List.nth j (corr_list c) 0 = 0.
Proof.
move=> h hj; rewrite nthE /corr_list; have [hlt|hge] := ltnP j n.
  rewrite (nth_map (Ordinal hlt)) ?size_enum_ord //; apply: h.
  by rewrite nth_enum_ord.
by rewrite nth_default // size_map size_enum_ord.
Qed.
Lemma corr_length n (c : 'cV[R]_n) : List.length (corr_list c) = n.
Proof. by rewrite -[List.length _]/(size _) size_map size_enum_ord. Qed.

(** A variable all of whose error entries are held fixed comes out of the update as it went
    in, whatever its position in whatever state list. *)
Theorem C32_pose_state n (l : pose_layout) (f : pose_fixed) (ps : pose_state) enable (thr : R)
    (P : 'M[R]_n) (Rm : 'M[R]_7) res c P' (s s' : state) k v :
  pose_layout_ok n l -> compiles (types s) -> enum_ok (types s) ->
  (forall x, In x (types s) -> vkd x = KQuat -> vopt x = Z0) ->
  List.Forall shape_ok s -> count_states corr_len (types s) = Z.of_nat n ->
  nth_error s k = Some v -> Z.odd (vopt (itype v)) = false -> (forall q, ival v = VQuat q -> qnorm2 q = 1) ->
  (forall j, Z.le (start_index corr_len (types s) (itype v)) (Z.of_nat j) ->
    Z.lt (Z.of_nat j) (Z.add (start_index corr_len (types s) (itype v)) (corr_len (Some (itype v)))) ->
    held l f j) ->
  pose_update l f ps enable thr P Rm res = Some (Applied (Some c) P') ->
  correct (corr_list c) s = Ok s' ->
  nth_error s' k = Some v.
Proof.
move=> hl hc hn hq hs hlen hk ho hu hheld hup hcor.
refine (correct_zero _ _ _ _ _ hc hn hq hs _ hk ho hu _ hcor); first by rewrite corr_length hlen.
by move=> j [h1 h2]; apply: (corr_nth (X := held l f)); [exact: C32_pose hl hup|exact: hheld].
Qed.
Print Assumptions C32_pose_state.
Theorem C32_position_state n (l : pos_layout) (ps : pos_state) enable (thr : R)
    (P : 'M[R]_n) (Rm : 'M[R]_3) res c P' (s s' : state) k v :
  pos_ordered n (l_p l) (l_q l) (l_pip l) -> compiles (types s) -> enum_ok (types s) ->
  (forall x, In x (types s) -> vkd x = KQuat -> vopt x = Z0) ->
  List.Forall shape_ok s -> count_states corr_len (types s) = Z.of_nat n ->
  nth_error s k = Some v -> Z.odd (vopt (itype v)) = false -> (forall q, ival v = VQuat q -> qnorm2 q = 1) ->
  (forall j, Z.le (start_index corr_len (types s) (itype v)) (Z.of_nat j) ->
    Z.lt (Z.of_nat j) (Z.add (start_index corr_len (types s) (itype v)) (corr_len (Some (itype v)))) ->
    part (l_pip l) 3 j) ->
  position_update l true ps enable thr P Rm res = Some (Applied (Some c) P') ->
  correct (corr_list c) s = Ok s' ->
  nth_error s' k = Some v.
Proof.
move=> hl hc hn hq hs hlen hk ho hu hheld hup hcor.
refine (correct_zero _ _ _ _ _ hc hn hq hs _ hk ho hu _ hcor); first by rewrite corr_length hlen.
by move=> j [h1 h2]; apply: (corr_nth (X := part (l_pip l) 3)); [exact: C32_position hl hup|exact: hheld].
Qed.
Print Assumptions C32_position_state.

(** *** Spherical sensor *)

(** The lever arm declared fixed is corrected: the matrix keeps its columns. *)
Definition sph_lay : pos_layout := PosLayout 0 3 6.
Definition sph_state : pos_state := PosState (V3 1 0 0) qone v3zero.
Definition sph_row : 'rV[R]_9 := \row_j (if (Nat.eqb j 0 || Nat.eqb j 6)%bool then 1 else 0).
Lemma sph_H : hmx 1 9 (distance_H sph_lay sph_state) = sph_row.
Proof. by apply/matrixP => i j; rewrite !mxE (ord1 i); apply: sph_entry; apply/ltP. Qed.

Lemma clear_one n a l : clear_if true a l (1%:M : 'M[R]_n) = 1%:M.
Proof.
apply/matrixP => i j; rewrite /clear_if /clear_cross !mxE; case: eqP => [->|_]; last by rewrite !if_same.
by case: (in_range a l j).
Qed.
Lemma sph_innov : innov 1%:M sph_row 1%:M = 3%:R%:M :> 'M[R]_1.
Proof.
apply/matrixP => i j; rewrite (ord1 i) (ord1 j) /innov mulmx1 !mxE !big_ord_recl big_ord0 !mxE /=.
by rewrite !(mulr0, mulr1, addr0, add0r) mulr1n -addrA.
Qed.

Theorem C32_distance_refuted : exists (l : pos_layout) (ps : pos_state) (P : 'M[R]_9) (Rm : 'M[R]_1) (r : 'cV[R]_1) c P' (i : 'I_9),
  pos_ordered 9 (l_p l) (l_q l) (l_pip l) /\
  distance_update l true ps false 0 P Rm (Some r) = Some (Applied (Some c) P') /\
  part (l_pip l) 3 i /\ c i 0 = 1.
Proof.
have h3 : (3%:R : R) \is a GRing.unit by rewrite unitfE pnatr_eq0.
have hu : (3%:R%:M : 'M[R]_1) \in unitmx by rewrite -scalemx1 unitmxZ // unitmx1.
exists sph_lay, sph_state, 1%:M, 1%:M, (3%:R%:M : 'M_1).
eexists; eexists; exists (inord 6); split; first by cbv [pos_ordered sph_lay]; cbn; repeat split; apply/leP.
split.
  rewrite /distance_update clear_one sph_H /abs_update sph_innov hu /=.
  by reflexivity.
split; first by rewrite /part inordK //=; split; apply/leP.
rewrite /gain sph_innov mul1mx invmx_scalar -mulmxA -scalar_mxM mulVr // mulmx1 !mxE inordK //=.
Qed.
Print Assumptions C32_distance_refuted.

(** *** Examples *)

Lemma qf_one m (x : 'cV[R]_m) : qf 1%:M x = \sum_i (x i 0) ^+ 2.
Proof. by rewrite /qf mulmx1 mxE; apply: eq_bigr => i _; rewrite mxE expr2. Qed.
Lemma one_pd m : pd (1%:M : 'M[R]_m).
Proof.
move=> x hx; rewrite qf_one lt0r sumr_ge0 ?andbT; last by move=> i _; exact: sqr_ge0.
apply/negP => /eqP /psumr_eq0P h; move/eqP: hx; apply; apply/matrixP => i j; rewrite (ord1 j) mxE.
by apply/eqP; rewrite -sqrf_eq0 h // => k _; exact: sqr_ge0.
Qed.
Lemma one_ok m : cov_ok (1%:M : 'M[R]_m).
Proof.
split; first exact: trmx1.
by move=> x; rewrite qf_one; apply: sumr_ge0 => i _; exact: sqr_ge0.
Qed.

(** The pose sensor's state list with the visual scale, the camera's position and the camera's
    attitude declared fixed, an identity covariance and any residual: the update runs, the
    three variables fill the segments 15, 22-24 and 25-27. *)
Definition ex_fixed : pose_fixed := PoseFixed true true true false false.
Example C32_ex (ps : pose_state) (r : 'cV[R]_7) :
  exists c P', pose_update pose_lay ex_fixed ps false 0 (1%:M : 'M[R]_28) 1%:M (Some r) = Some (Applied (Some c) P') /\
    pose_layout_ok 28 pose_lay /\ forall j, held pose_lay ex_fixed j <-> (j = 15%N \/ le 22 j /\ lt j 28).
Proof.
have e : pose_clear pose_lay ex_fixed (1%:M : 'M[R]_28) = 1%:M by rewrite /pose_clear !clear_one.
rewrite /pose_update e /abs_update innov_unit /=; [|exact: (one_ok _).2|exact: one_pd].
eexists; eexists; split; first reflexivity.
split; first by cbv [pose_layout_ok pose_ordered pose_lay]; cbn; repeat split; apply/leP.
by move=> j; rewrite /held /part /=; lia.
Qed.
Example C32_relative_ex (old new : pose_state) (r : 'cV[R]_7) :
  exists c P', pose_rel_update pose_lay ex_fixed old new (0 : 'M[R]_28) 1%:M 1%:M 1%:M (Some r) = Some (Some c, P') /\
    forall i j : 'I_28, held pose_lay ex_fixed i -> (1%:M : 'M[R]_28) i j = (i == j)%:R.
Proof.
have e : pose_clear pose_lay ex_fixed (1%:M : 'M[R]_28) = 1%:M by rewrite /pose_clear !clear_one.
have e0 : pose_clear pose_lay ex_fixed (0 : 'M[R]_28) = 0.
  by apply/matrixP => i j; rewrite [RHS]mxE; do 5 apply: clear_keep; rewrite mxE.
have hS Ho Hn : rel_innov (0 : 'M[R]_28) 1%:M 1%:M Ho Hn (1%:M : 'M[R]_7) = innov 1%:M Hn 1%:M.
  by rewrite /rel_innov /innov /joint_cov mul_row_block tr_row_mx mul_row_col !(mul0mx, mulmx0, add0r).
rewrite /pose_rel_update e e0 /rel_update hS innov_unit /=; [|exact: (one_ok _).2|exact: one_pd].
by eexists; eexists; split; [reflexivity|move=> i j _; rewrite mxE].
Qed.
