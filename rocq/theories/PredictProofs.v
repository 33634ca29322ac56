(** One prediction step of the covariance. *)

From Coq Require Import Reals ZArith Lia Lra List.
From mathcomp Require Import all_ssreflect all_algebra.
From Verif Require Import Outcome Geom StateList StateListProofs Propagate NavOps QCore ProcNoise ProcNoiseProofs QdProofs
  Cov CovSpec CovProofs RField Predict PropertiesState.
Import GRing.Theory Num.Theory.

Set Implicit Arguments.
Unset Strict Implicit.
Unset Printing Implicit Defensive.
Local Open Scope ring_scope.

(** ** Quadratic forms as sums *)

Lemma rsumE n (f : nat -> R) : rsum n f = \sum_(i < n) f i.
Proof. by elim: n => [|n ih]; rewrite ?big_ord0 //= big_ord_recr /= -ih. Qed.

Definition entry n (x : 'cV[R]_n) (i : nat) : R := if insub i is Some k then x k 0 else 0.
Lemma entryE n (x : 'cV[R]_n) (i : 'I_n) : entry x i = x i 0.
Proof. by rewrite /entry valK. Qed.

Lemma qf_mx n (M : zmat) (x : 'cV[R]_n) :
  qf (mx n M) x = rsum n (fun i => rsum n (fun j => Rmult (Rmult (entry x i) (M (Z.of_nat i) (Z.of_nat j))) (entry x j))).
Proof.
rewrite qfE rsumE; apply: eq_bigr => i _; rewrite rsumE; apply: eq_bigr => j _.
by rewrite mxE !entryE.
Qed.

Lemma rsum_ext n (f g : nat -> R) : (forall i, (i < n)%coq_nat -> f i = g i) -> rsum n f = rsum n g.
Proof.
elim: n => //= n ih h; congr Rplus; last by apply: h; lia.
by apply: ih => i hi; apply: h; lia.
Qed.

(** ** The core part *)

Lemma core_ok dt q ew ea nz Q :
  (forall r c, Z.lt r 15 -> Z.lt c 15 -> is_core_cell r c = false -> Q r c = R0) ->
  (ew = v3zero /\ ea = v3zero) \/ (n_gyr nz = R0 /\ n_gyrbias nz = R0) ->
  Rle R0 dt -> Rle (Rmult (Rmult (n_accbias nz) (n_accbias nz)) (Rmult dt dt)) (Rmult (IZR 9) (Rmult (n_acc nz) (n_acc nz))) ->
  cov_ok (mx 15 (calc_q_core std_ix dt q ew ea nz Q)).
Proof.
move=> hQ hg hdt hn.
have e i j : (i < 15)%coq_nat -> (j < 15)%coq_nat -> calc_q_core std_ix dt q ew ea nz Q (Z.of_nat i) (Z.of_nat j) =
  target dt (n_acc nz) (n_accbias nz) (n_gyr nz) (n_gyrbias nz) (hrot q) i j by exact: core_entry.
split.
- apply/matrixP => i j; rewrite !mxE !e; try exact/ltP.
  apply: target_sym; exact/ltP.
- move=> x; apply/RleE; rewrite qf_mx.
  rewrite (@rsum_ext 15 _ (fun i => rsum 15 (fun j =>
     Rmult (Rmult (entry x i) (target dt (n_acc nz) (n_accbias nz) (n_gyr nz) (n_gyrbias nz) (hrot q) i j)) (entry x j)))).
    exact: target_form_pos.
  move=> i hi; apply: rsum_ext => j hj; by rewrite e.
Qed.

(** ** Core and auxiliary part together *)

Lemma diag_ok n (M : zmat) : (forall i j : 'I_n, i != j -> M (Z.of_nat i) (Z.of_nat j) = 0) ->
  (forall i : 'I_n, 0 <= M (Z.of_nat i) (Z.of_nat i)) -> cov_ok (mx n M).
Proof.
move=> h0 h1; split.
- apply/matrixP => i j; rewrite !mxE; case: (eqVneq i j) => [-> //|ne].
  by rewrite !h0 // eq_sym.
- move=> x; rewrite qfE; apply: sumr_ge0 => i _.
  rewrite (bigD1 i) //= big1 ?addr0.
    by rewrite mxE mulrAC -expr2 mulr_ge0 // sqr_ge0.
  by move=> j ne; rewrite mxE h0 1?eq_sym // mulr0 mul0r.
Qed.

Lemma mx_block m k (M : zmat) :
  (forall i j, (i < m)%coq_nat -> (m <= j)%coq_nat -> M (Z.of_nat i) (Z.of_nat j) = 0 /\ M (Z.of_nat j) (Z.of_nat i) = 0) ->
  mx (m + k) M = block_mx (mx m M) 0 0 (mx k (fun r c => M (Z.add r (Z.of_nat m)) (Z.add c (Z.of_nat m)))).
Proof.
move=> h; apply/matrixP => i j; rewrite /block_mx !mxE.
case: (splitP i) => i' ei; rewrite !mxE; case: (splitP j) => j' ej; rewrite !mxE ei ej //.
- by case: (h i' (m + j')%N) => //; [exact/ltP|exact/leP/leq_addr].
- by case: (h j' (m + i')%N) => //; [exact/ltP|exact/leP/leq_addr].
- by congr (M _ _); rewrite -plusE Nat2Z.inj_add Z.add_comm.
Qed.

Lemma block_ok m k (A : 'M[R]_m) (D : 'M[R]_k) : cov_ok A -> cov_ok D -> cov_ok (block_mx A 0 0 D).
Proof.
move=> [sA pA] [sD pD]; split.
- by rewrite /sym tr_block_mx !trmx0 sA sD.
- by move=> x; rewrite qf_block addr_ge0.
Qed.

Lemma qd_ok n (M : zmat) : (15 <= n)%coq_nat -> cov_ok (mx 15 M) ->
  (forall r c, Z.le 15 r \/ Z.le 15 c -> r <> c -> M r c = R0) ->
  (forall r, Z.le 15 r -> Rle R0 (M r r)) -> cov_ok (mx n M).
Proof.
move=> /leP hn hc h0 h1; rewrite -(subnKC hn) (@mx_block 15).
  apply: block_ok => //; apply: diag_ok.
  - move=> i j ne; apply: h0; first by left; lia.
    move=> e; case/negP: ne; apply/eqP/val_inj => /=; lia.
  - by move=> i; apply/RleE; apply: h1; lia.
by move=> i j hi hj; split; apply: h0; lia.
Qed.

Lemma mx_ext n (M N : zmat) : (forall i j, (i < n)%coq_nat -> (j < n)%coq_nat -> M (Z.of_nat i) (Z.of_nat j) = N (Z.of_nat i) (Z.of_nat j)) ->
  mx n M = mx n N.
Proof. by move=> h; apply/matrixP => i j; rewrite !mxE h //; exact/ltP. Qed.

(** The converse: the core block of a covariance is one. *)
Lemma core_of_ok n (M : zmat) : (15 <= n)%coq_nat -> cov_ok (mx n M) ->
  (forall i j, (i < 15)%coq_nat -> (15 <= j)%coq_nat -> M (Z.of_nat i) (Z.of_nat j) = 0 /\ M (Z.of_nat j) (Z.of_nat i) = 0) -> cov_ok (mx 15 M).
Proof.
move=> /leP hn h h0; move: h; rewrite -(subnKC hn) (@mx_block 15) // => -[s p]; split.
- by move: s; rewrite /sym tr_block_mx => /eq_block_mx [].
- by move=> x; have := p (col_mx x 0); rewrite qf_block col_mxKu col_mxKd qf0 addr0.
Qed.

(** ** The whole step *)

Section Step.
Variable n : nat.
Variables (nz : noise) (an : list (nat * R)).
Definition std_layout := Layout 0 1 2 3 4.

(** The list of variables is one the code compiles for, core variables first. *)
Definition vars_ok (s : state) : Prop :=
  [/\ compiles (types s), enum_ok (types s), core_first (types s), List.Forall shape_ok s &
      Z.of_nat n = count_states corr_len (types s)].

(** Attitude and bias-free readings the prediction works with. *)
Definition inputs (f : full n) (q : quat) (ew ea : v3) : Prop :=
  exists bw ba, [/\ get_v3 (f_vars f) 3 = Ok bw, get_v3 (f_vars f) 4 = Ok ba, get_quat (f_vars f) 2 = Ok q,
    ew = v3sub (iw (f_imu f)) bw & ea = v3sub (ia (f_imu f)) ba].

Lemma seconds_pos d : Z.lt 0 d -> Rlt R0 (seconds d).
Proof. move=> h; rewrite /seconds; apply: Rdiv_lt_0_compat; [apply: (IZR_lt 0); lia|lra]. Qed.

Theorem predict_step (old new : full n) tP :
  vars_ok (f_vars new) -> aux_noise_ok (f_vars new) -> q_clean (f_vars new) (f_Qd old) ->
  Z.lt (f_time old) (f_time new) ->
  exists q ew ea Qd old' new',
    [/\ inputs new q ew ea,
       predict_process_covariance std_layout nz (calc_q_aux an) old new tP = Ok (old', new', f_time new),
       f_P new' = propagate_cov (mx n (calc_fd std_ix (seconds (Z.sub (f_time new) (f_time old))) q ew ea (f_Fd old))) (mx n Qd) (f_P old),
       f_Fd old' = calc_fd std_ix (seconds (Z.sub (f_time new) (f_time old))) q ew ea (f_Fd old) &
       f_Qd old' = Qd] /\
    [/\ forall r c, Z.lt r 15 -> Z.lt c 15 ->
          Qd r c = calc_q_core std_ix (seconds (Z.sub (f_time new) (f_time old))) q ew ea nz (f_Qd old) r c,
       forall r c, Z.le 15 r \/ Z.le 15 c -> r <> c -> Qd r c = R0,
       forall r, Z.le 15 r -> Rle R0 (Qd r r) &
       q_clean (f_vars new) Qd].
Proof.
move=> [hc hn hf hs hN] ha hq ht.
have [bw [ba [q [gw [ga gq]]]]] := vars_get _ hf hs.
set dt := seconds _.
have hdt : Rle R0 dt by apply: Rlt_le; apply: seconds_pos; lia.
set ew := v3sub (iw (f_imu new)) bw; set ea := v3sub (ia (f_imu new)) ba.
have et := calc_q_aux_types an dt (f_vars new).
case: (@qd_entries (calc_q_aux an dt (f_vars new)) dt q ew ea nz (f_Qd old)).
- by rewrite et. - by rewrite et. - by rewrite et.
- exact: calc_q_aux_ok.
- exact: (q_clean_types _ _ _ et).
move=> Qd [hcopy [h1 [h2 [h3 h4]]]].
exists q, ew, ea, Qd; do 2! eexists; split; first split.
- by exists bw, ba; split.
- rewrite /predict_process_covariance (proj2 (Z.leb_gt _ _)); last lia.
  rewrite -/dt gw /= ga /= gq /= core_ix_std //= hcopy /=; reflexivity.
- by []. - by []. - by [].
split=> //; exact: (q_clean_types _ _ _ (esym et)).
Qed.

Lemma n15 s : vars_ok s -> (15 <= n)%coq_nat.
Proof. by move=> [hc hn hf _ hN]; have := core_first_size _ hc hn hf; lia. Qed.
End Step.

Theorem predict_value n nz an (old new : full n) tP :
  vars_ok n (f_vars new) -> q_clean (f_vars new) (f_Qd old) -> Z.lt (f_time old) (f_time new) ->
  exists q ew ea A B,
    let dt := seconds (Z.sub (f_time new) (f_time old)) in
    let vars := calc_q_aux an dt (f_vars new) in
    let Fd := calc_fd std_ix dt q ew ea (f_Fd old) in
    [/\ inputs new q ew ea,
       predict_process_covariance std_layout nz (calc_q_aux an) old new tP =
         Ok (Full (f_time old) (f_vars old) (f_imu old) (f_P old) Fd A,
             Full (f_time new) vars (f_imu new) (propagate_cov (mx n Fd) (mx n A) (f_P old)) (f_Fd new) (f_Qd new), f_time new),
       copy_q (types vars) (calc_q_core std_ix dt q ew ea nz zzero) vars = Ok B,
       forall r c, A r c = B r c & q_clean (f_vars new) A].
Proof.
move=> [hc hn hf hs hN] hq ht.
have [bw [ba [q [gw [ga gq]]]]] := vars_get _ hf hs.
set ew := v3sub (iw (f_imu new)) bw; set ea := v3sub (ia (f_imu new)) ba.
set dt := seconds (Z.sub (f_time new) (f_time old)).
have et := calc_q_aux_types an dt (f_vars new).
case: (@copy_fresh (calc_q_aux an dt (f_vars new)) dt q ew ea nz (f_Qd old)).
- by rewrite et. - by rewrite et.
- exact: (q_clean_types _ _ _ et).
move=> A [B [hA [hB [eAB hcl]]]].
exists q, ew, ea, A, B; split=> //.
- by exists bw, ba; split.
- rewrite /predict_process_covariance (proj2 (Z.leb_gt _ _)); last lia.
  by rewrite -/dt gw /= ga /= gq /= core_ix_std //= hA /=.
- exact: (q_clean_types _ _ _ (esym et)).
Qed.
