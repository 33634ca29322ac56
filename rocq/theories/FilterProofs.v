(** Invariants of the whole filter. *)

From Coq Require Import Reals ZArith Lia Lra List.
From mathcomp Require Import all_ssreflect all_algebra.
From Verif Require Import Outcome Core CoreInv Geom StateList StateListProofs Propagate NavOps QCore ProcNoise ProcNoiseProofs QdProofs Fuzzy FuzzyProofs
  Sensors CovSpec Cov CovProofs RField SensorsProofs SensorsCov Predict PredictProofs PropertiesState PropertiesPredict Filter FilterState.
Import GRing.Theory Num.Theory.

Set Implicit Arguments.
Unset Strict Implicit.
Unset Printing Implicit Defensive.
Local Open Scope ring_scope.

Lemma corr_vec_length n (c : 'cV[R]_n) : List.length (corr_vec c) = n.
Proof. by rewrite -[List.length _]/(size _) size_map size_enum_ord. Qed.

(** Variable [k] of the list is there and has the kind [kd]. *)
Definition has (l : list svar) (k : nat) (kd : vkind) : Prop := exists x, nth_error l k = Some x /\ vkd x = kd.

(** The measurement finds the variables it works with in the state list. *)
Definition reading_fits (cfg : config) (m : reading) : Prop :=
  let l := c_vars cfg in
  match m with
  | RPosition _ _ _ _ | RDistance _ _ _ _ | RAngle _ _ _ _ _ => has l (c_pip cfg) (KVec 3)
  | RPose _ _ _ _ _ => [/\ has l 5 (KVec 1), has l 6 KQuat, has l 7 (KVec 3), has l 8 KQuat & has l 9 (KVec 3)]
  | RPressure _ _ _ => has l (c_bp cfg) (KVec 1)
  end.

Definition config_ok n (cfg : config) : Prop :=
  [/\ list_ok (c_vars cfg), watch_ok cfg & Z.of_nat n = count_states corr_len (c_vars cfg)].

Section Whole.
Variables (n : nat) (cfg : config).
Hypothesis hcfg : config_ok n cfg.
Notation l := (c_vars cfg).
Notation fine := (fine l).
Let hl : list_ok l. Proof. by case: hcfg. Qed.
Let hw : watch_ok cfg. Proof. by case: hcfg. Qed.
Let hn : Z.of_nat n = count_states corr_len l. Proof. by case: hcfg. Qed.

Lemma fine_vars s : fine s -> vars_ok n s.
Proof.
move=> h; have hs := fine_shapes _ _ h; case: hl => hc [he [hf _]]; case: (h) => ht _.
by split; rewrite ?ht.
Qed.

(** ** Prediction of the covariance *)

Lemma predict_fine dt a g s (P : 'M[R]_n) : Z.lt 0 dt -> fine s ->
  exists q bw ba Qd, let ew := v3sub g bw in let ea := v3sub a ba in
    [/\ [/\ get_quat s 2 = Ok q, qnorm2 q = 1, get_v3 s 3 = Ok bw & get_v3 s 4 = Ok ba],
        f_predict cfg dt a g (FState s) (PMat P) =
          PMat (propagate_cov (mx n (calc_fd std_ix (seconds dt) q ew ea zeye)) (mx n Qd) P),
        (forall r c, Z.lt r 15 -> Z.lt c 15 -> Qd r c = calc_q_core std_ix (seconds dt) q ew ea (c_noise cfg) zzero r c) &
        (forall r c, Z.le 15 r \/ Z.le 15 c -> r <> c -> Qd r c = R0) /\ (forall r, Z.le 15 r -> Rle R0 (Qd r r))].
Proof.
move=> hdt hs.
have hv := fine_vars hs; have ha := fine_noise _ _ hs.
set old := Full 0 s (Imu g a) P zeye zzero; set new := fresh n dt s (Imu g a).
have [q [ew [ea [Qd [old' [new' [[hin e eP _ _] [h1 h2 h3 _]]]]]]]] :=
  @predict_step n (c_noise cfg) (c_aux cfg) old new Z0 hv ha (q_clean_zero _) hdt.
move: eP h1; rewrite /old /new; cbn [f_time f_P f_Fd f_Qd fresh]; rewrite Z.sub_0_r => eP h1.
case: hin => bw [ba [gw ga gq ew' ea']]; subst ew ea.
exists q, bw, ba, Qd.
have hx := core_vars_at l hl; case: hx => x0 [x1 [x2 [x3 [x4 [_ [_ [X2 [_ [_ [_ [_ [K2 _]]]]]]]]]]]].
have [q' [gq' hq]] := read_quat l s 2 x2 hs X2 K2.
have eq : q' = q by move: gq; cbn [f_vars fresh new]; rewrite gq' => -[].
split=> //; first by split=> //; rewrite -eq.
rewrite /f_predict -/old -/new -[core_layout]/std_layout e.
by rewrite eP.
Qed.

(** ** Measurements *)

Lemma start_of_ok k kd : has l k kd -> exists j, start_of l k = Ok j.
Proof. by move=> [x [e _]]; rewrite /start_of /enum_type e; eexists. Qed.

Lemma core_has : [/\ has l 0 (KVec 3), has l 2 KQuat & True].
Proof.
case: (core_vars_at l hl) => a [b [c [d [e [Xa [Xb [Xc [Xd [Xe [Ka [Kb [Kc [Kd Ke]]]]]]]]]]]]].
by split; [exists a|exists c|].
Qed.

Lemma measure_pos_ok k s : has l k (KVec 3) -> fine s ->
  (exists lay, pos_layout_at (types s) k = Ok lay) /\ (exists ps, pos_state_at s k = Ok ps).
Proof.
move=> hk hs; have [h0 h2 _] := core_has; case: (hs) => ht _; rewrite ht.
have [j0 e0] := start_of_ok h0; have [j2 e2] := start_of_ok h2; have [jk ek] := start_of_ok hk.
case: h0 => x0 [X0 K0]; case: h2 => x2 [X2 K2]; case: hk => xk [Xk Kk].
have [p ep] := read_v3 l s 0 x0 hs X0 K0.
have [q [eq _]] := read_quat l s 2 x2 hs X2 K2.
have [pk epk] := read_v3 l s k xk hs Xk Kk.
by split; eexists; rewrite /pos_layout_at /pos_state_at ?e0 ?e2 ?ek ?ep ?eq ?epk /=; reflexivity.
Qed.

Lemma measure_ok m s (P : 'M[R]_n) : reading_fits cfg m -> fine s -> exists P0 o, measure cfg m s P = Ok (P0, o).
Proof.
case: m => [fs g z Rm|fs g zp zq Rm|g z Rm|fs g z Rm|fs g z1 z2 Rm] hf hs; rewrite /measure.
1,4,5: have [[lay ->] [ps ->]] := measure_pos_ok hf hs; by do 2 eexists; reflexivity.
- case: hf => h5 h6 h7 h8 h9; have [h0 h2 _] := core_has; case: (hs) => ht _; rewrite ht /pose_layout_at /pose_state_at.
  have [j0 ->] := start_of_ok h0; have [j2 ->] := start_of_ok h2; have [j5 ->] := start_of_ok h5.
  have [j6 ->] := start_of_ok h6; have [j7 ->] := start_of_ok h7; have [j8 ->] := start_of_ok h8.
  have [j9 ->] := start_of_ok h9.
  case: h0 => x0 [X0 K0]; case: h2 => x2 [X2 K2]; case: h5 => x5 [X5 K5]; case: h6 => x6 [X6 K6].
  case: h7 => x7 [X7 K7]; case: h8 => x8 [X8 K8]; case: h9 => x9 [X9 K9].
  have [p ->] := read_v3 l s 0 x0 hs X0 K0.
  have [q [-> _]] := read_quat l s 2 x2 hs X2 K2.
  have [L ->] := read_real l s 5 x5 hs X5 K5.
  have [q6 [-> _]] := read_quat l s 6 x6 hs X6 K6.
  have [p7 ->] := read_v3 l s 7 x7 hs X7 K7.
  have [q8 [-> _]] := read_quat l s 8 x8 hs X8 K8.
  have [p9 ->] := read_v3 l s 9 x9 hs X9 K9.
  by do 2 eexists; reflexivity.
- have [h0 _ _] := core_has; case: (hs) => ht _; rewrite ht.
  have [j0 ->] := start_of_ok h0; have [jb ->] := start_of_ok hf.
  case: h0 => x0 [X0 K0]; case: hf => xb [Xb Kb].
  have [p ->] := read_v3 l s 0 x0 hs X0 K0.
  have [b ->] := read_real l s _ xb hs Xb Kb.
  by do 2 eexists; reflexivity.
Qed.

(** ** The correction *)

Lemma f_correct_fine (c : 'cV[R]_n) s g : fine s -> mem_ok g ->
  exists s1 s' g',
    [/\ apply_correction (c_fixed_bias cfg) 3 4 (corr_vec c) s = Ok s1, fine s1,
        f_correct cfg g (Some c) s = (FState s', g'), mem_ok g' & fine s'] /\
    (forall j, nth_error s' j = nth_error (sanity cfg s1) j \/ nth_error s' j = nth_error s j).
Proof.
move=> hs hg.
have hd : Z.of_nat (length (corr_vec c)) = count_states corr_len l by rewrite corr_vec_length.
have [s1 [e [hs1 h]]] := corr_fine cfg hl (corr_vec c) s g hw hg hs hd.
have plain : exists s' g', [/\ (of_res (bind (apply_correction (c_fixed_bias cfg) 3 4 (corr_vec c) s)
     (fun s1 => Ok (sanity cfg s1))), g) = (FState s', g'), mem_ok g' & fine s'] /\
   (forall j, nth_error s' j = nth_error (sanity cfg s1) j \/ nth_error s' j = nth_error s j).
  exists (sanity cfg s1), g; rewrite e; split; last by left.
  by split=> //; exact: (sanity_fine cfg hl).
rewrite /f_correct; move: h plain; case: (c_watch cfg) => [k|].
- case: g hg => [f|] hg.
  + move=> [b [f' [s' [e' [hf' [hs' hk]]]]]] _; exists s1, s', (GMem f').
    by split=> //; split=> //; rewrite e'.
  + by move=> _ [s' [g' [[h1 h2 h3] h4]]]; exists s1, s', g'.
- by move=> _ [s' [g' [[h1 h2 h3] h4]]]; exists s1, s', g'.
Qed.

(** ** The invariant *)

Variables (VP : state -> Prop) (CP : 'M[R]_n -> Prop) (RM : reading -> Prop) (nan_ok : Prop).

Definition val_inv (v : fval) : Prop := match v with FState s => fine s /\ VP s | FNan => nan_ok | FUB => False end.
Definition cov_inv (P : fcov n) : Prop := match P with PMat P => CP P | PNan => nan_ok | PUB => False end.
Definition ext_unit (x : v3 * v3 * quat) : Prop := qnorm2 x.2 = 1.

Hypothesis fits : forall m, RM m -> reading_fits cfg m.
Hypothesis VP_carried : forall s s', fine s -> fine s' -> carried s s' -> VP s -> VP s'.
Hypothesis VP_correct : forall m s (P : 'M[R]_n) P0 c P1 s1 s', RM m -> fine s -> VP s ->
  measure cfg m s P = Ok (P0, Some (Applied (Some c) P1)) ->
  apply_correction (c_fixed_bias cfg) 3 4 (corr_vec c) s = Ok s1 -> fine s1 -> fine s' ->
  (forall j, nth_error s' j = nth_error (sanity cfg s1) j \/ nth_error s' j = nth_error s j) -> VP s'.
Hypothesis CP_zero : CP 0.
Hypothesis CP_predict : forall dt a g s P P', Z.lt 0 dt -> fine s -> CP P ->
  f_predict cfg dt a g (FState s) (PMat P) = PMat P' -> CP P'.
Hypothesis CP_measure : forall m s P P0 o, RM m -> fine s -> CP P -> measure cfg m s P = Ok (P0, o) ->
  match o with
  | Some Rejected => CP P0
  | Some (Applied c P1) => CP P1 /\ (c = None -> nan_ok)
  | None => nan_ok
  end.

Theorem filter_closed :
  @closed (filter n cfg) (fun _ => True) (fun _ => True) val_inv cov_inv RM mem_ok ext_unit.
Proof.
constructor=> //=.
- by exists [::]; exact: ring_new.
- move=> dt a g [s||] a' g' _ _ h _ _ //=; case: h => hs hv.
  have [s' [e [hs' hc]]] := propagate_fine l hl s (seconds dt) (Imu g a) (Imu g' a') hs.
  by rewrite e; split=> //; exact: (VP_carried hs hs' hc).
- move=> dt a g [s||] [P||] hdt _ _ hv hP //.
  case: hv => hs hv; have [q [bw [ba [Qd [_ e _ _]]]]] := predict_fine a g P hdt hs.
  rewrite e /=; exact: (CP_predict hdt hs hP e).
- move=> [[p w] q] [s||] hx hv //=; case: hv => hs hv.
  have [s' [e [hs' hc]]] := ext_fine l hl s p w q hs hx.
  by rewrite e; split=> //; exact: (VP_carried hs hs' hc).
- move=> m t v P b v' P' t' hm ht hv hP.
  have hgn : nan_ok -> mem_ok (if c_watch cfg is Some _ then GNan else t) by case: (c_watch cfg).
  rewrite /f_apply; case: v hv => [s|hv|hv]; last by [].
  + move=> [hs hv]; case: P hP => [P hP|hP|hP]; last by [].
    * have [P0 [o e]] := measure_ok P (fits hm) hs; rewrite e.
      have := CP_measure hm hs hP e; case: o e => [[|[c|] P1]|] e.
      -- by move=> h [_ <- <- <-].
      -- move=> [h _]; have [s1 [s' [g' [[e1 hs1 ec hg' hs'] hk]]]] := f_correct_fine c hs ht.
         rewrite ec => -[_ <- <- <-]; split=> //; split=> //.
         exact: (VP_correct hm hs hv e e1 hs1 hs' hk).
      -- by move=> [h hc] [_ <- <- <-]; split; [exact: hc|split=> //; exact: (hgn (hc _))].
      -- by move=> h [_ <- <- <-]; split=> //; split=> //; exact: hgn.
    * by case=> _ <- <- <-; split=> //; split=> //; exact: hgn.
  + by case: P hP => [P|//|//] hP; case=> _ <- <- <-; split=> //; split=> //; exact: hgn.
Qed.

Lemma filter_run d calls c ev :
  Forall (@good_call (filter n cfg) (fun _ => True) (fun _ => True) val_inv cov_inv RM ext_unit) calls ->
  run (filter n cfg) d (core_new (filter n cfg) (GMem fuzzy_new)) calls = Ok (c, ev) ->
  (forall t s, List.In (t, s) (states c) -> val_inv (s_val s) /\ cov_inv (s_cov s)) /\
  (forall t s, List.In (PubPropagation t s) ev \/ List.In (PubUpdate t s) ev -> val_inv (s_val s) /\ cov_inv (s_cov s)).
Proof.
move=> hc hr.
have hg : mem_ok (GMem fuzzy_new) by exists [::]; exact: ring_new.
have [h1 h2] := @run_good (filter n cfg) d _ _ _ _ _ _ _ filter_closed calls _ c ev
  (@core_new_good (filter n cfg) _ _ _ _ _ _ _ filter_closed (GMem fuzzy_new) hg) hc hr.
split=> [t s hi|t s hi].
- by have [_ h] := g_states _ _ _ _ _ _ _ _ h1; have [_ [_ [? ?]]] := h t s hi.
- by move/Forall_forall: h2 => h2; case: hi => /h2 [_ [_ [? ?]]].
Qed.
End Whole.
