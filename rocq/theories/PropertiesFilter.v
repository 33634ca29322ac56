(** C50-C54: what holds of the whole filter (state variables, covariance and measurement
    models together) in every execution. *)

From Coq Require Import Reals ZArith Lia Lra List.
From mathcomp Require Import all_ssreflect all_algebra.
From Verif Require Import Outcome SortedContainer Core CoreInv Geom StateList StateListProofs Propagate NavOps QCore ProcNoise ProcNoiseProofs QdProofs
  Fuzzy FuzzyProofs Sensors SensorsSpec CovSpec Cov CovProofs RField GeomProofs SensorsProofs SensorsCov Predict PredictProofs PropertiesState PropertiesSensors
  PropertiesFixed PropertiesPredict Filter FilterState FilterProofs DemoRun.
Import GRing.Theory Num.Theory.

Set Implicit Arguments.
Unset Strict Implicit.
Unset Printing Implicit Defensive.
Local Open Scope ring_scope.

(** ** Vocabulary *)

(** A variable holds a value of its declared kind, quaternions are of unit length, and the
    noise block of an auxiliary variable is a multiple of the identity. *)
Definition proper (i : inst) : Prop :=
  match vkd (itype i), ival i with
  | KVec k, VVec x => length x = k
  | KQuat, VQuat q => qnorm2 q = R1
  | _, _ => False
  end /\
  (auxiliary (itype i) -> exists d, Rle R0 d /\ forall a b, iQ i a b = if Nat.eqb a b then d else R0).

(** A state of a filter with the state list [l]. *)
Definition state_of (l : list svar) (s : state) : Prop :=
  List.map itype s = l /\ forall i, List.In i s -> proper i.

(** Everything buffered at the end of an execution, or published during it. *)
Definition seen n cfg (c : core (filter n cfg)) (ev : list (event (filter n cfg))) (t : Z) (s : st (filter n cfg)) : Prop :=
  List.In (t, s) (states c) \/ List.In (PubPropagation t s) ev \/ List.In (PubUpdate t s) ev.

(** The calls: initial states are states of the filter that satisfy [VP] or contain a
    not-a-number, with a covariance that satisfies [CP]; external poses that are taken over
    come with unit quaternions; measurements satisfy [RM].  IMU readings are arbitrary. *)
Definition call_ok n cfg (VP : state -> Prop) (CP : 'M[R]_n -> Prop) (RM : reading -> Prop) (k : call (filter n cfg)) : Prop :=
  match k with
  | CInit _ s => match s_val s with FState s0 => state_of (c_vars cfg) s0 /\ VP s0 | FNan => True | FUB => False end /\
                 match s_cov s with PMat P => CP P | _ => False end
  | CImu _ _ _ => True
  | CExt _ _ x taken _ => taken = true -> qnorm2 x.2 = R1
  | CMeas _ m => RM m
  end.
Definition any_state (s : state) : Prop := True.
Definition any_cov n (P : 'M[R]_n) : Prop := True.

Definition start n cfg : core (filter n cfg) := core_new (filter n cfg) (GMem fuzzy_new).

(** The filters of the repository. *)
Inductive shipped : nat -> config -> Prop :=
| Sh_position nz a fb : shipped 18 (position_filter nz a fb)
| Sh_pose nz a b c d e fb : shipped 28 (pose_filter nz a b c d e fb)
| Sh_pose_pressure nz a b c d e fb : shipped 29 (pose_pressure_filter nz a b c d e fb)
| Sh_position_pose nz a b c d e fb : shipped 31 (position_pose_filter nz a b c d e fb).

(** The measurements each of them is given. *)
Definition takes (cfg : config) (m : reading) : Prop :=
  match m with
  | RPosition _ _ _ _ => c_pip cfg <> 0%N
  | RDistance _ _ _ _ | RAngle _ _ _ _ _ => c_pip cfg = 5%N
  | RPose _ _ _ _ _ => c_scale cfg = Some 5%N
  | RPressure _ _ _ => c_bp cfg <> 0%N
  end.

(** ** Lemmas *)

Lemma state_of_fine l s : state_of l s <-> fine l s.
Proof.
split=> -[ht h]; split=> //.
- apply/List.Forall_forall => i /h [hs hn]; split; last split=> //.
  + by rewrite /shape_ok; move: hs; case: (vkd _); case: (ival i).
  + by move=> q e; move: hs; rewrite e; case: (vkd _).
- move/List.Forall_forall: h => h i /h [hs [hu hn]]; split=> //.
  move: hs hu; rewrite /shape_ok; case: (vkd _) => [k|]; case: (ival i) => [x|q] //.
  by move=> _ /(_ q erefl).
Qed.

Lemma shipped_ok n cfg : shipped n cfg -> config_ok n cfg.
Proof.
case=> *; split=> //.
all: try (by move=> k [<-]; eexists; split; reflexivity).
all: split; [by []|split; [|split]].
all: try (by move=> x hx; repeat (case: hx => [<- //|hx]); by []).
all: try (by split=> // x hx; repeat (case: hx => [<- [] //|hx]); by []).
Qed.

Lemma takes_fits n cfg m : shipped n cfg -> takes cfg m -> reading_fits cfg m.
Proof.
case: m => [fs g z Rm|fs g zp zq Rm|g z Rm|fs g z Rm|fs g z1 z2 Rm]; case=> *; rewrite /reading_fits.
all: try (by []).
all: try (by eexists; split; reflexivity).
all: by split; eexists; split; reflexivity.
Qed.

(** What an external pose that is not taken over contains does not matter. *)
Definition tidy n cfg (k : call (filter n cfg)) : call (filter n cfg) :=
  match k with CExt a g x false t => @CExt (filter n cfg) a g (x.1, qone) false t | _ => k end.
Lemma tidy_run n cfg d calls : forall c, run (filter n cfg) d c (List.map (@tidy n cfg) calls) = run (filter n cfg) d c calls.
Proof.
elim: calls => [//|k r IH] c; rewrite /= -/(List.map _ _).
have -> : step (filter n cfg) d c (tidy k) = step (filter n cfg) d c k by case: k => // a g x [].
by case: (step _ _ _ _) => [[c1 e1]| |] //=; rewrite IH.
Qed.

Lemma good_calls n cfg VP CP RM calls : Forall (@call_ok n cfg VP CP RM) calls -> forall nan_ok : Prop,
  (nan_ok \/ forall t s, List.In (CInit t s) calls -> s_val s <> FNan) ->
  Forall (@good_call (filter n cfg) (fun _ => True) (fun _ => True) (val_inv cfg VP nan_ok) (cov_inv CP nan_ok) RM ext_unit)
         (List.map (@tidy n cfg) calls).
Proof.
move=> h nan_ok; elim: h => [_|k r hk _ IH hn]; constructor; last first.
  by apply: IH; case: hn => [|hn]; [left|right=> t s ht; apply: (hn t s); right].
case: k hk hn => [t s|a g t|a g x b t|t m] //= hk hn; last first.
- clear hn; case: b hk => hk; split=> //; split=> //; first exact: hk.
  by rewrite /ext_unit; exact: one_unit.
- case: hk; rewrite /good_st /val_inv /cov_inv.
  case e: (s_val s) => [s0| |] //= hv hP; do 2 (split; first by []); (split; last by move: hP; case: (s_cov s)).
  + by case: hv => h1 h2; split=> //; apply/state_of_fine.
  + by case: hn => // hn; case: (hn t s); [left|].
Qed.

(** ** C50: no undefined access to a state, declared shapes, unit quaternions *)

Theorem C50_well_formed : forall n cfg d calls c ev t s,
  shipped n cfg -> Forall (call_ok any_state (@any_cov n) (takes cfg)) calls ->
  run (filter n cfg) d (start n cfg) calls = Ok (c, ev) -> seen c ev t s ->
  match s_val s with FState s0 => state_of (c_vars cfg) s0 | FNan => True | FUB => False end /\
  match s_cov s with PUB => False | _ => True end.
Proof.
move=> n cfg d calls c ev t s hs hc hr hseen.
have := @filter_run n cfg (shipped_ok hs) any_state (@any_cov n) (takes cfg) True
  (fun m => @takes_fits n cfg m hs) (fun _ _ _ _ _ _ => I)
  (fun _ _ _ _ _ _ _ _ _ _ _ _ _ _ _ _ => I) I (fun _ _ _ _ _ _ _ _ _ _ => I) _ d _ c ev
  (good_calls hc (or_introl I)) (etrans (tidy_run d calls _) hr).
case=> [m0 s0 P P0 o _ _ _ _|h1 h2]; first by case: o => [[|c0 P1]|].
have : val_inv cfg any_state True (s_val s) /\ cov_inv (@any_cov n) True (s_cov s) by case: hseen => [/h1|/h2].
move=> [hv hC]; split; last by move: hC; case: (s_cov s).
by move: hv; case: (s_val s) => // s0 [/state_of_fine].
Qed.
Print Assumptions C50_well_formed.

(** The invariant theorem in terms of [seen]. *)
Lemma seen_inv n cfg (VP : state -> Prop) (CP : 'M[R]_n -> Prop) (RM : reading -> Prop) (nan_ok : Prop) :
  shipped n cfg ->
  (forall m, RM m -> takes cfg m) ->
  (forall s s', fine (c_vars cfg) s -> fine (c_vars cfg) s' -> carried s s' -> VP s -> VP s') ->
  (forall m s (P : 'M[R]_n) P0 c P1 s1 s', RM m -> fine (c_vars cfg) s -> VP s ->
    measure cfg m s P = Ok (P0, Some (Applied (Some c) P1)) ->
    apply_correction (c_fixed_bias cfg) 3 4 (corr_vec c) s = Ok s1 -> fine (c_vars cfg) s1 -> fine (c_vars cfg) s' ->
    (forall j, nth_error s' j = nth_error (sanity cfg s1) j \/ nth_error s' j = nth_error s j) -> VP s') ->
  CP 0 ->
  (forall dt a g s P P', Z.lt 0 dt -> fine (c_vars cfg) s -> CP P ->
    f_predict cfg dt a g (FState s) (PMat P) = PMat P' -> CP P') ->
  (forall m s P P0 o, RM m -> fine (c_vars cfg) s -> CP P -> measure cfg m s P = Ok (P0, o) ->
    match o with
    | Some Rejected => CP P0
    | Some (Applied c P1) => CP P1 /\ (c = None -> nan_ok)
    | None => nan_ok
    end) ->
  forall d calls c ev t s,
  Forall (call_ok VP CP RM) calls -> (nan_ok \/ forall t s, List.In (CInit t s) calls -> s_val s <> FNan) ->
  run (filter n cfg) d (start n cfg) calls = Ok (c, ev) -> seen c ev t s ->
  val_inv cfg VP nan_ok (s_val s) /\ cov_inv CP nan_ok (s_cov s).
Proof.
move=> hs hm hc hV h0 hp hM d calls c ev t s hcalls hnan hr hseen.
have [h1 h2] := @filter_run n cfg (shipped_ok hs) VP CP RM nan_ok (fun m h => @takes_fits n cfg m hs (hm m h))
  hc hV h0 hp hM d _ c ev (good_calls hcalls hnan) (etrans (tidy_run d calls _) hr).
by case: hseen => [/h1|/h2].
Qed.

(** For a predicate on the state variables alone. *)
Lemma seen_vars n cfg (VP : state -> Prop) (RM : reading -> Prop) :
  shipped n cfg ->
  (forall m, RM m -> takes cfg m) ->
  (forall s s', fine (c_vars cfg) s -> fine (c_vars cfg) s' -> carried s s' -> VP s -> VP s') ->
  (forall m s (P : 'M[R]_n) P0 c P1 s1 s', RM m -> fine (c_vars cfg) s -> VP s ->
    measure cfg m s P = Ok (P0, Some (Applied (Some c) P1)) ->
    apply_correction (c_fixed_bias cfg) 3 4 (corr_vec c) s = Ok s1 -> fine (c_vars cfg) s1 -> fine (c_vars cfg) s' ->
    (forall j, nth_error s' j = nth_error (sanity cfg s1) j \/ nth_error s' j = nth_error s j) -> VP s') ->
  forall d calls c ev t s s0,
  Forall (call_ok VP (@any_cov n) RM) calls -> run (filter n cfg) d (start n cfg) calls = Ok (c, ev) -> seen c ev t s ->
  s_val s = FState s0 -> VP s0.
Proof.
move=> hs hm hc hV d calls c ev t s s0 hcalls hr hseen e.
have [|] := @seen_inv n cfg VP (@any_cov n) RM True hs hm hc hV I (fun _ _ _ _ _ _ _ _ _ _ => I) _ d calls c ev t s hcalls (or_introl I) hr hseen.
  by move=> m s2 P P0 o _ _ _ _; case: o => [[|c0 P1]|].
by rewrite e => -[].
Qed.

(** ** C51: with the fixed-bias option the biases keep their initial values *)

Lemma shipped_bias n cfg : shipped n cfg -> exists xw xa,
  [/\ nth_error (c_vars cfg) 3 = Some xw, nth_error (c_vars cfg) 4 = Some xa,
      [/\ vtype xw = CoreNoProp, vtype xa = CoreNoProp, vkd xw = KVec 3 & vkd xa = KVec 3],
      vopt xw = Z0 /\ vopt xa = Z0 & c_scale cfg <> Some 3%N /\ c_scale cfg <> Some 4%N].
Proof. by case=> *; do 2 eexists. Qed.

Lemma sanity_other cfg s j : c_scale cfg <> Some j -> nth_error (sanity cfg s) j = nth_error s j.
Proof.
move=> h; rewrite sanity_nth; case: (c_scale cfg) h => [k|//] h; case: (nth_error s j) => [i|//].
by rewrite (proj2 (Nat.eqb_neq j k)) // => e; apply: h; rewrite e.
Qed.

Theorem C51_fixed_bias : forall n cfg d bw ba calls c ev t s s0,
  shipped n cfg -> c_fixed_bias cfg = true ->
  Forall (call_ok (fun s => nth_error s 3 = Some bw /\ nth_error s 4 = Some ba) (@any_cov n) (takes cfg)) calls ->
  run (filter n cfg) d (start n cfg) calls = Ok (c, ev) -> seen c ev t s ->
  s_val s = FState s0 -> nth_error s0 3 = Some bw /\ nth_error s0 4 = Some ba.
Proof.
move=> n cfg d bw ba calls c ev t s s0 hs hb hcalls hr hseen e.
have [xw [xa [Xw Xa [Tw Ta Kw Ka] [Ow Oa] [Sw Sa]]]] := shipped_bias hs.
refine (@seen_vars n cfg (fun s => nth_error s 3 = Some bw /\ nth_error s 4 = Some ba) (takes cfg) hs _ _ _ d calls c ev t s s0 hcalls hr hseen e) => //.
- move=> s1 s2 hf _ hc [h3 h4].
  have t3 : itype bw = xw by case: hf => ht _; have := types_nth s1 3 bw h3; rewrite ht Xw => -[].
  have t4 : itype ba = xa by case: hf => ht _; have := types_nth s1 4 ba h4; rewrite ht Xa => -[].
  by split; apply: hc => //; rewrite ?t3 ?t4 ?Tw ?Ta //; lia.
- move=> m s1 P P0 c1 P1 s2 s' hm hf [h3 h4] _ ea hf2 hf' hj.
  have [hc' [he [_ hq]]] : list_ok (c_vars cfg) by case: (shipped_ok hs).
  have t3 : itype bw = xw by case: hf => ht _; have := types_nth s1 3 bw h3; rewrite ht Xw => -[].
  have t4 : itype ba = xa by case: hf => ht _; have := types_nth s1 4 ba h4; rewrite ht Xa => -[].
  have hsh := fine_shapes _ _ hf.
  case: (hf) => ht _.
  have [s3 [s4 [e3 [_ [k3 [k4 _]]]]]] : exists s1' s0',
    apply_correction true 3 4 (corr_vec c1) s1 = Ok s1' /\ apply_correction false 3 4 (corr_vec c1) s1 = Ok s0' /\
    nth_error s1' 3 = Some bw /\ nth_error s1' 4 = Some ba /\
    (forall k, k <> 3%N -> k <> 4%N -> nth_error s1' k = nth_error s0' k).
    apply: C31_fixed_bias => //; try (by rewrite ht).
    + by rewrite ht corr_vec_length; case: (shipped_ok hs).
    + by move=> i [->|->]; rewrite ?t3 ?t4 ?Kw ?Ka ?Ow ?Oa.
  rewrite hb e3 in ea; case: ea => ea; subst s3.
  by split; [case: (hj 3%N)|case: (hj 4%N)] => ->; rewrite ?sanity_other.
Qed.
Print Assumptions C51_fixed_bias.

(** ** C52: the visual scale never becomes negative *)

Definition scale_nonneg (s : state) : Prop :=
  forall i L, nth_error s 5 = Some i -> ival i = VVec [:: L] -> Rle R0 L.

Theorem C52_scale_nonneg : forall n cfg d calls c ev t s s0,
  shipped n cfg -> c_scale cfg = Some 5%N ->
  Forall (call_ok scale_nonneg (@any_cov n) (takes cfg)) calls ->
  run (filter n cfg) d (start n cfg) calls = Ok (c, ev) -> seen c ev t s ->
  s_val s = FState s0 -> scale_nonneg s0.
Proof.
move=> n cfg d calls c ev t s s0 hs hsc hcalls hr hseen e.
refine (@seen_vars n cfg scale_nonneg (takes cfg) hs _ _ _ d calls c ev t s s0 hcalls hr hseen e) => //.
- move=> s1 s2 hf hf2 hc h i L hi hL.
  have [x [X T]] : exists x, nth_error (c_vars cfg) 5 = Some x /\ vtype x <> CoreProp.
    by move: hsc; case: hs => // *; eexists; split; try reflexivity.
  have [j [J [tj _]]] := fine_nth _ s1 5 x hf X.
  have : nth_error s2 5 = Some j by apply: hc => //; rewrite ?tj //; lia.
  by rewrite hi => -[ei]; apply: (h j L J); rewrite -ei.
- move=> m s1 P P0 c1 P1 s2 s' hm hf h _ ea hf2 hf' hj i L hi hL.
  case: (hj 5%N) => h5; last by apply: (h i L); rewrite -?h5.
  move: h5; rewrite hi sanity_nth hsc; case: (nth_error s2 5) => [k|//]; rewrite Nat.eqb_refl.
  case e2: (ival k) => [[|L2 [|? ?]]|q] //.
  + by move=> [ei]; move: hL; rewrite ei e2.
  + case: (Rlt_dec L2 _) => hl [ei]; move: hL; rewrite ei /=.
    * by case=> <-; lra.
    * by rewrite e2 => -[<-]; lra.
  + by move=> [ei]; move: hL; rewrite ei e2.
  + by move=> [ei]; move: hL; rewrite ei e2.
Qed.
Print Assumptions C52_scale_nonneg.

(** ** C53: variables declared fixed keep their initial values *)

Lemma apply_keep l fb s data s1 k v : list_ok l -> fine l s -> Z.of_nat (length data) = count_states corr_len l ->
  nth_error s k = Some v -> Z.odd (vopt (itype v)) = false ->
  (forall j, Z.le (start_index corr_len l (itype v)) (Z.of_nat j) ->
    Z.lt (Z.of_nat j) (Z.add (start_index corr_len l (itype v)) (corr_len (Some (itype v)))) -> List.nth j data R0 = R0) ->
  apply_correction fb 3 4 data s = Ok s1 -> nth_error s1 k = Some v.
Proof.
move=> hl hf hd hk ho hz; have [hc [he [_ hq]]] := hl.
have hsh := fine_shapes _ _ hf; have [ht _] := hf.
have hu : forall q, ival v = VQuat q -> qnorm2 q = R1 by have [_ []] := fine_var _ s k v hf hk.
have key data' : length data' = length data -> (forall j, List.nth j data' R0 = List.nth j data R0 \/ List.nth j data' R0 = R0) ->
  forall s2, correct data' s = Ok s2 -> nth_error s2 k = Some v.
  move=> el h s2 ec; refine (correct_zero _ _ _ _ _ _ _ _ hsh _ hk ho hu _ ec); rewrite ?ht ?el //.
  by move=> j [h1 h2]; case: (h j) => // ->; apply: hz.
rewrite /apply_correction; case: fb; last by apply: key => // j; left.
have [a [b [c1 [d [e [_ [_ [_ [Xd [Xe _]]]]]]]]]] := core_vars_at _ hl.
rewrite /enum_type ht Xd Xe; apply: key; first by rewrite !zero_seg_length.
have [I1 _] := tile_inside corr_len _ _ _ pos_corr hc he Xd.
have [I2 _] := tile_inside corr_len _ _ _ pos_corr hc he Xe.
move=> j; rewrite !zero_seg_nth //.
by case: ifP => _; [right|case: ifP => _; [right|left]].
Qed.

(** The position of an antenna (p_ip) in a filter that gets position readings only. *)
Theorem C53_position_fixed : forall n cfg d v calls c ev t s s0,
  shipped n cfg ->
  Forall (call_ok (fun s => nth_error s (c_pip cfg) = Some v) (@any_cov n)
    (fun m => match m with
              | RPosition fixedstates _ _ _ => c_pip cfg <> 0%N /\ Z.testbit fixedstates (Z.of_nat (c_pip cfg)) = true
              | _ => False end)) calls ->
  run (filter n cfg) d (start n cfg) calls = Ok (c, ev) -> seen c ev t s ->
  s_val s = FState s0 -> c_pip cfg <> 0%N -> nth_error s0 (c_pip cfg) = Some v.
Proof.
move=> n cfg d v calls c ev t s s0 hs hcalls hr hseen e hpip.
have [x [X T O K]] : exists x, [/\ nth_error (c_vars cfg) (c_pip cfg) = Some x, vtype x = Aux, vopt x = Z0 & vkd x = KVec 3].
  by move: hpip; case: hs => // *; eexists.
have h2 : (2 < c_pip cfg)%coq_nat /\ c_scale cfg <> Some (c_pip cfg) by move: hpip; case: hs => // *; split=> //; cbn; lia.
have [lay [el hlay hpos]] : exists lay, [/\ pos_layout_at (c_vars cfg) (c_pip cfg) = Ok lay,
    pos_ordered n (l_p lay) (l_q lay) (l_pip lay) &
    forall j, Z.le (start_index corr_len (c_vars cfg) x) (Z.of_nat j) ->
      Z.lt (Z.of_nat j) (Z.add (start_index corr_len (c_vars cfg) x) (corr_len (Some x))) -> part (l_pip lay) 3 j].
  move: hpip X {h2 e hcalls hr hseen}; case: {c ev s} hs => [nz p1 fb|nz p1 p2 p3 p4 p5 fb|nz p1 p2 p3 p4 p5 fb|nz p1 p2 p3 p4 p5 fb] // hpip X;
    (eexists; split; [reflexivity|by cbv; lia|]).
  - have -> : x = Svar (KVec 3) 5 Aux 0 by move: X; cbn => -[].
    by move=> j; rewrite /part; cbn -[Z.le Z.lt Z.of_nat]; lia.
  - have -> : x = Svar (KVec 3) 10 Aux 0 by move: X; cbn => -[].
    by move=> j; rewrite /part; cbn -[Z.le Z.lt Z.of_nat]; lia.
refine (@seen_vars n cfg (fun s => nth_error s (c_pip cfg) = Some v)
  (fun m => match m with
            | RPosition fixedstates _ _ _ => c_pip cfg <> 0%N /\ Z.testbit fixedstates (Z.of_nat (c_pip cfg)) = true
            | _ => False end) hs _ _ _ d calls c ev t s s0 hcalls hr hseen e) => //.
- by case=> // fs g z Rm [].
- move=> s1 s2 hf _ hc h; apply: hc => //; first by case: h2.
  have -> : itype v = x by case: hf => ht _; have := types_nth s1 _ v h; rewrite ht X => -[].
  by rewrite T.
- case=> // fs g z Rm s1 P P0 c1 P1 s2 s' [_ hfix] hf hv hm ea hf2 hf' hj.
  have tv : itype v = x by case: hf => ht _; have := types_nth s1 _ v hv; rewrite ht X => -[].
  case: (hf) => ht _; move: hm; rewrite /measure ht el /=; case: (pos_state_at s1 (c_pip cfg)) => [ps| |] //=.
  rewrite /fixed_bit hfix => -[_ hu].
  have k2 : nth_error s2 (c_pip cfg) = Some v.
    have [hl _ hn] := shipped_ok hs.
    apply: (apply_keep hl hf _ hv _ _ ea); rewrite ?corr_vec_length ?tv ?O //.
    move=> j h3 h4; apply: (corr_nth (X := part (l_pip lay) 3)); last exact: hpos.
    exact: C32_position hlay hu.
  by case: (hj (c_pip cfg)) => ->; rewrite ?sanity_other //; case: h2.
Qed.
Print Assumptions C53_position_fixed.

(** Where the pose variables start in the error state, and how long they are. *)
Definition pose_start (k : nat) : nat := List.nth (k - 5) [:: 15; 16; 19; 22; 25]%N 0%N.
Definition pose_len (k : nat) : nat := if Nat.eqb k 5 then 1%N else 3%N.
Definition pose_lay5 : pose_layout := PoseLayout 0 6 15 16 19 22 25.
Lemma shipped_pose n cfg k : shipped n cfg -> c_scale cfg = Some 5%N -> (5 <= k)%coq_nat -> (k <= 9)%coq_nat ->
  [/\ exists x, [/\ nth_error (c_vars cfg) k = Some x, vtype x <> CoreProp, vopt x = Z0 &
        start_index corr_len (c_vars cfg) x = Z.of_nat (pose_start k) /\ corr_len (Some x) = Z.of_nat (pose_len k)],
      pose_layout_at (c_vars cfg) = Ok pose_lay5 & pose_layout_ok n pose_lay5].
Proof.
move=> hs hsc h1 h2; have hk : (k = 5 \/ k = 6 \/ k = 7 \/ k = 8 \/ k = 9)%N by lia.
case: hs hsc => // *; (split; [|by []|by cbv; lia]); destruct hk as [->|[->|[->|[->| ->]]]];
  (eexists; split; [reflexivity|by []|by []|by split; reflexivity]).
Qed.
Lemma held_at fs k j : (5 <= k)%coq_nat -> (k <= 9)%coq_nat -> Z.testbit fs (Z.of_nat k) = true ->
  Z.le (Z.of_nat (pose_start k)) (Z.of_nat j) ->
  Z.lt (Z.of_nat j) (Z.add (Z.of_nat (pose_start k)) (Z.of_nat (pose_len k))) -> held pose_lay5 (pose_flags fs 5 9 8 6 7) j.
Proof.
move=> h1 h2; have hk : (k = 5 \/ k = 6 \/ k = 7 \/ k = 8 \/ k = 9)%N by lia.
rewrite /held /pose_flags /fixed_bit /part /=.
destruct hk as [->|[->|[->|[->| ->]]]]; cbn [pose_start pose_len List.nth subn subn_rec Nat.sub] => hb h3 h4.
- by left; split=> //; move: h3 h4; rewrite /pose_start /pose_len; cbn -[Z.of_nat Z.le Z.lt Z.add]; lia.
- by do 3 right; left; split=> //; move: h3 h4; rewrite /pose_start /pose_len; cbn -[Z.of_nat Z.le Z.lt Z.add]; lia.
- by do 4 right; split=> //; move: h3 h4; rewrite /pose_start /pose_len; cbn -[Z.of_nat Z.le Z.lt Z.add]; lia.
- by do 2 right; left; split=> //; move: h3 h4; rewrite /pose_start /pose_len; cbn -[Z.of_nat Z.le Z.lt Z.add]; lia.
- by right; left; split=> //; move: h3 h4; rewrite /pose_start /pose_len; cbn -[Z.of_nat Z.le Z.lt Z.add]; lia.
Qed.

(** Scale, world-vision and camera calibration (variables 5 to 9) in a filter that gets pose
    readings only. *)
Theorem C53_pose_fixed : forall n cfg d k v calls c ev t s s0,
  shipped n cfg -> (5 <= k)%coq_nat -> (k <= 9)%coq_nat ->
  (k = 5%N -> forall L, ival v = VVec [:: L] -> Rle R0 L) ->
  Forall (call_ok (fun s => nth_error s k = Some v) (@any_cov n)
    (fun m => match m with
              | RPose fixedstates _ _ _ _ => c_scale cfg = Some 5%N /\ Z.testbit fixedstates (Z.of_nat k) = true
              | _ => False end)) calls ->
  run (filter n cfg) d (start n cfg) calls = Ok (c, ev) -> seen c ev t s ->
  s_val s = FState s0 -> c_scale cfg = Some 5%N -> nth_error s0 k = Some v.
Proof.
move=> n cfg d k v calls c ev t s s0 hs k5 k9 hL hcalls hr hseen e hsc.
have [[x [X T O [eS eC]]] el hlay] := shipped_pose hs hsc k5 k9.
refine (@seen_vars n cfg (fun s => nth_error s k = Some v)
  (fun m => match m with
            | RPose fixedstates _ _ _ _ => c_scale cfg = Some 5%N /\ Z.testbit fixedstates (Z.of_nat k) = true
            | _ => False end) hs _ _ _ d calls c ev t s s0 hcalls hr hseen e) => //.
- by case=> // fs g z z' Rm [].
- move=> s1 s2 hf _ hc h; apply: hc => //; first by lia.
  by have -> : itype v = x by case: hf => ht _; have := types_nth s1 _ v h; rewrite ht X => -[].
- case=> // fs g zp zq Rm s1 P P0 c1 P1 s2 s' [_ hfix] hf hv hm ea hf2 hf' hj.
  have tv : itype v = x by case: hf => ht _; have := types_nth s1 _ v hv; rewrite ht X => -[].
  case: (hf) => ht _; move: hm; rewrite /measure ht el /=; case: (pose_state_at s1) => [ps| |] //=.
  move=> -[_ hu].
  have k2 : nth_error s2 k = Some v.
    have [hl _ hn] := shipped_ok hs.
    apply: (apply_keep hl hf _ hv _ _ ea); rewrite ?corr_vec_length ?tv ?O //.
    move=> j; rewrite eS eC => h3 h4; apply: (corr_nth (X := held pose_lay5 (pose_flags fs 5 9 8 6 7))).
      exact: C32_pose hlay hu.
    exact: held_at k5 k9 hfix h3 h4.
  case: (hj k) => -> //; rewrite sanity_nth hsc k2; case: (Nat.eqb_spec k 5) => [ek|//].
  case ev': (ival v) => [[|L [|? ?]]|q] //; case: (Rlt_dec L _) => // hneg.
  by have := hL ek L ev'; lra.
Qed.
Print Assumptions C53_pose_fixed.

(** ** C54: the covariance in every execution *)

(** Measurement noise is a symmetric positive definite matrix. *)
Definition noise_pd (m : reading) : Prop :=
  match m with
  | RPosition _ _ _ Rm => sym Rm /\ pd Rm
  | RPose _ _ _ _ Rm => sym Rm /\ pd Rm
  | RPressure _ _ Rm => sym Rm /\ pd Rm
  | RDistance _ _ _ Rm => sym Rm /\ pd Rm
  | RAngle _ _ _ _ Rm => sym Rm /\ pd Rm
  end.

(** The property in full: symmetric positive semidefinite wherever it is a number. *)
Definition C54_full : Prop :=
  forall n cfg d calls c ev t s P,
    shipped n cfg -> noise_nonneg (c_noise cfg) ->
    Forall (call_ok any_state (@cov_ok _ n) (fun m => takes cfg m /\ noise_pd m)) calls ->
    run (filter n cfg) d (start n cfg) calls = Ok (c, ev) -> seen c ev t s -> s_cov s = PMat P -> cov_ok P.

Lemma abs_ok n m enable (thr : R) (P : 'M[R]_n) (H : 'M[R]_(m, n)) Rm res : cov_ok P -> sym Rm -> pd Rm ->
  match abs_update enable thr P H Rm res with
  | Some Rejected => True
  | Some (Applied c P1) => cov_ok P1 /\ (c = None -> res = None)
  | None => False
  end.
Proof.
move=> [sP pP] sR pR; rewrite /abs_update innov_unit //=; case: ifP => // _.
rewrite symm_inplace_id; last exact: joseph_sym.
split; last by case: res.
by split; [exact: joseph_sym|exact: joseph_psd].
Qed.

Lemma clear_if_ok n b a k (P : 'M[R]_n) : cov_ok P -> cov_ok (clear_if b a k P).
Proof. by rewrite /clear_if; case: b => //; exact: clear_ok. Qed.
Lemma pose_clear_ok n l f (P : 'M[R]_n) : cov_ok P -> cov_ok (pose_clear l f P).
Proof. by move=> h; do 5 apply: clear_if_ok. Qed.

(** Whatever is measured, a covariance stays one; a position or pressure reading always gives
    numbers. *)
Lemma measure_cov n cfg m s (P : 'M[R]_n) P0 o : noise_pd m -> cov_ok P -> measure cfg m s P = Ok (P0, o) ->
  cov_ok P0 /\
  match o with
  | Some Rejected => True
  | Some (Applied c P1) => cov_ok P1 /\ (c = None -> match m with RPosition _ _ _ _ | RPressure _ _ _ => False | _ => True end)
  | None => match m with RPosition _ _ _ _ | RPressure _ _ _ | RPose _ _ _ _ _ => False | _ => True end
  end.
Proof.
case: m => [fs g z Rm|fs g zp zq Rm|g z Rm|fs g z Rm|fs g z1 z2 Rm] [sR pR] hP; rewrite /measure.
- case: (pos_layout_at _ _) => //= l; case: (pos_state_at _ _) => //= ps [<- <-].
  have hP' := clear_if_ok (fixed_bit fs (c_pip cfg)) (l_pip l) 3 hP; split=> //.
  have := abs_ok (g_on g) (g_thr g) (hmx 3 n (position_H l (fixed_bit fs (c_pip cfg)) ps)) (Some (col3 (position_residual z ps))) hP' sR pR.
  by rewrite /position_update; case: (abs_update _ _ _ _ _ _) => [[|c0 P1]|] // [h1 h2]; split=> // /h2.
- case: (pose_layout_at _) => //= l; case: (pose_state_at _) => //= ps [<- <-].
  have hP' := pose_clear_ok l (pose_flags fs 5 9 8 6 7) hP; split=> //.
  have := abs_ok (g_on g) (g_thr g) (hmx 7 n (pose_H l (pose_flags fs 5 9 8 6 7) ps)) (pose_residual_col zp zq ps) hP' sR pR.
  by rewrite /pose_update; case: (abs_update _ _ _ _ _ _) => [[|c0 P1]|] // [h1 h2].
- case: (start_of _ _) => //= ip; case: (start_of _ _) => //= ib; case: (get_v3 _ _) => //= p; case: (get_real _ _) => //= b [<- <-].
  split=> //.
  have := abs_ok (g_on g) (g_thr g) (hmx 1 n (pressure_H ip ib)) (Some (col1 (pressure_residual z b p))) hP sR pR.
  by case: (abs_update _ _ _ _ _ _) => [[|c0 P1]|] // [h1 h2]; split=> // /h2.
- case: (pos_layout_at _ _) => //= l; case: (pos_state_at _ _) => //= ps [<- <-].
  have hP' := clear_if_ok (fixed_bit fs (c_pip cfg)) (l_pip l) 3 hP; split=> //.
  case: (dist_ok ps) => //.
  have := abs_ok (g_on g) (g_thr g) (hmx 1 n (distance_H l ps)) (Some (col1 (distance_residual z ps))) hP' sR pR.
  by rewrite /distance_update; case: (abs_update _ _ _ _ _ _) => [[|c0 P1]|] // [h1 h2].
- case: (pos_layout_at _ _) => //= l; case: (pos_state_at _ _) => //= ps [<- <-].
  have hP' := clear_if_ok (fixed_bit fs (c_pip cfg)) (l_pip l) 3 hP; split=> //.
  case: (angle_ok ps) => //.
  have := abs_ok (g_on g) (g_thr g) (hmx 2 n (angle_H l ps)) (angle_residual_col z1 z2 ps) hP' sR pR.
  by rewrite /angle_update; case: (abs_update _ _ _ _ _ _) => [[|c0 P1]|] // [h1 h2].
Qed.

(** Noise parameters for which the prediction keeps covariances (see C21). *)
Definition accel_noise_only (nz : noise) : Prop := [/\ n_gyr nz = R0, n_gyrbias nz = R0 & n_accbias nz = R0].

Lemma predict_cov_keeps n cfg dt a g s (P P' : 'M[R]_n) : config_ok n cfg -> accel_noise_only (c_noise cfg) ->
  Z.lt 0 dt -> fine (c_vars cfg) s -> cov_ok P -> f_predict cfg dt a g (FState s) (PMat P) = PMat P' -> cov_ok P'.
Proof.
move=> hc [n1 n2 n3] hdt hs hP.
have [q [bw [ba [Qd [_ -> h1 [h2 h3]]]]]] := predict_fine hc a g P hdt hs.
case=> <-; apply: propagate_ok => //; apply: qd_ok => //; first exact: (n15 (fine_vars hc hs)).
rewrite (@mx_ext 15 Qd (calc_q_core std_ix (seconds dt) q (v3sub g bw) (v3sub a ba) (c_noise cfg) zzero)); last first.
  by move=> i j hi hj; apply: h1; lia.
apply: core_ok => //; first by right.
- by apply: Rlt_le; apply: seconds_pos.
- rewrite n3 Rmult_0_l Rmult_0_l; have := Rle_0_sqr (n_acc (c_noise cfg)); rewrite /Rsqr; lra.
Qed.

(** With accelerometer noise only.  (Missing: gyroscope and bias noise; see the refutation.) *)
Theorem C54_covariance_partial : forall n cfg d calls c ev t s,
  shipped n cfg -> accel_noise_only (c_noise cfg) ->
  Forall (call_ok any_state (@cov_ok _ n) (fun m => takes cfg m /\ noise_pd m)) calls ->
  run (filter n cfg) d (start n cfg) calls = Ok (c, ev) -> seen c ev t s ->
  match s_cov s with PMat P => cov_ok P | PNan => True | PUB => False end.
Proof.
move=> n cfg d calls c ev t s hs hn hcalls hr hseen.
have [||||||_ hP] := @seen_inv n cfg any_state (@cov_ok _ n) (fun m => takes cfg m /\ noise_pd m) True hs _ _ _ _ _ _ d calls c ev t s hcalls (or_introl I) hr hseen.
- by move=> m [].
- by [].
- by [].
- exact: zero_ok.
- by move=> dt a g s0 P P' hdt hf hP; exact: (predict_cov_keeps (shipped_ok hs) hn hdt hf hP).
- move=> m s0 P P0 o [_ hpd] hf hP e; have [h1 h2] := measure_cov hpd hP e.
  by move: h2; case: o e => [[|c0 P1]|] // _ [h2 _].
exact: hP.
Qed.
Print Assumptions C54_covariance_partial.

(** And then a filter that gets position or pressure readings only never leaves the numbers. *)
Theorem C54_numbers_partial : forall n cfg d calls c ev t s,
  shipped n cfg -> accel_noise_only (c_noise cfg) ->
  Forall (call_ok any_state (@cov_ok _ n) (fun m => [/\ takes cfg m, noise_pd m &
    match m with RPosition _ _ _ _ | RPressure _ _ _ => True | _ => False end])) calls ->
  (forall t s, List.In (CInit t s) calls -> s_val s <> FNan) ->
  run (filter n cfg) d (start n cfg) calls = Ok (c, ev) -> seen c ev t s ->
  exists s0 P, [/\ s_val s = FState s0, state_of (c_vars cfg) s0, s_cov s = PMat P & cov_ok P].
Proof.
move=> n cfg d calls c ev t s hs hn hcalls hnan hr hseen.
have [||||||hv hP] := @seen_inv n cfg any_state (@cov_ok _ n) (fun m => [/\ takes cfg m, noise_pd m &
    match m with RPosition _ _ _ _ | RPressure _ _ _ => True | _ => False end]) False hs _ _ _ _ _ _ d calls c ev t s hcalls (or_intror hnan) hr hseen.
- by move=> m [].
- by [].
- by [].
- exact: zero_ok.
- by move=> dt a g s0 P P' hdt hf hP; exact: (predict_cov_keeps (shipped_ok hs) hn hdt hf hP).
- move=> m s0 P P0 o [_ hpd hm] hf hP e; have [h1 h2] := measure_cov hpd hP e.
  move: h2; case: o e => [[|c0 P1]|] // _.
  + by move=> [h2 h3]; split=> // /h3; move: hm {h3 hpd}; case: m.
  + by move: hm {hpd}; case: m.
case: (s_val s) hv => // s0 [hf _]; case: (s_cov s) hP => // P hP.
by exists s0, P; split=> //; exact/state_of_fine.
Qed.
Print Assumptions C54_numbers_partial.

(** *** An execution *)

(** Hovering: attitude one, no rotation, gravity on the z axis; usual noise. *)
Definition hover_acc : v3 := V3 R0 R0 (Rdiv (IZR 981) (IZR 100)).
Lemma hover_spike : spike hover_acc = false.
Proof.
rewrite /spike; case: (Rlt_dec _ _) => // h; exfalso; move: h; apply: Rle_not_lt.
have -> : v3norm hover_acc = Rdiv (IZR 981) (IZR 100); last by lra.
rewrite /v3norm /v3norm2 /v3dot /hover_acc; cbn [v3x v3y v3z].
have -> : Rplus (Rplus (Rmult R0 R0) (Rmult R0 R0)) (Rmult (Rdiv (IZR 981) (IZR 100)) (Rdiv (IZR 981) (IZR 100))) =
  Rsqr (Rdiv (IZR 981) (IZR 100)) by rewrite /Rsqr; ring.
by apply: sqrt_Rsqr; lra.
Qed.

Section Hover.
Variable nz : noise.
Let cfg := position_filter nz R1 false.
Let O := filter 18 cfg.
Definition hover_state (P : 'M[R]_18) : st (filter 18 (position_filter nz R1 false)) :=
  @mkst (filter 18 (position_filter nz R1 false)) hover_acc v3zero (FState (still qone)) (PMat P).

Lemma still_of q : qnorm2 q = R1 -> state_of (c_vars cfg) (still q).
Proof.
move=> hq; split=> // i hi; split.
- by repeat (case: hi => [<- //|hi]); by [].
- by have [_ h] := still_ok q; apply: h.
Qed.
Lemma hover_number k P : exists s0, s_val (@nth_st O hover_acc v3zero (hover_state P) k) = FState s0 /\ fine (c_vars cfg) s0.
Proof.
elim: k => [|k [s0 [e hf]]].
  by exists (still qone); split=> //; apply/state_of_fine/still_of; rewrite /qnorm2 /qone; cbn [qw qx qy qz]; ring.
have [hl _ _] : config_ok 18 cfg by exact: shipped_ok (Sh_position nz R1 false).
rewrite /nth_st /= -/(nth_st O hover_acc v3zero (hover_state P) k) e /=.
have [s1 [e1 [hf1 _]]] := propagate_fine (c_vars cfg) hl s0 (seconds 5000000)
  (Imu (s_gyr (@nth_st O hover_acc v3zero (hover_state P) k)) (s_acc (@nth_st O hover_acc v3zero (hover_state P) k)))
  (Imu v3zero hover_acc) hf.
by exists s1; rewrite e1.
Qed.

Lemma hover_numeric P k : is_number (s_val (@nth_st O hover_acc v3zero (hover_state P) k)) = true.
Proof. by have [s0 [-> _]] := hover_number k P. Qed.

(** The execution without measurements. *)
Lemma hover_run d P : exists c ev, run O d (start 18 cfg) (@demo_calls O hover_acc v3zero (hover_state P)) = Ok (c, ev) /\
  seen c ev (t5 1) (@nth_st O hover_acc v3zero (hover_state P) 1).
Proof.
have [x [y e]] := @demo_imu O d hover_acc v3zero hover_spike (hover_state P) (GMem fuzzy_new) (fun k _ => hover_numeric P k).
by do 2 eexists; split; [exact: e|right; left; left].
Qed.

Lemma hover_calls_ok P (VP : state -> Prop) (CP : (matrix R 18 18) -> Prop) (RM : reading -> Prop) : VP (still qone) -> CP P ->
  Forall (@call_ok 18 cfg VP CP RM) (@demo_calls O hover_acc v3zero (hover_state P)).
Proof.
move=> hV hC; constructor; last by repeat constructor.
split=> //; split=> //.
by apply: still_of; rewrite /qnorm2 /qone; cbn [qw qx qy qz]; ring.
Qed.

(** The first propagated covariance. *)
Lemma hover_cov : exists Qd : zmat, s_cov (@nth_st O hover_acc v3zero (hover_state 0) 1) = PMat (mx 18 Qd) /\
  Qd (Z.of_nat 4) (Z.of_nat 6) = Rmult (Rmult (Rdiv (IZR 5) (IZR 1000)) (Rdiv (IZR 981) (IZR 100))) (Rmult (n_gyr nz) (n_gyr nz)) /\ Qd (Z.of_nat 6) (Z.of_nat 4) = R0.
Proof.
have hc : config_ok 18 cfg by exact: shipped_ok (Sh_position nz R1 false).
have [s1 [e1 hf]] := hover_number 1 0.
have hz : v3sub v3zero v3zero = v3zero by rewrite /v3sub /v3zero; cbn [v3x v3y v3z]; congr V3; ring.
have hq1 : qnorm2 qone = R1 by rewrite /qnorm2 /qone; cbn [qw qx qy qz]; ring.
have [g2 [g3 g4]] : get_quat s1 2 = Ok qone /\ get_v3 s1 3 = Ok v3zero /\ get_v3 s1 4 = Ok v3zero.
  move: e1; rewrite /nth_st; cbn -[propagate_q propagate_v propagate_p]; case=> <-.
  split; last by [].
  rewrite /get_quat; cbn -[propagate_q propagate_v propagate_p]; congr Ok.
  have e0 : V3 0 0 0 = v3zero by [].
  by rewrite ?e0 hz; apply: no_rotation.
have [q [bw [ba [Qd [[]]]]]] := predict_fine hc hover_acc v3zero 0 (erefl : Z.lt 0 5000000) hf.
rewrite g2 g3 g4 => -[<-] _ [<-] [<-] e hQ _.
exists Qd; split; last split.
- have -> : s_cov (@nth_st O hover_acc v3zero (hover_state 0) 1) =
    @f_predict 18 cfg 5000000 hover_acc v3zero (s_val (@nth_st O hover_acc v3zero (hover_state 0) 1)) (PMat 0) by [].
  by rewrite e1 e /propagate_cov mulmx0 mul0mx add0r.
- rewrite hQ // hz.
  have -> : v3sub hover_acc v3zero = V3 R0 R0 (Rdiv (IZR 981) (IZR 100)).
    by rewrite /v3sub /hover_acc /v3zero; cbn [v3x v3y v3z]; congr V3; ring.
  rewrite -[v3zero]/(V3 R0 R0 R0) (entry_v_q_hover _ (Rdiv (IZR 981) (IZR 100)) nz).
  have -> // : seconds 5000000 = Rdiv (IZR 5) (IZR 1000) by rewrite /seconds; lra.
- by rewrite hQ // entry_q_v.
Qed.
End Hover.

(** With usual noise the covariance after the first IMU reading is not symmetric. *)
Theorem C54_covariance_refuted : exists d calls c ev t s P,
  let cfg := position_filter usual_noise R1 false in
  [/\ shipped 18 cfg, noise_nonneg (c_noise cfg),
      Forall (call_ok any_state (@cov_ok _ 18) (fun m => takes cfg m /\ noise_pd m)) calls,
      run (filter 18 cfg) d (start 18 cfg) calls = Ok (c, ev) & [/\ seen c ev t s, s_cov s = PMat P & ~ sym P]].
Proof.
have [c [ev [e hs]]] := hover_run usual_noise (fun _ => DecEnd) 0.
have [Qd [eQ [h1 h2]]] := hover_cov usual_noise.
exists (fun _ => DecEnd), (@demo_calls (filter 18 (position_filter usual_noise R1 false)) hover_acc v3zero (hover_state usual_noise 0)), c, ev, (t5 1).
do 2 eexists; split.
- exact: Sh_position.
- by split; cbn [c_noise position_filter]; rewrite /usual_noise; cbn [n_acc n_accbias n_gyr n_gyrbias]; lra.
- by apply: hover_calls_ok => //; exact: zero_ok.
- exact: e.
split; [exact: hs|exact: eQ|].
move=> hsym; have := congr1 (fun A : 'M_18 => A (inord 4) (inord 6)) hsym.
rewrite !mxE !inordK // h1 h2 /usual_noise; cbn [n_gyr]; lra.
Qed.
Print Assumptions C54_covariance_refuted.

Theorem C54_full_refuted : ~ C54_full.
Proof.
move=> h; have [d [calls [c [ev [t [s [P [h1 h2 h3 h4 [h5 h6 h7]]]]]]]]] := C54_covariance_refuted.
by apply: h7; have [] := h _ _ _ _ _ _ _ _ _ h1 h2 h3 h4 h5 h6.
Qed.
Print Assumptions C54_full_refuted.

(** ** Examples: executions with a measurement *)

(** Accelerometer noise only; a position reading with noise one, antenna position fixed. *)
Definition quiet : noise := Noise R1 R0 R0 R0.
Definition fix_at (z : v3) : reading := RPosition 32 (Gate false R0) z 1%:M.

Lemma no_gate n cfg fs r z Rm s (P : 'M[R]_n) P0 o :
  measure cfg (RPosition fs (Gate false r) z Rm) s P = Ok (P0, o) -> o <> Some Rejected.
Proof.
rewrite /measure; case: (pos_layout_at _ _) => // l; rewrite /bind; case: (pos_state_at _ _) => // ps [_ <-].
rewrite /position_update /abs_update; case: (_ \in _) => //.
Qed.

Lemma quiet_step k : exists s0 P, [/\ s_val (nth_st (filter 18 (position_filter quiet R1 false)) hover_acc v3zero (hover_state quiet 1%:M) k) = FState s0,
  fine (c_vars (position_filter quiet R1 false)) s0,
  s_cov (nth_st (filter 18 (position_filter quiet R1 false)) hover_acc v3zero (hover_state quiet 1%:M) k) = PMat P & cov_ok P].
Proof.
elim: k => [|k [s0 [P [e hf eP hP]]]].
  have [s0 [e hf]] := hover_number quiet 0 1%:M.
  by exists s0, 1%:M; split=> //; exact: one_ok.
have [s1 [e1 hf1]] := hover_number quiet k.+1 1%:M.
have hc : config_ok 18 (position_filter quiet R1 false) by exact: shipped_ok (Sh_position quiet R1 false).
have [q [bw [ba [Qd [_ e2 _ _]]]]] := predict_fine hc hover_acc v3zero P (erefl : Z.lt 0 5000000) hf1.
exists s1; eexists; split=> //.
- have -> : s_cov (nth_st (filter 18 (position_filter quiet R1 false)) hover_acc v3zero (hover_state quiet 1%:M) k.+1) =
    @f_predict 18 (position_filter quiet R1 false) 5000000 hover_acc v3zero
      (s_val (nth_st (filter 18 (position_filter quiet R1 false)) hover_acc v3zero (hover_state quiet 1%:M) k.+1))
      (s_cov (nth_st (filter 18 (position_filter quiet R1 false)) hover_acc v3zero (hover_state quiet 1%:M) k)) by [].
  by rewrite e1 eP e2.
- by apply: (predict_cov_keeps hc _ (erefl : Z.lt 0 5000000) hf1 hP e2).
Qed.

(** Meets the hypotheses of C50, C53_position_fixed and C54. *)
Example C50_ex : exists d calls c ev t s s0 P v,
  let cfg := position_filter quiet R1 false in
  [/\ accel_noise_only quiet,
     Forall (call_ok (fun s => nth_error s 5 = Some v) (@cov_ok _ 18) (fun m => [/\ takes cfg m, noise_pd m &
       match m with RPosition fixedstates _ _ _ => Z.testbit fixedstates 5 = true | _ => False end])) calls,
     run (filter 18 cfg) d (start 18 cfg) calls = Ok (c, ev),
     List.In (PubUpdate t s) ev & s_val s = FState s0 /\ s_cov s = PMat P].
Proof.
have [s3 [P3 [e3 hf3 eP3 hP3]]] := quiet_step 3.
pose cfg := position_filter quiet R1 false.
have hc : config_ok 18 cfg by exact: shipped_ok (Sh_position quiet R1 false).
have hfit : reading_fits cfg (fix_at v3zero) by eexists; split; reflexivity.
have [P0 [o em]] := measure_ok hc P3 hfit hf3.
have hpd : noise_pd (fix_at v3zero) by split; [exact: trmx1|exact: one_pd].
have [h1 h2] := measure_cov hpd hP3 em.
have [c0 [P1 eo]] : exists c0 P1, o = Some (Applied (Some c0) P1).
  have hr : o <> Some Rejected by exact: (@no_gate 18 cfg 32 R0 v3zero 1%:M s3 P3 P0 o em).
  move: h2 hr; clear; case: o => [[|[c0|] P1]|] h2 hr; try contradiction.
  - by exists c0, P1.
  - by case: h2 => _ /(_ erefl).
have hg : mem_ok (GMem fuzzy_new) by exists [::]; exact: ring_new.
have [s1 [s' [g' [[ea hs1 ec hg' hs'] _]]]] := f_correct_fine hc c0 hf3 hg.
have ha : apply_meas (filter 18 cfg) (fix_at v3zero) (GMem fuzzy_new)
   (s_val (nth_st (filter 18 cfg) hover_acc v3zero (hover_state quiet 1%:M) 3))
   (s_cov (nth_st (filter 18 cfg) hover_acc v3zero (hover_state quiet 1%:M) 3)) = (true, FState s', PMat P1, g').
  by rewrite e3 eP3 -[LHS]/(f_apply cfg (fix_at v3zero) (GMem fuzzy_new) (FState s3) (PMat P3)) /f_apply em eo ec.
have [c [ev [er _]]] := demo_meas (filter 18 cfg) (fun _ => DecEnd) hover_acc v3zero (fix_at v3zero) hover_spike (hover_state quiet 1%:M)
  (GMem fuzzy_new) (FState s') (PMat P1) g' (fun k _ => hover_numeric quiet 1%:M k) (hover_numeric quiet 1%:M 3) ha.
have [s4 [e4 [hf4 _]]] := propagate_fine (c_vars cfg) (let: And3 h _ _ := hc in h) s' (seconds 5000000) (Imu v3zero hover_acc) (Imu v3zero hover_acc) hs'.
have [q [bw [ba [Qd [_ e5 _ _]]]]] := predict_fine hc hover_acc v3zero P1 (erefl : Z.lt 0 5000000) hf4.
pose O := filter 18 cfg.
exists (fun _ => DecEnd), (@demo_calls O hover_acc v3zero (hover_state quiet 1%:M) ++ [:: @CMeas O (t5 3) (fix_at v3zero)])%list, c.
eexists; exists (t5 4); eexists; exists s4; eexists; exists (Inst (Svar (KVec 3) 5 Aux 0) (VVec [:: R0; R0; R0]) (fun _ _ => R0) false); split.
- split; reflexivity.
- apply/List.Forall_app; split; last first.
    constructor; last by constructor.
    by split.
  by apply: hover_calls_ok; last exact: one_ok.
- exact: er.
- by apply: List.in_or_app; right; left.
- have ev4 : f_propagate cfg 5000000 hover_acc v3zero (FState s') hover_acc v3zero = FState s4 by rewrite /f_propagate e4.
  split; first exact: ev4.
  by rewrite -[LHS]/(@f_predict 18 cfg 5000000 hover_acc v3zero (f_propagate cfg 5000000 hover_acc v3zero (FState s') hover_acc v3zero) (PMat P1)) ev4 e5.
Qed.

(** The pose filter, hovering, with the fixed-bias option and the scale declared fixed. *)
Definition pose_quiet : config := pose_filter quiet R1 R1 R1 R1 R1 true.
Definition posed (p v : v3) : state :=
  let Z0 := fun _ _ : nat => R0 in
  [:: Inst (Svar (KVec 3) 0 CoreProp 0) (VVec [:: v3x p; v3y p; v3z p]) Z0 false;
      Inst (Svar (KVec 3) 1 CoreProp 0) (VVec [:: v3x v; v3y v; v3z v]) Z0 false;
      Inst (Svar KQuat 2 CoreProp 0) (VQuat qone) Z0 false;
      Inst (Svar (KVec 3) 3 CoreNoProp 0) (VVec [:: R0; R0; R0]) Z0 false;
      Inst (Svar (KVec 3) 4 CoreNoProp 0) (VVec [:: R0; R0; R0]) Z0 false;
      Inst (Svar (KVec 1) 5 Aux 0) (VVec [:: R1]) Z0 false;
      Inst (Svar KQuat 6 AuxNonDrift 0) (VQuat qone) Z0 false;
      Inst (Svar (KVec 3) 7 Aux 0) (VVec [:: R0; R0; R0]) Z0 false;
      Inst (Svar KQuat 8 Aux 0) (VQuat qone) Z0 false;
      Inst (Svar (KVec 3) 9 Aux 0) (VVec [:: R0; R0; R0]) Z0 false].

Lemma posed_of p v : state_of (c_vars pose_quiet) (posed p v).
Proof.
split=> // i hi; split.
- repeat (case: hi => [<-|hi]); try (cbn; reflexivity); try (by cbn; rewrite /qnorm2 /qone; cbn [qw qx qy qz]; ring); by [].
- move=> _; exists R0; split; first exact: Rle_refl.
  by move=> a b; repeat (case: hi => [<- /=|hi]; first by case: Nat.eqb); by [].
Qed.

Definition pose_start_st : st (filter 28 pose_quiet) :=
  @mkst (filter 28 pose_quiet) hover_acc v3zero (FState (posed v3zero v3zero)) (PMat 1%:M).
Definition pose_at k := @nth_st (filter 28 pose_quiet) hover_acc v3zero pose_start_st k.

Lemma pose_step k : exists p v P, [/\ s_val (pose_at k) = FState (posed p v), s_cov (pose_at k) = PMat P & cov_ok P].
Proof.
have hc : config_ok 28 pose_quiet by exact: shipped_ok (Sh_pose quiet R1 R1 R1 R1 R1 true).
elim: k => [|k [p [v [P [e eP hP]]]]].
  by exists v3zero, v3zero, 1%:M; split=> //; exact: one_ok.
have ea : (s_acc (pose_at k), s_gyr (pose_at k)) = (hover_acc, v3zero) by case: (k).
case: ea => ea eg.
have [p' [v' ev]] : exists p' v', s_val (pose_at k.+1) = FState (posed p' v').
  have -> : s_val (pose_at k.+1) = f_propagate pose_quiet 5000000 (s_acc (pose_at k)) (s_gyr (pose_at k)) (s_val (pose_at k)) hover_acc v3zero by [].
  rewrite ea eg e; lazy -[propagate_q propagate_v propagate_p v3sub qone v3zero hover_acc seconds v3x v3y v3z].
  have e0 : V3 R0 R0 R0 = v3zero by [].
  have hz : v3sub v3zero v3zero = v3zero by rewrite /v3sub /v3zero; cbn [v3x v3y v3z]; congr V3; ring.
  rewrite ?e0 hz no_rotation; last by rewrite /qnorm2 /qone; cbn [qw qx qy qz]; ring.
  by do 2 eexists; reflexivity.
have hf : fine (c_vars pose_quiet) (posed p' v') by exact/state_of_fine/posed_of.
have [q [bw [ba [Qd [_ e2 _ _]]]]] := predict_fine hc hover_acc v3zero P (erefl : Z.lt 0 5000000) hf.
exists p', v'; eexists; split=> //.
- have -> : s_cov (pose_at k.+1) = @f_predict 28 pose_quiet 5000000 hover_acc v3zero (s_val (pose_at k.+1)) (s_cov (pose_at k)) by [].
  by rewrite ev eP e2.
- have hn : accel_noise_only (c_noise pose_quiet) by split; reflexivity.
  exact: (predict_cov_keeps hc hn (erefl : Z.lt 0 5000000) hf hP e2).
Qed.

Lemma pose_applied n l f ps thr (P : 'M[R]_n) Rm r : cov_ok P -> pd Rm ->
  exists c P1, pose_update l f ps false thr P Rm (Some r) = Some (Applied (Some c) P1).
Proof.
move=> hP hR; rewrite /pose_update /abs_update innov_unit //=; first by do 2 eexists; reflexivity.
by apply: proj2; exact: pose_clear_ok.
Qed.

Lemma nonzero_true x : x <> IZR 0 -> nonzero x = true.
Proof. by rewrite /nonzero; case: (Req_EM_T x (IZR 0)). Qed.
Definition pose_fix : reading := RPose 32 (Gate false R0) v3zero qone 1%:M.
Lemma pose_fix_applied p v (P : 'M[R]_28) : cov_ok P ->
  exists P0 c P1, measure pose_quiet pose_fix (posed p v) P = Ok (P0, Some (Applied (Some c) P1)).
Proof.
move=> hP; rewrite /measure /pose_fix.
have -> : pose_layout_at (types (posed p v)) = Ok pose_lay5 by [].
have [ps [-> [h1 h2 h3]]] : exists ps, pose_state_at (posed p v) = Ok ps /\ [/\ b_q ps = qone, b_qwv ps = qone & b_qic ps = qone].
  by eexists; split; [reflexivity|].
rewrite /bind.
have -> : pose_residual_col v3zero qone ps = Some (col7 (pose_residual v3zero qone ps)).
  by rewrite /pose_residual_col /pose_attitude h1 h2 h3 !nonzero_true // /qone; cbn; lra.
have [c [P1 e]] := pose_applied pose_lay5 (pose_flags 32 5 9 8 6 7) ps R0 (col7 (pose_residual v3zero qone ps)) hP (@one_pd 7).
by exists (pose_clear pose_lay5 (pose_flags 32 5 9 8 6 7) P), c, P1; congr (Ok (_, _)).
Qed.

(** An execution with a pose measurement that meets the hypotheses of C51, C52 and C53_pose_fixed
    (variable 5, the visual scale, declared fixed). *)
Example C51_ex : exists d calls c ev t s s0 bw ba L,
  [/\ shipped 28 pose_quiet, c_fixed_bias pose_quiet = true /\ c_scale pose_quiet = Some 5%N,
     Forall (call_ok (fun s => [/\ nth_error s 3 = Some bw, nth_error s 4 = Some ba, nth_error s 5 = Some L & scale_nonneg s])
       (@cov_ok _ 28) (fun m => [/\ takes pose_quiet m, noise_pd m & m = pose_fix])) calls,
     run (filter 28 pose_quiet) d (start 28 pose_quiet) calls = Ok (c, ev) &
     List.In (PubUpdate t s) ev /\ s_val s = FState s0].
Proof.
have hs : shipped 28 pose_quiet := Sh_pose quiet R1 R1 R1 R1 R1 true.
have hc := shipped_ok hs.
have [p3 [v3' [P3 [e3 eP3 hP3]]]] := pose_step 3.
have hf3 : fine (c_vars pose_quiet) (posed p3 v3') by exact/state_of_fine/posed_of.
have [P0 [c0 [P1 em]]] := pose_fix_applied p3 v3' hP3.
have hg : mem_ok (GMem fuzzy_new) by exists [::]; exact: ring_new.
have [s1 [s' [g' [[ea hs1 ec hg' hs'] _]]]] := f_correct_fine hc c0 hf3 hg.
pose O := filter 28 pose_quiet.
have ha : apply_meas O pose_fix (GMem fuzzy_new) (s_val (pose_at 3)) (s_cov (pose_at 3)) = (true, FState s', PMat P1, g').
  by rewrite e3 eP3 -[LHS]/(f_apply pose_quiet pose_fix (GMem fuzzy_new) (FState (posed p3 v3')) (PMat P3)) /f_apply em ec.
have hnum k : is_number (s_val (pose_at k)) = true by have [p [v [P [-> _ _]]]] := pose_step k.
have [c [ev [er _]]] := demo_meas O (fun _ => DecEnd) hover_acc v3zero pose_fix hover_spike pose_start_st
  (GMem fuzzy_new) (FState s') (PMat P1) g' (fun k _ => hnum k) (hnum 3%N) ha.
have [s4 [e4 [hf4 _]]] := propagate_fine (c_vars pose_quiet) (let: And3 h _ _ := hc in h) s' (seconds 5000000) (Imu v3zero hover_acc) (Imu v3zero hover_acc) hs'.
exists (fun _ => DecEnd), (@demo_calls O hover_acc v3zero pose_start_st ++ [:: @CMeas O (t5 3) pose_fix])%list, c.
eexists; exists (t5 4); eexists; exists s4.
exists (Inst (Svar (KVec 3) 3 CoreNoProp 0) (VVec [:: R0; R0; R0]) (fun _ _ => R0) false).
exists (Inst (Svar (KVec 3) 4 CoreNoProp 0) (VVec [:: R0; R0; R0]) (fun _ _ => R0) false).
exists (Inst (Svar (KVec 1) 5 Aux 0) (VVec [:: R1]) (fun _ _ => R0) false); split.
- exact: hs.
- by split; reflexivity.
- apply/List.Forall_app; split; last first.
    constructor; last by constructor.
    by split; [reflexivity|split; [exact: trmx1|exact: one_pd]|reflexivity].
  constructor; last by repeat constructor.
  split; [split; first exact: posed_of|exact: one_ok].
  by split; try reflexivity; move=> i L0 [<-] [<-]; exact: Rle_0_1.
- exact: er.
- split; first by apply: List.in_or_app; right; left.
  have ev4 : f_propagate pose_quiet 5000000 hover_acc v3zero (FState s') hover_acc v3zero = FState s4 by rewrite /f_propagate e4.
  exact: ev4.
Qed.
