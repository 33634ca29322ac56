(** C07-C11, C14, C15, C17: the filter core. *)

From Coq Require Import Reals ZArith List Lia Lra Bool Permutation.
From Verif Require Import Outcome SortedContainer SortedContainerSpec SortedContainerProofs
     Core CoreExamples CoreBasics CoreInv CoreSteps CoreSafety CoreQueue CoreReset
     AccNorm AccNormProofs.
Import ListNotations.
Open Scope Z_scope.

(** Part [f] of the outcome of a call or run. *)
Definition part {O : ops} {A : Type} (f : core O -> list (event O) -> A)
           (r : res (core O * list (event O))) : option A :=
  match r with Ok (c, ev) => Some (f c ev) | _ => None end.

Lemma part_ok : forall {O : ops} {A : Type} f r (x : A), @part O A f r = Some x ->
  exists c ev, r = Ok (c, ev) /\ f c ev = x.
Proof. intros O A f [[c ev]| |] x H; [injection H as <-; eauto|discriminate..]. Qed.

Definition is_ub {A : Type} (r : res A) : bool := match r with UB => true | _ => false end.
Lemma is_ub_ok : forall {A : Type} (r : res A), is_ub r = true -> r = UB.
Proof. intros A [x| |] H; [discriminate|reflexivity|discriminate]. Qed.

(** Equality with a literal by evaluation. *)
Ltac eval_refl := lazy; reflexivity.

(** Example executions of the logging instance and what is visible at their
    end: flags, states (time in ms, fused measurements), pending measurements,
    last IMU state, number of publications. *)
Definition on {A : Type} (l : list (call log_ops)) (f : core log_ops -> list (event log_ops) -> A) :=
  part f (run log_ops ex_d (core_new log_ops tt) l).
Lemma on_ok : forall {A : Type} l f (x : A), on l f = Some x ->
  exists c ev, run log_ops ex_d (core_new log_ops tt) l = Ok (c, ev) /\ f c ev = x.
Proof. intros A l f x. exact (part_ok f _ x). Qed.
Definition in_ms (t : Z) : Z := t / ms.
Definition view (c : core log_ops) (ev : list (event log_ops)) :=
  ((initialized c, predictionMade c),
   map (fun e : Z * st log_ops => (in_ms (fst e), s_val (snd e) : list Z)) (states c),
   map (fun p => (in_ms (fst p), lm_id (snd p))) (queue c),
   match it_last c with ItAt k => in_ms k | _ => -1 end,
   length ev).

Example warm_view : on warm view =
  Some ((true, true), [(1000, []); (1010, []); (1020, []); (1030, []); (1040, [])], [], 1040, 4%nat).
Proof. eval_refl. Qed.

(** ** C07 *)

Theorem C07_ignored_until_init : forall (O : ops) d (l : list (call O)) c,
  initialized c = false ->
  (forall k, In k l -> match k with CInit _ _ => False | _ => True end) ->
  run O d c l = Ok (c, []).
Proof.
  exact (fun O d l c Hi Hl =>
    run_uninit O d l c Hi
      (proj2 (forallb_forall _ _) (fun k Hk =>
         match k as k0 return (match k0 with CInit _ _ => False | _ => True end ->
                               negb (is_init O k0) = true) with
         | CInit _ _ => fun F => False_ind _ F
         | _ => fun _ => eq_refl end (Hl k Hk)))).
Qed.
Print Assumptions C07_ignored_until_init.

(** A reset filter with full buffers ignores two IMU messages and a measurement. *)
Example C07_ex :
  on (warm ++ [cU 1025]) view =
    Some ((false, false), [(1000, []); (1010, []); (1020, []); (1030, []); (1040, [])], [], 1040, 4%nat) /\
  on (warm ++ [cU 1025] ++ [cU 1050; cM 10300 1; cU 1060]) view =
    Some ((false, false), [(1000, []); (1010, []); (1020, []); (1030, []); (1040, [])], [], 1040, 4%nat).
Proof. split; eval_refl. Qed.

(** ** C08 *)

Theorem C08_clean : forall (O : ops) d c t s c' ev,
  step O d c (CInit t s) = Ok (c', ev) ->
  states c' = [(t, s)] /\ meas c' = [] /\ queue c' = [] /\
  initialized c' = true /\ predictionMade c' = false /\ glob c' = glob_reset O /\
  (forall tm m, step O d c' (CMeas tm m) = Ok (c', [])).
Proof.
  intros O d c t s c' ev H. cbn [step] in H. inv_bind H. injection H as <- <-.
  apply Init_clean in E as (E1 & E2 & E3 & E4 & E5 & E6 & E7 & E8).
  repeat split; try assumption.
  intros tm m. cbn [step]. unfold AddMeasurement. rewrite E6, E7. reflexivity.
Qed.
Print Assumptions C08_clean.

Example C08_clean_ex :
  on (warm ++ [cM 10300 1; cM 11000 2]) view =
    Some ((true, true), [(1000, []); (1010, []); (1020, []); (1030, [1]); (1040, [1])],
          [(1100, 2)], 1040, 5%nat) /\
  on (warm ++ [cM 10300 1; cM 11000 2] ++ [cI]) view =
    Some ((true, false), [(1000, [])], [], 1000, 5%nat) /\
  on (warm ++ [cM 10300 1; cM 11000 2] ++ [cI; cM 10000 3]) view =
    Some ((true, false), [(1000, [])], [], 1000, 5%nat).
Proof. split; [eval_refl|]. split; eval_refl. Qed.

(** Nothing from before an initialisation shows afterwards, in any continuation
    without an acceleration spike, provided the clean-up counter (a function
    static) agrees. *)
Theorem C08_forgets_partial : forall (O : ops) d c1 c2 t s (l : list (call O)),
  janitor c1 = janitor c2 ->
  (forall k, In k l -> match k with
                       | CImu a _ _ | CExt a _ _ _ _ => acc_spike O a = false
                       | _ => True end) ->
  observe O (run O d c1 (CInit t s :: l)) = observe O (run O d c2 (CInit t s :: l)).
Proof.
  intros O d c1 c2 t s l Hj Hl. apply init_forgets; [exact Hj|].
  apply forallb_forall. intros k Hk. specialize (Hl k Hk).
  destruct k; cbn; try reflexivity; rewrite Hl; reflexivity.
Qed.
Print Assumptions C08_forgets_partial.

Example C08_forgets_ex :
  on warm (fun c _ => (janitor c, length (queue c))) = Some (0, 0%nat) /\
  on (warm ++ [cU 1050; cM 11000 4]) (fun c _ => (janitor c, length (queue c))) = Some (0, 1%nat) /\
  on (warm ++ warm ++ [cM 10300 3]) (fun c _ => view c []) =
    Some ((true, true), [(1000, []); (1010, []); (1020, []); (1030, [3]); (1040, [3])], [], 1040, 0%nat) /\
  on ((warm ++ [cU 1050; cM 11000 4]) ++ warm ++ [cM 10300 3]) (fun c _ => view c []) =
    Some ((true, true), [(1000, []); (1010, []); (1020, []); (1030, [3]); (1040, [3])], [], 1040, 0%nat).
Proof. split; [eval_refl|]. split; [eval_refl|]. split; eval_refl. Qed.

Definition first_acc (r : res (observed log_ops)) : option Z :=
  match r with
  | Ok o => match ob_events log_ops o with
            | PubPropagation _ s :: _ => Some (s_acc s)
            | _ => None
            end
  | _ => None
  end.

(** The full statement is false: the last plausible acceleration is a function
    static that survives the initialisation and is used when the first reading
    afterwards is a spike. *)
Theorem C08_forgets_refuted :
  ~ (forall (O : ops) d g l1 l2 c1 c2 e1 e2 t s l,
       run O d (core_new O g) l1 = Ok (c1, e1) -> run O d (core_new O g) l2 = Ok (c2, e2) ->
       janitor c1 = janitor c2 ->
       observe O (run O d c1 (CInit t s :: l)) = observe O (run O d c2 (CInit t s :: l))).
Proof.
  intros H.
  assert (on warm (fun c _ => (janitor c, last_am c)) = Some (0, 9)) as Hw by eval_refl.
  apply on_ok in Hw as (c & ev & Hw & Hc). injection Hc as Hj Ha.
  destruct c as [i p sts mes q tP it am ame j gl]. cbn in Hj, Ha. subst am j.
  specialize (H log_ops ex_d tt [] warm _ _ _ _ (1000 * ms) s_init
                [@CImu log_ops 99 0 (1010 * ms)] eq_refl Hw eq_refl).
  apply (f_equal first_acc) in H.
  match type of H with ?a = ?b =>
    assert (a = Some 0) as H1 by eval_refl; assert (b = Some 9) as H2 by eval_refl end.
  rewrite H1, H2 in H. discriminate H.
Qed.
Print Assumptions C08_forgets_refuted.

(** ** C09 *)

(** In full: *)
Definition C09_full : Prop := forall (O : ops) d l tr c ev a g t c' ev',
  run O d (core_new O tr) l = Ok (c, ev) ->
  initialized c = true -> predictionMade c = true ->
  step O d c (CImu a g t) = Ok (c', ev') ->
  exists k s, (it_last c = ItAt k /\ In (k, s) (states c)) /\
    (t < k - thr_out_of_order <-> initialized c' = false) /\
    (initialized c' = false -> ev' = [] /\ c' = set_flags O c false false).
(** Missing: executions in which a predicted position is not a number (such a position resets
    the filter too, C09_nothing_else_refuted), and a previous state stamped with the time that
    marks invalid objects. *)
Theorem C09_reset_iff_backwards_partial : forall (O : ops) d l tr c ev a g t c' ev',
  run O d (core_new O tr) l = Ok (c, ev) ->
  initialized c = true -> predictionMade c = true ->
  (forall v, numeric_p O v = true) ->
  step O d c (CImu a g t) = Ok (c', ev') ->
  (* the state of the previous IMU message *)
  exists k s, (it_last c = ItAt k /\ In (k, s) (states c)) /\
    (k <> INVALID_TIME ->
     (t < k - thr_out_of_order <-> initialized c' = false) /\
     (initialized c' = false -> ev' = [] /\ c' = set_flags O c false false)).
Proof. exact imu_reset_iff. Qed.
Print Assumptions C09_reset_iff_backwards_partial.

Example C09_ex :
  on (warm ++ [cU 1029]) view =
    Some ((false, false), [(1000, []); (1010, []); (1020, []); (1030, []); (1040, [])], [], 1040, 4%nat) /\
  on (warm ++ [cU 1030]) (fun c ev => (initialized c, length ev)) = Some (true, 5%nat).
Proof. split; eval_refl. Qed.

Theorem C09_silent_after_reset : forall (O : ops) d c a g t k s (l : list (call O)),
  initialized c = true -> predictionMade c = true -> time_sorted (states c) ->
  it_last c = ItAt k -> In (k, s) (states c) -> k <> INVALID_TIME -> t < k - thr_out_of_order ->
  (forall k, In k l -> match k with CInit _ _ => False | _ => True end) ->
  run O d c (CImu a g t :: l) = Ok (set_flags O c false false, []).
Proof.
  intros O d c a g t k s l Hi Hp Hs Hit Hin Hk Ht Hl. cbn [run step].
  rewrite (imu_backwards_reset O d c a g t k s Hi Hp Hs (conj Hit Hin) Hk Ht). cbn [bind].
  rewrite (C07_ignored_until_init O d l (set_flags O c false false) eq_refl Hl). reflexivity.
Qed.
Print Assumptions C09_silent_after_reset.

Example C09_silent_ex :
  on (warm ++ [cU 1029; cU 1050; cM 10300 1]) view =
    Some ((false, false), [(1000, []); (1010, []); (1020, []); (1030, []); (1040, [])], [], 1040, 4%nat).
Proof. eval_refl. Qed.

(** "Nothing else in the IMU path" needs the numeric hypothesis above: a forward
    IMU message resets the filter when the predicted position is not a number. *)
Definition nan_ops : ops := {|
  Val := bool; Cov := unit; Acc := Z; Gyr := Z; Meas := unit; Glob := unit; Ext := unit;
  cov_zero := tt; acc_zero := 0; acc_spike := fun a => 50 <? Z.abs a;
  lerp_acc := fun a _ _ _ => a; lerp_gyr := fun a _ _ _ => a;
  propagate := fun dt _ _ v _ _ => v && (dt <? second / 20);
  predict_cov := fun _ _ _ _ P => P; ext_val := fun _ v => v;
  numeric := fun v => v; numeric_p := fun v => v;
  apply_meas := fun _ g v P => (true, v, P, g); glob_reset := tt |}.
Definition nI : call nan_ops := @CInit nan_ops (1000 * ms) (@mkst nan_ops 9 0 true tt).
Definition nU (t : Z) : call nan_ops := @CImu nan_ops 9 0 (t * ms).

Theorem C09_nothing_else_refuted : exists (O : ops) d tr l c ev a g t c' ev' k s,
  run O d (core_new O tr) l = Ok (c, ev) /\
  initialized c = true /\ predictionMade c = true /\
  step O d c (CImu a g t) = Ok (c', ev') /\
  it_last c = ItAt k /\ In (k, s) (states c) /\ k < t /\ initialized c' = false.
Proof.
  assert (part (fun c _ => (initialized c, predictionMade c, it_last c, map fst (states c)))
               (run nan_ops ex_d (core_new nan_ops tt) (nI :: map nU [1010; 1020; 1030]))
          = Some (true, true, ItAt (1030 * ms), map (fun t => t * ms) [1000; 1010; 1020; 1030])) as H
    by eval_refl.
  assert (part (fun c _ => initialized c)
               (run nan_ops ex_d (core_new nan_ops tt) (nI :: map nU [1010; 1020; 1030; 1130]))
          = Some false) as H' by eval_refl.
  change (map nU [1010; 1020; 1030; 1130]) with (map nU [1010; 1020; 1030] ++ [nU 1130]) in H'.
  rewrite app_comm_cons, run_app in H'.
  apply part_ok in H as (c & ev & E & H). rewrite E in H'. cbn [bind run] in H'.
  injection H as H1 H2 H3 H4.
  destruct (step nan_ops ex_d c (nU 1130)) as [[c' ev']| |] eqn:E'; [|discriminate H'..].
  cbn in H'. injection H' as H'.
  assert (In (1030 * ms) (map fst (states c))) as Hin by (rewrite H4; do 3 right; left; reflexivity).
  apply in_map_iff in Hin as ([k s] & Hk & Hin). cbn [fst] in Hk. subst k.
  exists nan_ops, ex_d, tt, (nI :: map nU [1010; 1020; 1030]), c, ev, 9, 0, (1130 * ms), c', ev',
    (1030 * ms), s.
  repeat (split; [assumption|]). split; [lazy; reflexivity|exact H'].
Qed.
Print Assumptions C09_nothing_else_refuted.

(** ** C10 *)

Theorem C10_future_is_queued : forall (O : ops) d c tm m e,
  initialized c = true -> predictionMade c = true -> time_sorted (states c) ->
  newest (states c) e -> fst e < tm ->
  step O d c (CMeas tm m) = Ok (set_queue O c (queue c ++ [(tm, m)]), []).
Proof. exact AddMeasurement_future. Qed.
Print Assumptions C10_future_is_queued.

Theorem C10_too_old_is_dropped : forall (O : ops) d c tm m,
  initialized c = true -> predictionMade c = true -> time_sorted (states c) ->
  states c <> [] -> (forall e, In e (states c) -> tm < fst e) ->
  step O d c (CMeas tm m) = Ok (c, []).
Proof. exact AddMeasurement_old. Qed.
Print Assumptions C10_too_old_is_dropped.

Example C10_ex :
  on (warm ++ [cM 10500 7; cM 10450 8; cM 9990 5]) view =
    Some ((true, true), [(1000, []); (1010, []); (1020, []); (1030, []); (1040, [])],
          [(1050, 7); (1045, 8)], 1040, 4%nat).
Proof. eval_refl. Qed.

(** The sortedness and span hypotheses hold in every execution. *)
Theorem C10_hypotheses_reachable : forall (O : ops) d l g c ev,
  run O d (core_new O g) l = Ok (c, ev) -> time_sorted (states c).
Proof. exact (fun O d l g c ev H => proj1 (run_sorted O d l g c ev H)). Qed.
Print Assumptions C10_hypotheses_reachable.

(** ** C11 *)

(** One IMU message: at most the head leaves the queue; it goes to the end iff
    it is still newer than every state. *)
Theorem C11_one_per_message : forall (O : ops) d c a g t c' ev e,
  time_sorted (states c) -> time_sorted (meas c) -> newest (states c) e ->
  initialized c = true -> predictionMade c = true ->
  step O d c (CImu a g t) = Ok (c', ev) -> initialized c' = true ->
  (queue c' = queue c /\ ev = [] /\ occupied (states c) INVALID_TIME) \/
  match queue c with
  | [] => queue c' = []
  | p :: q => (fst p <= Z.max (fst e) t /\ queue c' = q) \/
              (fst p > Z.max (fst e) t /\ queue c' = q ++ [p])
  end.
Proof.
  intros O d c a g t c' ev e Hs Hm [Hin Hmax] Hi Hp H Hi'.
  destruct (imu_queue_step O d c a g t c' ev (fst e)) as [(E & Eev & Eo)|(_ & _ & _ & E & _)];
    try assumption.
  - split; assumption.
  - split; [destruct e as [k s]; exists s; exact Hin|exact Hmax].
  - left. split; [rewrite E; reflexivity|auto].
  - right. destruct (queue c) as [|p q]; [exact E|]. cbn [take_pending] in E.
    destruct (fst p >? Z.max (fst e) t) eqn:El; [right|left]; split; auto; lia.
Qed.
Print Assumptions C11_one_per_message.

(** Conservation over any execution without re-initialisation or reset: what is
    not pending any more was at most as new as the newest state. *)
Theorem C11_nothing_lost : forall (O : ops) d (l : list (call O)) c c' ev e,
  time_sorted (states c) -> time_sorted (meas c) -> newest (states c) e ->
  initialized c = true -> predictionMade c = true ->
  (forall k, In k l -> match k with CInit _ _ => False | _ => True end) ->
  run O d c l = Ok (c', ev) -> initialized c' = true ->
  exists handled e',
    Permutation (queue c' ++ handled)
                (queue c ++ flat_map (fun k => match k with CMeas t m => [(t, m)] | _ => [] end) l) /\
    newest (states c') e' /\ forall p, In p handled -> fst p <= fst e'.
Proof.
  intros O d l c c' ev e Hs Hm [Hin Hmax] Hi Hp Hl H Hi'.
  destruct (run_queue O d l c c' ev (fst e)) as (n' & [A1 A1'] & [[s A2] A2'] & _ & _ & gone & A3 & A4);
    try assumption.
  - apply forallb_forall. intros k Hk. specialize (Hl k Hk). destruct k; [contradiction|reflexivity..].
  - split; assumption.
  - split; [destruct e as [k s]; exists s; exact Hin|exact Hmax].
  - exists gone, (n', s). split; [exact A3|]. split; [split; [exact A2|exact A2']|exact A4].
Qed.
Print Assumptions C11_nothing_lost.

(** Draining: with IMU messages only, every published propagation handles the
    head of the queue, once all pending stamps are covered by the states. *)
Theorem C11_drains : forall (O : ops) d (l : list (call O)) c c' ev e,
  time_sorted (states c) -> time_sorted (meas c) -> newest (states c) e ->
  initialized c = true -> predictionMade c = true ->
  (forall k, In k l -> match k with CImu _ _ _ => True | _ => False end) ->
  run O d c l = Ok (c', ev) -> initialized c' = true ->
  (forall p, In p (queue c) -> fst p <= fst e) ->
  queue c' = skipn (length (filter (fun x => match x with PubPropagation _ _ => true
                                                     | _ => false end) ev)) (queue c).
Proof.
  intros O d l c c' ev e Hs Hm [Hin Hmax] Hi Hp Hl H Hi' Hq.
  apply (drain O d l c c' ev (fst e)); try assumption.
  - split; assumption.
  - split; [destruct e as [k s]; exists s; exact Hin|exact Hmax].
  - clear - Hl. induction l as [|k r IH]; [exact I|].
    pose proof (Hl k (or_introl eq_refl)) as Hk. destruct k; try contradiction. cbn.
    apply IH. intros k Hk'. apply Hl. right. exact Hk'.
Qed.
Print Assumptions C11_drains.

Example C11_ex :
  let q l := on l (fun c _ => map (fun p => lm_id (snd p)) (queue c)) in
  q (warm ++ [cM 10900 1; cM 10600 2; cM 10450 3]) = Some [1; 2; 3] /\
  q (warm ++ [cM 10900 1; cM 10600 2; cM 10450 3; cU 1050]) = Some [2; 3; 1] /\
  q (warm ++ [cM 10900 1; cM 10600 2; cM 10450 3; cU 1050; cU 1100]) = Some [3; 1] /\
  q (warm ++ [cM 10900 1; cM 10600 2; cM 10450 3; cU 1050; cU 1100; cU 1110]) = Some [1] /\
  q (warm ++ [cM 10900 1; cM 10600 2; cM 10450 3; cU 1050; cU 1100; cU 1110; cU 1120]) = Some [].
Proof. cbv zeta. repeat (split; [eval_refl|]). eval_refl. Qed.

(** ** C14 *)

Theorem C14_state_is_near : forall (O : ops) d c t c' ts s,
  time_sorted (states c) ->
  GetClosestState O d c t = Ok (c', Some (ts, s)) ->
  Z.abs (ts - t) <= second / 10 /\ numeric O (s_val s) = true /\
  (forall el en, latest_before (states c) t el -> earliest_after (states c) t en ->
     fst el <> INVALID_TIME -> fst en <> INVALID_TIME ->
     numeric O (s_val (snd el)) = true -> numeric O (s_val (snd en)) = true ->
     Z.abs (ts - t) <= second / 1000).
Proof. exact closest_state_near. Qed.
Print Assumptions C14_state_is_near.

Example C14_ex :
  let used t := match run log_ops ex_d (core_new log_ops tt) warm with
                | Ok (c, _) => match GetClosestState log_ops ex_d c t with
                               | Ok (_, Some (ts, _)) => Some ts | _ => None end
                | _ => None end in
  used (1025 * ms) = Some (1025 * ms) /\
  used (1030 * ms + 400000) = Some (1030 * ms) /\ used (1090 * ms) = Some (1040 * ms) /\
  used (800 * ms) = None.
Proof. cbv zeta. repeat (split; [eval_refl|]). eval_refl. Qed.

(** ** C15 *)

(** The envelope: non-zero init time; states come from the IMU callback only or
    from the external callback only; before predictions run, IMU gaps of at most
    0.1 s; no IMU stamp a minute behind, no measurement 59.9 s behind the newest
    state when it is handled. *)
Theorem C15_safe_partial : forall (O : ops) (d : nat -> dec_begin) (imu : bool) g (l : list (call O)),
  (forall n, (0 < n)%nat -> d n <> DecUB) ->
  admissible_run O d imu (core_new O g) l ->
  exists c ev, run O d (core_new O g) l = Ok (c, ev).
Proof.
  intros O d imu g l Hd Ha.
  destruct (run_safe O d Hd l imu (core_new O g) (core_new_safe O imu g) Ha) as (c & ev & H & _).
  eauto.
Qed.
Print Assumptions C15_safe_partial.

(** Executable sufficient condition for IMU-driven executions, for the example. *)
Definition adm_check (O : ops) (c : core O) (k : call O) : bool :=
  match k with
  | CInit t _ => negb (t =? 0)
  | CImu _ _ t =>
      negb (initialized c) ||
      ((predictionMade c || match it_last c with ItAt k => Z.abs (t - k) <=? thr_gap_imu | _ => true end)
       && forallb (fun e => (fst e - buffer_age <=? t)
                            && forallb (fun p => Z.max (fst e) t - late_limit <=? fst p) (queue c))
                  (states c))
  | CExt _ _ _ _ _ => false
  | CMeas t _ => forallb (fun e => fst e - late_limit <=? t) (states c)
  end.

Fixpoint adm_run_check (O : ops) d (c : core O) (l : list (call O)) : bool :=
  match l with
  | [] => true
  | k :: r => adm_check O c k &&
              match step O d c k with Ok (c', _) => adm_run_check O d c' r | _ => true end
  end.

Lemma adm_check_ok : forall O c k, adm_check O c k = true -> admissible O true c k.
Proof.
  intros O c [t s|a g t|a g x b t|t m] H; cbn in H |- *.
  - lia.
  - split; [reflexivity|]. intros Hi n [[s Hn] _]. rewrite Hi in H. cbn [negb orb] in H.
    apply andb_prop in H as [H1 H2]. rewrite forallb_forall in H2. specialize (H2 _ Hn).
    apply andb_prop in H2 as [H2 H3]. rewrite forallb_forall in H3. cbn [fst] in *.
    split; [|split; [lia|]].
    + intros Hp k Hk. rewrite Hp, Hk in H1. cbn [orb] in H1. lia.
    + intros e He. specialize (H3 e He). lia.
  - discriminate.
  - intros _ _ n [[s Hn] _]. rewrite forallb_forall in H. specialize (H _ Hn). cbn [fst] in H. lia.
Qed.

Lemma adm_run_check_ok : forall O d l c, adm_run_check O d c l = true -> admissible_run O d true c l.
Proof.
  induction l as [|k r IH]; intros c H; cbn in H |- *; [exact I|].
  apply andb_prop in H as [H1 H2]. split; [apply adm_check_ok; exact H1|].
  intros c' ev E. rewrite E in H2. apply IH. exact H2.
Qed.

Example C15_safe_ex :
  admissible_run log_ops ex_d true (core_new log_ops tt)
    (warm ++ [cM 10250 1; cM 10500 2; cU 1045; cU 1043; cU 1060; cM 10330 3; cU 1000; cI; cU 1090]).
Proof. apply adm_run_check_ok. eval_refl. Qed.

(** The full statement is false, even when decrementing [begin] is harmless. *)
Theorem C15_refuted : exists (O : ops) d g,
  (forall n, (0 < n)%nat -> d n <> DecUB) /\
  (* two IMU messages more than 0.1 s after the initialisation *)
  (exists t s a1 g1 t1 a2 g2 t2, 0 < t < t1 /\ t1 < t2 /\
     run O d (core_new O g) [CInit t s; CImu a1 g1 t1; CImu a2 g2 t2] = UB) /\
  (* clean-up removes the measurement that is being processed *)
  (exists l tm m, (exists c ev, run O d (core_new O g) l = Ok (c, ev)) /\
     run O d (core_new O g) (l ++ [CMeas tm m]) = UB).
Proof.
  exists log_ops, ex_d, tt. split; [|split].
  - intros [|[|[|n]]] H; [lia|discriminate..].
  - exists (1000 * ms), s_init, 9, 0, (2000 * ms), 9, 0, (2010 * ms).
    split; [lazy; split; reflexivity|]. split; [lazy; reflexivity|]. apply is_ub_ok. eval_refl.
  - exists (warm ++ [cM 10300 3; cU 70000; cU 70010; cU 70020]
            ++ map (fun _ => cM 700010 1) (seq 0 100)).
    exists (1020 * ms), {| lm_id := 7; lm_accept := true |}.
    split; [|apply is_ub_ok; eval_refl].
    match goal with |- exists c ev, run _ _ _ ?l = _ =>
      assert (on l (fun _ _ => tt) = Some tt) as H by eval_refl;
      apply on_ok in H as (c & ev & H & _); eauto end.
Qed.
Print Assumptions C15_refuted.

(** ** C17 *)

Theorem C17_no_spikes_buffered :
  forall Val Cov Gyr Meas Glob Ext cov_zero lerp_gyr propagate predict_cov ext_val numeric numeric_p
         apply_meas glob_reset,
  let O := vec_ops Val Cov Gyr Meas Glob Ext cov_zero lerp_gyr propagate predict_cov ext_val
                   numeric numeric_p apply_meas glob_reset in
  forall d (l : list (call O)) g c ev,
  (forall t s, In (CInit t s) l -> (vnorm (s_acc s) <= 50)%R) ->
  run O d (core_new O g) l = Ok (c, ev) ->
  (forall t s, In (t, s) (states c) -> (vnorm (s_acc s) <= 50)%R) /\
  (forall t s, In (PubPropagation t s) ev \/ In (PubUpdate t s) ev -> (vnorm (s_acc s) <= 50)%R).
Proof.
  intros Val Cov Gyr Meas Glob Ext cov_zero lerp_gyr propagate predict_cov ext_val numeric numeric_p
    apply_meas glob_reset O d l g c ev.
  apply (run_no_spikes O vnorm d).
  - intros a. apply vspike_false.
  - cbn. apply vnorm_le; [lra|]. cbn. lra.
  - intros a b dt dp Hw. apply vlerp_norm; [lra|exact Hw].
Qed.
Print Assumptions C17_no_spikes_buffered.

(** A spike of 99 after a reading of 9: the stored reading is the old one. *)
Example C17_ex :
  on (warm ++ [@CImu log_ops 99 0 (1050 * ms)]) (fun c _ => map (fun e => s_acc (snd e)) (states c))
  = Some [9; 9; 9; 9; 9; 9].
Proof. eval_refl. Qed.
