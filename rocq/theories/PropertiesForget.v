(** C08, continued: exactly what an initialisation does not forget. *)

From Coq Require Import ZArith List Lia Bool.
From Verif Require Import Outcome SortedContainer SortedContainerSpec SortedContainerProofs
     Core CoreExamples CoreBasics CoreInv CoreSteps CoreSafety CoreQueue CoreReset CoreForget PropertiesCore.
Import ListNotations.
Open Scope Z_scope.

(** Three function statics and nothing else: with these equal, all continuations are the same. *)
Theorem C08_only_statics : forall (O : ops) d c1 c2 t s (l : list (call O)),
  last_am c1 = last_am c2 -> last_am_ext c1 = last_am_ext c2 -> janitor c1 = janitor c2 ->
  run O d c1 (CInit t s :: l) = run O d c2 (CInit t s :: l).
Proof.
  intros O d c1 c2 t s l H1 H2 H3. cbn [run step]. rewrite (Init_same O c1 c2 t s H1 H2 H3). reflexivity.
Qed.
Print Assumptions C08_only_statics.

(** The remembered acceleration cannot be seen if every spike comes after a plausible reading,
    with no other initialisation between the two.  Missing from the full statement: spikes
    before the first plausible reading (C08_forgets_refuted), spikes in externally propagated
    states, and different clean-up counters (C08_counter_refuted). *)
Theorem C08_forgets_first_partial : forall (O : ops) d c1 c2 t s (l : list (call O)),
  janitor c1 = janitor c2 ->
  (forall u s', In (CInit u s') (CInit t s :: l) -> u <> INVALID_TIME) ->
  (forall a g x b u, In (CExt a g x b u) l -> acc_spike O a = false) ->
  (forall before a g u after, l = before ++ CImu a g u :: after -> acc_spike O a = true ->
     exists p1 a' g' u' p2, before = p1 ++ CImu a' g' u' :: p2 /\ acc_spike O a' = false /\
       forall w s', ~ In (CInit w s') p2) ->
  observe O (run O d c1 (CInit t s :: l)) = observe O (run O d c2 (CInit t s :: l)).
Proof.
  intros O d c1 c2 t s l Hj Ht Hx Hs. apply init_forgets_first; [exact Hj| |].
  - apply (Ht t s). left. reflexivity.
  - apply (cleared_fine O l [] false).
    + split; [discriminate|]. intros (p1 & a' & g' & t' & p2 & E & _). destruct p1; discriminate.
    + split; [|split; [exact Hx|exact Hs]]. intros u s' H. apply (Ht u s'). right. exact H.
Qed.
Print Assumptions C08_forgets_first_partial.

(** A spike as the second reading: both pasts are forgotten. *)
Definition spiked : list (call log_ops) := [cU 1010; @CImu log_ops 99 0 (1020 * ms); cU 1030].
Example C08_first_ex :
  (exists before a g u after, spiked = before ++ CImu a g u :: after /\ acc_spike log_ops a = true) /\
  (forall before a g u after, spiked = before ++ CImu a g u :: after -> acc_spike log_ops a = true ->
     exists p1 a' g' u' p2, before = p1 ++ CImu a' g' u' :: p2 /\ acc_spike log_ops a' = false /\
       forall w s', ~ In (CInit w s') p2) /\
  on (cI :: spiked) (fun c _ => map (fun e => s_acc (snd e)) (states c)) =
  on ((warm ++ [cU 1050]) ++ cI :: spiked) (fun c _ => map (fun e => s_acc (snd e)) (states c)).
Proof.
  split; [|split; [|eval_refl]].
  - exists [cU 1010], 99, 0, (1020 * ms), [cU 1030]. split; reflexivity.
  - intros before a g u after E Ha.
    destruct before as [|k1 [|k2 [|k3 before]]]; cbn in E.
    + injection E as <- _ _ _. discriminate.
    + injection E as <- _ _ _ _. exists [], 9, 0, (1010 * ms), []. split; [reflexivity|]. split; [reflexivity|].
      intros w s' [].
    + injection E as _ _ <- _ _ _. discriminate.
    + destruct before; discriminate.
Qed.

(** The clean-up counter can be seen: after a hundred measurements before the initialisation the
    first one afterwards makes the filter drop states older than a minute; without them it does
    not. *)
Definition busy : list (call log_ops) := warm ++ map (fun _ => cM 10200 1) (seq 0 101).
Definition later : list (call log_ops) := map cU [1010; 1020; 1030; 1040] ++ [cU 70000; cU 70010; cM 700050 7; cU 70020].
Theorem C08_counter_refuted :
  ~ (forall (O : ops) d g l1 l2 c1 c2 e1 e2 t s l,
       run O d (core_new O g) l1 = Ok (c1, e1) -> run O d (core_new O g) l2 = Ok (c2, e2) ->
       last_am c1 = last_am c2 -> last_am_ext c1 = last_am_ext c2 ->
       observe O (run O d c1 (CInit t s :: l)) = observe O (run O d c2 (CInit t s :: l))).
Proof.
  intros H.
  assert (on warm (fun c _ => (janitor c, last_am c, last_am_ext c)) = Some (0, 9, 0)) as Hw by eval_refl.
  assert (on busy (fun c _ => (janitor c, last_am c, last_am_ext c)) = Some (101, 9, 0)) as Hb by eval_refl.
  apply on_ok in Hw as (c & ev & Hw & Hc). apply on_ok in Hb as (c' & ev' & Hb & Hc').
  destruct c as [i p sts mes q tP it a1 a2 j gl]. destruct c' as [i' p' sts' mes' q' tP' it' a1' a2' j' gl'].
  cbn in Hc, Hc'. injection Hc as -> -> ->. injection Hc' as -> -> ->.
  specialize (H log_ops ex_d tt warm busy _ _ _ _ (1000 * ms) s_init later Hw Hb eq_refl eq_refl).
  apply (f_equal (fun r => match r with Ok o => Some (length (ob_states log_ops o)) | _ => None end)) in H.
  match type of H with ?a = ?b =>
    let x := eval lazy in a in let y := eval lazy in b in
    assert (a = x) as H1 by eval_refl; assert (b = y) as H2 by eval_refl end.
  rewrite H1, H2 in H. discriminate H.
Qed.
Print Assumptions C08_counter_refuted.
