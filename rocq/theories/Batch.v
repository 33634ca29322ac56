(** Delay compensation (C12): proofs. *)

From Coq Require Import ZArith List Sorting.Sorted Lia ZifyBool ZifyNat Bool Permutation.
From Verif Require Import Outcome SortedContainer SortedContainerSpec SortedContainerProofs
     Core CoreBasics CoreInv CoreSteps CoreSafety BatchSpec.
Import ListNotations.
Open Scope Z_scope.

Section Batch.
  Variable O : ops.
  Variable d : nat -> dec_begin.
  Variables (ra : Z -> Acc O) (rg : Z -> Gyr O).
  Variable fuse : Meas O -> Val O -> Cov O -> Val O * Cov O.
  Notation st := (st O).
  Notation core := (core O).
  Notation predicted := (predicted O ra rg).
  Notation fused := (fused O fuse).
  Notation filter_from := (filter_from O ra rg fuse).
  Notation plain := (plain_filter O ra rg fuse).
  Notation lookup := (lookup O).

  (** ** The plain filter *)

  Lemma last_cons : forall {A} (x y : A) l, last (x :: l) y = last l x.
  Proof.
    intros A x y l. revert x y. induction l as [|z l IH]; intros x y; [reflexivity|].
    change (last (x :: z :: l) y) with (last (z :: l) y). rewrite IH. symmetry. apply IH.
  Qed.

  Fixpoint preds (e : Z * st) (ts : list Z) : list (Z * st) :=
    match ts with [] => [] | t :: r => let e' := (t, predicted e t) in e' :: preds e' r end.

  Lemma preds_keys : forall ts e, keys (preds e ts) = ts.
  Proof. induction ts as [|t r IH]; intros e; cbn; [reflexivity|]. f_equal. apply IH. Qed.
  Lemma filter_keys : forall M ts e, keys (filter_from M e ts) = ts.
  Proof. intros M. induction ts as [|t r IH]; intros e; cbn; [reflexivity|]. f_equal. apply IH. Qed.
  Lemma plain_keys : forall M s ts, keys (plain M s ts) = ts.
  Proof. intros M s [|t r]; cbn; [reflexivity|]. f_equal. apply filter_keys. Qed.

  Lemma preds_app : forall l1 l2 e, preds e (l1 ++ l2) = preds e l1 ++ preds (last (preds e l1) e) l2.
  Proof.
    induction l1 as [|t r IH]; intros l2 e; [reflexivity|]. cbn [app preds]. rewrite IH.
    f_equal. f_equal. f_equal. symmetry. apply last_cons.
  Qed.
  Lemma filter_none : forall M l e, (forall t, In t l -> lookup M t = None) -> filter_from M e l = preds e l.
  Proof.
    intros M. induction l as [|t r IH]; intros e H; [reflexivity|]. cbn [BatchSpec.filter_from preds].
    unfold BatchSpec.fused. rewrite (H t (or_introl eq_refl)). f_equal. apply IH. intros t' Ht. apply H. right. exact Ht.
  Qed.
  Lemma filter_ext : forall M M' l e, (forall t, In t l -> lookup M t = lookup M' t) ->
    filter_from M e l = filter_from M' e l.
  Proof.
    intros M M'. induction l as [|t r IH]; intros e H; [reflexivity|]. cbn [BatchSpec.filter_from].
    unfold BatchSpec.fused. rewrite (H t (or_introl eq_refl)). f_equal. apply IH. intros t' Ht. apply H. right. exact Ht.
  Qed.
  Lemma filter_app : forall M l1 l2 e A e',
    filter_from M e l1 = A ++ [e'] -> filter_from M e (l1 ++ l2) = A ++ e' :: filter_from M e' l2.
  Proof.
    intros M. induction l1 as [|t r IH]; intros l2 e A e' H.
    - destruct A; discriminate.
    - cbn [app BatchSpec.filter_from] in *. destruct A as [|a A].
      + injection H as H1 H2. destruct r; [|discriminate]. cbn [app]. rewrite H1. reflexivity.
      + injection H as <- H2. cbn [app]. f_equal. apply IH. exact H2.
  Qed.
  Lemma plain_app : forall M s l1 l2 A e',
    plain M s l1 = A ++ [e'] -> plain M s (l1 ++ l2) = A ++ e' :: filter_from M e' l2.
  Proof.
    intros M s [|t r] l2 A e' H; [destruct A; discriminate|].
    cbn [app plain_filter] in *. destruct A as [|a A].
    - injection H as H1 H2. destruct r; [|discriminate]. cbn [app]. rewrite H1. reflexivity.
    - injection H as <- H2. cbn [app]. f_equal. apply filter_app. exact H2.
  Qed.
  Lemma plain_ext : forall M M' s l, (forall t, In t l -> lookup M t = lookup M' t) -> plain M s l = plain M' s l.
  Proof.
    intros M M' s [|t r] H; [reflexivity|]. cbn [plain_filter].
    assert (fused M t s = fused M' t s) as -> by (unfold BatchSpec.fused; rewrite (H t (or_introl eq_refl)); reflexivity).
    f_equal. apply filter_ext. intros t' Ht. apply H. right. exact Ht.
  Qed.

  (** A prefix of the plain filter's run is a run, and determines the rest. *)
  Lemma app_len_inj : forall {A} (a b c e : list A), length a = length c -> a ++ b = c ++ e -> a = c /\ b = e.
  Proof.
    induction a as [|x a IH]; intros b [|y c] e Hl H; try discriminate; [auto|].
    cbn in *. injection H as -> H. destruct (IH b c e) as [-> ->]; auto.
  Qed.
  Lemma plain_split : forall M s G A e Z0, plain M s G = A ++ e :: Z0 ->
    plain M s (keys (A ++ [e])) = A ++ [e] /\ Z0 = filter_from M e (keys Z0) /\ G = keys (A ++ e :: Z0).
  Proof.
    intros M s G A e Z0 H.
    assert (G = keys (A ++ e :: Z0)) as HG by (rewrite <- H; symmetry; apply plain_keys).
    assert (plain M s (keys (A ++ [e])) = A ++ [e]) as H1.
    { rewrite HG in H. replace (A ++ e :: Z0) with ((A ++ [e]) ++ Z0) in H by (rewrite <- app_assoc; reflexivity).
      rewrite keys_app in H. remember (plain M s (keys (A ++ [e]))) as X eqn:HX.
      assert (length X = length (A ++ [e])) as Hl.
      { rewrite <- (keys_length X), HX, plain_keys. apply keys_length. }
      assert (X <> []) as Hn.
      { intros ->. rewrite app_length in Hl. cbn in Hl. lia. }
      destruct (exists_last Hn) as (B & b & HB).
      assert (plain M s (keys (A ++ [e])) = B ++ [b]) as HX' by congruence.
      rewrite (plain_app _ _ _ (keys Z0) _ _ HX') in H.
      replace (B ++ b :: filter_from M b (keys Z0)) with ((B ++ [b]) ++ filter_from M b (keys Z0)) in H
        by (rewrite <- app_assoc; reflexivity).
      rewrite <- HB in H. apply app_len_inj in H as [H _]; assumption. }
    split; [exact H1|split; [|exact HG]].
    rewrite HG in H. replace (A ++ e :: Z0) with ((A ++ [e]) ++ Z0) in H at 1 by (rewrite <- app_assoc; reflexivity).
    rewrite keys_app in H. rewrite (plain_app _ _ _ _ _ _ H1) in H.
    apply app_inv_head in H. injection H as H. symmetry. exact H.
  Qed.

  (** Entering a measurement into the plain filter's history. *)
  Lemma plain_enter : forall M M' s G A t1 s1 Y,
    plain M s G = A ++ (t1, s1) :: Y -> lookup M t1 = None ->
    (forall t, In t (keys A) -> lookup M' t = lookup M t) ->
    plain M' s G = A ++ (t1, fused M' t1 s1) :: filter_from M' (t1, fused M' t1 s1) (keys Y).
  Proof.
    intros M M' s G A t1 s1 Y H Hn HM.
    destruct (plain_split _ _ _ _ _ _ H) as (H1 & H2 & ->).
    destruct A as [|a A _] using rev_ind.
    - cbn in H1. injection H1 as H1. unfold BatchSpec.fused in H1. rewrite Hn in H1. subst s1. reflexivity.
    - rewrite <- app_assoc in *. cbn [app] in *.
      destruct (plain_split _ _ _ _ _ _ H) as (H3 & H4 & _).
      cbn [keys map fst BatchSpec.filter_from] in H4. fold (keys Y) in H4. injection H4 as H4 H5.
      unfold BatchSpec.fused at 1 in H4. rewrite Hn in H4.
      assert (plain M' s (keys (A ++ [a])) = A ++ [a]) as H6.
      { rewrite <- H3 at 2. apply plain_ext. exact HM. }
      replace (A ++ a :: (t1, s1) :: Y) with ((A ++ [a]) ++ (t1, s1) :: Y) by (rewrite <- app_assoc; reflexivity).
      rewrite keys_app. cbn [keys map fst]. fold (keys Y).
      rewrite (plain_app _ _ _ _ _ _ H6), <- app_assoc. cbn [app BatchSpec.filter_from]. rewrite <- H4. reflexivity.
  Qed.

  (** ** Re-propagation *)

  Definition rd_ok (X : cont st) : Prop := forall t s, In (t, s) X -> s_acc s = ra t /\ s_gyr s = rg t.

  Fixpoint vals (e : Z * st) (X : cont st) : cont st :=
    match X with
    | [] => []
    | (t, s) :: r => let s' := prop_val O (fst e) (snd e) t s in (t, s') :: vals (t, s') r
    end.

  Lemma vals_keys : forall X e, keys (vals e X) = keys X.
  Proof. induction X as [|[t s] r IH]; intros e; cbn; [reflexivity|]. f_equal. apply IH. Qed.
  Lemma vals_rd : forall X e, rd_ok X -> rd_ok (vals e X).
  Proof.
    induction X as [|[t s] r IH]; intros e H; [intros ? ? []|]. cbn [vals]. intros t' s' [E|Hin].
    - injection E as <- <-. cbn. apply (H t s). left; reflexivity.
    - refine (IH _ _ t' s' Hin). intros t2 s2 H2. apply H. right; exact H2.
  Qed.
  Lemma vals_app : forall X Y e, vals e (X ++ Y) = vals e X ++ vals (last (vals e X) e) Y.
  Proof.
    induction X as [|[t s] r IH]; intros Y e; [reflexivity|]. cbn [app vals]. rewrite IH.
    f_equal. f_equal. f_equal. symmetry. apply last_cons.
  Qed.
  Lemma vals_ext : forall X t s s', s_acc s = s_acc s' -> s_gyr s = s_gyr s' -> s_val s = s_val s' ->
    vals (t, s) X = vals (t, s') X.
  Proof.
    intros [|[t1 s1] r] t s s' E1 E2 E3; [reflexivity|]. cbn [vals fst snd]. unfold prop_val. rewrite E1, E2, E3. reflexivity.
  Qed.

  Lemma propP_vals : forall X e Y tt tP,
    time_sorted (e :: X) -> (forall x, In x X -> fst x <= tt) -> (forall y, In y Y -> tt < fst y) -> rd_ok X ->
    propP_loop O (fst e) (snd e) (vals e X ++ Y) tt tP = (preds e (keys X) ++ Y, last (keys X) tP).
  Proof.
    induction X as [|[t s] r IH]; intros [te se] Y tt tP Hs HX HY Hr.
    - cbn [vals app keys map preds last]. destruct Y as [|[ty sy] Y]; [reflexivity|]. cbn [propP_loop].
      specialize (HY (ty, sy) (or_introl eq_refl)). cbn in HY. replace (ty <=? tt) with false by lia. reflexivity.
    - cbn [vals app propP_loop fst snd keys map preds].
      pose proof (HX (t, s) (or_introl eq_refl)) as Ht. cbn in Ht. replace (t <=? tt) with true by lia.
      apply sorted_cons_inv in Hs as [Hs Hf]. pose proof (Hf t s (or_introl eq_refl)) as Hlt.
      destruct (Hr t s (or_introl eq_refl)) as [Ea Eg].
      unfold pred_cov. replace (t - te <=? 0) with false by lia.
      set (s' := with_cov O _ _).
      assert (s' = predicted (te, se) t) as Es'.
      { unfold s', with_cov, prop_val, with_val, BatchSpec.predicted. cbn. rewrite Ea, Eg. reflexivity. }
      rewrite (vals_ext r t _ s') by reflexivity.
      change t with (fst (t, s')) at 1. change s' with (snd (t, s')) at 2.
      rewrite IH.
      + rewrite Es'. fold (keys r). cbn [app]. f_equal.
        symmetry. exact (last_cons t tP (keys r)).
      + apply sorted_cons_inv in Hs as [Hs1 Hs2]. apply sorted_cons; [exact Hs1|]. exact Hs2.
      + intros x Hx. apply HX. right; exact Hx.
      + exact HY.
      + intros t2 s2 H2. apply Hr. right; exact H2.
  Qed.

  Lemma reprop_vals : forall rest i pe told sold rest',
    (i < pe)%nat -> told <> INVALID_TIME -> (forall x, In x rest -> fst x <> INVALID_TIME) ->
    reprop O i pe told sold rest = Ok rest' ->
    rest' = vals (told, sold) (firstn (pe - S i) rest) ++ skipn (pe - S i) rest.
  Proof.
    induction rest as [|[t s] r IH]; intros i pe told sold rest' Hlt H0 Hr H.
    - cbn [reprop] in H. rewrite firstn_nil, skipn_nil. cbn. destruct (_ || _); [congruence|].
      replace (told =? INVALID_TIME) with false in H by lia. discriminate H.
    - cbn [reprop] in H. destruct ((i =? pe)%nat || (S i =? pe)%nat) eqn:E.
      + replace (pe - S i)%nat with 0%nat by lia. cbn. congruence.
      + replace (told =? INVALID_TIME) with false in H by lia.
        pose proof (Hr (t, s) (or_introl eq_refl)) as Ht. cbn [fst] in Ht. replace (t =? INVALID_TIME) with false in H by lia.
        inv_bind H. injection H as <-.
        apply IH in E0; [|lia|exact Ht|intros x Hx; apply Hr; right; exact Hx].
        replace (pe - S i)%nat with (S (pe - S (S i))) by lia. cbn [firstn skipn vals fst snd app]. f_equal. exact E0.
  Qed.

  (** ** The buffer and what has left it *)

  (** [F] is the buffer preceded by states older than 60 s before the newest, [n]. *)
  Definition full (n : Z) (c : core) (F : cont st) : Prop :=
    time_sorted F /\ top F n /\
    exists hist, F = hist ++ states c /\ forall x, In x hist -> fst x < n - buffer_age.

  Lemma full_split : forall n c A t s Y,
    full n c (A ++ (t, s) :: Y) -> n - buffer_age <= t ->
    exists hist A', A = hist ++ A' /\ states c = A' ++ (t, s) :: Y /\
      time_sorted (A' ++ (t, s) :: Y) /\
      (forall x, In x hist -> fst x < n - buffer_age).
  Proof.
    intros n c A t s Y (Hs & Ht & hist & HF & Hh) Hge.
    exists hist.
    assert (exists A', A = hist ++ A') as [A' HA].
    { clear Ht Hs. revert A HF. induction hist as [|x h IH]; intros A HF; [exists A; reflexivity|].
      destruct A as [|a A].
      - injection HF as <- _. specialize (Hh (t, s) (or_introl eq_refl)). cbn [fst] in Hh. lia.
      - injection HF as -> HF. destruct (IH (fun y Hy => Hh y (or_intror Hy)) A HF) as [A' ->]. exists A'. reflexivity. }
    exists A'. subst A. rewrite <- app_assoc in HF. apply app_inv_head in HF.
    repeat split; auto.
    rewrite <- app_assoc in Hs. apply sorted_app in Hs. tauto.
  Qed.

  Lemma full_change : forall n c c' A A' hist t s Y t2 s2 Y2,
    full n c (A ++ (t, s) :: Y) -> A = hist ++ A' ->
    (forall x, In x hist -> fst x < n - buffer_age) ->
    states c' = A' ++ (t2, s2) :: Y2 -> keys ((t2, s2) :: Y2) = keys ((t, s) :: Y) ->
    full n c' (A ++ (t2, s2) :: Y2).
  Proof.
    intros n c c' A A' hist t s Y t2 s2 Y2 (Hs & Ht & _) HA Hh Hst Hk.
    assert (keys (A ++ (t2, s2) :: Y2) = keys (A ++ (t, s) :: Y)) as Hk2 by (rewrite !keys_app; congruence).
    split; [eapply sorted_same_keys; [exact Hk2|exact Hs]|].
    split; [destruct (top_keys _ (A ++ (t2, s2) :: Y2) n Hk2 Ht); split; assumption|].
    exists hist. rewrite Hst, HA, <- app_assoc. auto.
  Qed.

  (** [c'] differs from [c] in at most states, covariance time, buffers, janitor and tracker. *)
  Definition same (c c' : core) : Prop :=
    initialized c' = initialized c /\ predictionMade c' = predictionMade c /\
    queue c' = queue c /\ last_am c' = last_am c.

  Lemma same_refl : forall c, same c c.
  Proof. intros c. repeat split. Qed.
  Lemma same_trans : forall a b c, same a b -> same b c -> same a c.
  Proof. intros a b c (?&?&?&?) (?&?&?&?). repeat split; congruence. Qed.

  Lemma PropP_noop : forall n c A tP sP Y tt,
    full n c (A ++ (tP, sP) :: Y) -> n - buffer_age <= tP -> time_P c = tP ->
    (forall y, In y Y -> tt < fst y) -> PropPToState O c tt = Ok c.
  Proof.
    intros n c A tP sP Y tt HF Hge HP HY.
    destruct (full_split _ _ _ _ _ _ HF Hge) as (hist & A' & HA & Hst & Hs & Hh).
    unfold PropPToState. rewrite Hst, HP, AtValue_mid by exact Hs.
    unfold it_inc. rewrite app_length. cbn [length]. replace (_ <? _)%nat with true by lia. cbn [bind].
    rewrite skipn_mid, firstn_mid.
    assert (propP_loop O tP sP Y tt tP = (Y, tP)) as ->.
    { destruct Y as [|[ty sy] Y]; [reflexivity|]. cbn [propP_loop].
      specialize (HY (ty, sy) (or_introl eq_refl)). cbn in HY. replace (ty <=? tt) with false by lia. reflexivity. }
    rewrite <- Hst. destruct c; cbn in *. subst. reflexivity.
  Qed.

  Lemma PropP_full : forall n c A e X Y tt,
    full n c (A ++ e :: vals e X ++ Y) -> n - buffer_age <= fst e -> time_P c = fst e ->
    (forall x, In x X -> fst x <= tt) -> (forall y, In y Y -> tt < fst y) -> rd_ok X ->
    exists c', PropPToState O c tt = Ok c' /\ full n c' (A ++ e :: preds e (keys X) ++ Y) /\
      time_P c' = last (keys X) (fst e) /\ same c c' /\ meas c' = meas c /\ it_last c' = it_last c.
  Proof.
    intros n c A [te se] X Y tt HF Hge HP HX HY Hr. cbn [fst] in *.
    destruct (full_split _ _ _ _ _ _ HF Hge) as (hist & A' & HA & Hst & Hs & Hh).
    unfold PropPToState. rewrite Hst, HP, AtValue_mid by exact Hs.
    unfold it_inc. rewrite app_length. cbn [length]. replace (_ <? _)%nat with true by lia. cbn [bind].
    rewrite skipn_mid, firstn_mid.
    change te with (fst (te, se)) at 1. change se with (snd (te, se)) at 2.
    rewrite propP_vals; auto.
    - eexists. split; [reflexivity|]. split.
      + eapply full_change; [exact HF|exact HA|exact Hh|reflexivity|].
        cbn [keys map fst]. f_equal. fold (keys (preds (te, se) (keys X) ++ Y)). fold (keys (vals (te, se) X ++ Y)).
        rewrite !keys_app, preds_keys, vals_keys. reflexivity.
      + repeat split; reflexivity.
    - apply sorted_app in Hs as (_ & Hs & _).
      eapply (sorted_same_keys ((te, se) :: vals (te, se) X)).
      + cbn. f_equal. fold (keys X). fold (keys (vals (te, se) X)). symmetry. apply vals_keys.
      + change ((te, se) :: vals (te, se) X ++ Y) with (((te, se) :: vals (te, se) X) ++ Y) in Hs.
        apply sorted_app in Hs. tauto.
  Qed.

  (** ** The measurement buffer *)

  Definition meas_ok (n : Z) (M : list (Z * Meas O)) (ms : cont (Meas O)) : Prop :=
    time_sorted ms /\ (forall x, In x ms -> In x M) /\
    (forall x, In x M -> n - buffer_age <= fst x -> In x ms).

  Hypothesis Hd : forall k, (0 < k)%nat -> d k <> DecUB.

  Lemma skipn_In : forall {A} p (l : list A) x, In x (skipn p l) -> In x l.
  Proof. intros A p l x H. rewrite <- (firstn_skipn p l). apply in_or_app. auto. Qed.

  Lemma clear_skip : forall {A} (c c' : cont A) m,
    time_sorted c -> top c m -> ClearOlderThan d c buffer_age = Ok c' ->
    exists p, c = p ++ c' /\ forall x, In x p -> fst x < m - buffer_age.
  Proof.
    intros A c c' m Hs [[s Hin] Hmax] H.
    destruct (ClearOlderThan_cases d c buffer_age c' (m, s) Hs) as (p & -> & Hp & _); auto.
    { split; [exact Hin|exact Hmax]. }
    { unfold buffer_age, second. lia. }
    exists (firstn p c). split; [symmetry; apply firstn_skipn|].
    intros x Hx. apply In_nth_error in Hx as [i Hi].
    assert (nth_error c i = Some x /\ (i < p)%nat) as [Hi' Hlt].
    { assert (i < length (firstn p c))%nat as Hl by (apply nth_error_Some; congruence).
      rewrite firstn_length in Hl. split; [|lia].
      rewrite <- (firstn_skipn p c), nth_error_app1; [exact Hi|]. rewrite firstn_length. lia. }
    apply (lower_bound_spec c (m - buffer_age) i x Hs Hi'). cbn [fst] in Hp. lia.
  Qed.

  Lemma meas_ok_clear : forall n M ms ms',
    meas_ok n M ms -> (forall x, In x M -> fst x <= n) -> ClearOlderThan d ms buffer_age = Ok ms' -> meas_ok n M ms'.
  Proof.
    intros n M ms ms' (Hs & H1 & H2) Hn H.
    destruct ms as [|e0 ms0] eqn:Em.
    - assert (ms' = []) as ->.
      { unfold ClearOlderThan in H. cbn in H. inversion H. reflexivity. }
      repeat split; auto.
    - rewrite <- Em in *. destruct (top_exists ms Hs) as [m Hm]; [congruence|].
      destruct (clear_skip _ _ _ Hs Hm H) as (p & -> & Hp).
      split; [apply sorted_app in Hs; tauto|]. split.
      + intros x Hx. apply H1. apply in_or_app. auto.
      + intros x Hx Hge. specialize (H2 x Hx Hge). apply in_app_or in H2 as [H2|H2]; [|exact H2].
        exfalso. specialize (Hp _ H2). destruct Hm as [[a Ha] _].
        pose proof (Hn _ (H1 _ Ha)) as Hle. cbn [fst] in Hle. lia.
  Qed.

  (** Clean-up at the end of GetClosestState. *)
  Lemma cleanup_full : forall n M c c' F,
    full n c F -> meas_ok n M (meas c) -> (forall x, In x M -> fst x <= n) ->
    it_last c = ItAt n ->
    (if janitor c >? janitor_limit
     then let* c' := CleanUpBuffers O d c in Ok (set_janitor O c' 0)
     else Ok (set_janitor O c (janitor c + 1))) = Ok c' ->
    full n c' F /\ meas_ok n M (meas c') /\ it_last c' = ItAt n /\ same c c' /\ time_P c' = time_P c.
  Proof.
    intros n M c c' F HF HM Hn Hit H. destruct (janitor c >? janitor_limit).
    - inv_bind H. injection H as <-. apply CleanUpBuffers_frame in E as (E1 & E2 & ->). cbn [states meas it_last time_P set_janitor set_it set_meas set_states].
      destruct HF as (Hs & Ht & hist & HF & Hh).
      assert (time_sorted (states c)) as Hs' by (rewrite HF in Hs; apply sorted_app in Hs; tauto).
      assert (top (states c) n) as Ht'.
      { destruct Ht as [[s Hin] Hmax]. rewrite HF in Hin, Hmax. split.
        - apply in_app_or in Hin as [Hin|Hin]; [|exists s; exact Hin].
          specialize (Hh _ Hin). cbn [fst] in Hh. unfold buffer_age, second in Hh. lia.
        - intros x Hx. apply Hmax. apply in_or_app. auto. }
      destruct (clear_skip _ _ _ Hs' Ht' E1) as (p & Hp & Hp').
      split; [|split; [|split; [|split]]].
      + split; [exact Hs|split; [exact Ht|]]. exists (hist ++ p). cbn. split.
        * rewrite HF, Hp at 1. apply app_assoc.
        * intros x Hx. apply in_app_or in Hx as [Hx|Hx]; auto.
      + eapply meas_ok_clear; eauto.
      + rewrite Hit. cbn [it_after_erase]. assert (has_key n (states a) = true) as ->; [|reflexivity].
        apply has_key_true. eapply top_clear in E1 as [[E1 _] _]; eauto. unfold buffer_age, second. lia.
      + repeat split; reflexivity.
      + reflexivity.
    - injection H as <-. cbn. split; [|repeat split; auto; apply HM]. exact HF.
  Qed.

  (** ** GetClosestState *)

  Hypothesis Hnum : forall v, numeric O v = true.

  Lemma bound_mid : forall {A} (L R : cont A) t,
    (forall x, In x L -> fst x < t) -> (forall x, In x R -> t < fst x) ->
    lower_bound t (L ++ R) = length L /\ upper_bound t (L ++ R) = length L /\
    forall a, insert_list t a (L ++ R) = L ++ (t, a) :: R.
  Proof.
    intros A. induction L as [|[k x] L IH]; intros R t HL HR.
    - destruct R as [|[k x] R]; cbn; [auto|].
      specialize (HR (k, x) (or_introl eq_refl)). cbn in HR.
      replace (k <? t) with false by lia. replace (k <=? t) with false by lia.
      replace (k =? t) with false by lia. auto.
    - destruct (IH R t) as (H1 & H2 & H3); [intros y Hy; apply HL; right; exact Hy|exact HR|].
      specialize (HL (k, x) (or_introl eq_refl)). cbn in *.
      replace (k <? t) with true by lia. replace (k <=? t) with true by lia.
      repeat split; [lia|lia|]. intros a. rewrite H3. reflexivity.
  Qed.

  Lemma upper_mid : forall {A} (L R : cont A) t,
    (forall x, In x L -> fst x <= t) -> (forall x, In x R -> t < fst x) ->
    upper_bound t (L ++ R) = length L.
  Proof.
    intros A. induction L as [|[k x] L IH]; intros R t HL HR.
    - destruct R as [|[k x] R]; cbn; [auto|].
      specialize (HR (k, x) (or_introl eq_refl)). cbn in HR. replace (k <=? t) with false by lia. reflexivity.
    - specialize (IH R t (fun y Hy => HL y (or_intror Hy)) HR).
      specialize (HL (k, x) (or_introl eq_refl)). cbn in *. replace (k <=? t) with true by lia. lia.
  Qed.

  Lemma GCS_tail : forall n M c2 A t s Y c3 os,
    full n c2 (A ++ (t, s) :: Y) -> n - buffer_age <= t ->
    meas_ok n M (meas c2) -> (forall x, In x M -> fst x <= n) -> it_last c2 = ItAt n ->
    (match GetValueAt (states c2) t with
      | None => UB
      | Some (_, s) =>
          if negb (numeric O (s_val s)) then Ok (c2, None)
          else
            let* c3 := if janitor c2 >? janitor_limit
                       then let* c' := CleanUpBuffers O d c2 in Ok (set_janitor O c' 0)
                       else Ok (set_janitor O c2 (janitor c2 + 1)) in
            Ok (c3, Some (t, s))
      end) = Ok (c3, os) ->
    os = Some (t, s) /\ full n c3 (A ++ (t, s) :: Y) /\ meas_ok n M (meas c3) /\
    it_last c3 = ItAt n /\ same c2 c3 /\ time_P c3 = time_P c2.
  Proof.
    intros n M c2 A t s Y c3 os HF Hge HM Hn Hit H.
    destruct (full_split _ _ _ _ _ _ HF Hge) as (hist & A' & HA & Hst & Hs & Hh).
    rewrite Hst, GetValueAt_mid in H by exact Hs. rewrite Hnum in H. cbn [negb] in H.
    inv_bind H. injection H as <- <-.
    destruct (cleanup_full _ _ _ _ _ HF HM Hn Hit E) as (H1 & H2 & H3 & H4 & H5).
    repeat split; auto; try apply H1; try apply H2; try apply H4.
  Qed.

  Lemma GCS_exact : forall n M c F c2 A t s Y c3 os,
    full n c F -> PropPToState O c t = Ok c2 -> full n c2 (A ++ (t, s) :: Y) ->
    keys F = keys (A ++ (t, s) :: Y) -> n - buffer_age <= t -> 0 < t ->
    meas_ok n M (meas c2) -> (forall x, In x M -> fst x <= n) -> it_last c2 = ItAt n ->
    GetClosestState O d c t = Ok (c3, os) ->
    os = Some (t, s) /\ full n c3 (A ++ (t, s) :: Y) /\ meas_ok n M (meas c3) /\
    it_last c3 = ItAt n /\ same c2 c3 /\ time_P c3 = time_P c2.
  Proof.
    intros n M c F c2 A t s Y c3 os HF HP HF2 Hk Hge Hpos HM Hn Hit H.
    assert (exists B s' Z0, F = B ++ (t, s') :: Z0) as (B & s' & Z0 & ->).
    { assert (In t (keys F)) as Hin.
      { rewrite Hk, keys_app. apply in_or_app. right. left. reflexivity. }
      apply in_keys_occupied in Hin as [s' Hin]. apply split_at_key in Hin as (B & Z0 & ->). eauto. }
    destruct (full_split _ _ _ _ _ _ HF Hge) as (hist & A' & HA & Hst & Hs & Hh).
    unfold GetClosestState in H. rewrite Hst in H.
    rewrite GetIteratorClosest_exact in H
      by (exists s'; apply in_or_app; right; left; reflexivity).
    rewrite find_pos_mid in H by exact Hs. cbn [bind] in H. unfold it_deref in H.
    rewrite nth_error_app2, Nat.sub_diag in H by lia. cbn [nth_error bind fst] in H.
    replace (t =? INVALID_TIME) with false in H by (unfold INVALID_TIME, second; lia).
    rewrite Z.sub_diag in H. cbn [Z.abs] in H.
    replace (0 >? thr_closest) with false in H by reflexivity. cbn [orb] in H.
    unfold interpolate in H. rewrite Z.sub_diag in H.
    replace (Z.abs 0 >? thr_interp) with false in H by reflexivity.
    rewrite HP in H. cbn [bind] in H.
    eapply GCS_tail; eauto.
  Qed.

  Lemma GCS_interp : forall n M c B tl sl tn sn Q tm c3 os,
    let F := B ++ (tl, sl) :: (tn, sn) :: Q in
    full n c F -> tl + thr_interp < tm -> tm + thr_interp < tn -> tm - tl <= thr_closest ->
    n - buffer_age <= tl -> 0 < tl -> time_P c = n ->
    s_acc sl = ra tl -> s_gyr sl = rg tl -> s_acc sn = ra tn -> s_gyr sn = rg tn ->
    lerp_acc O (ra tl) (ra tn) (tn - tl) (tm - tl) = ra tm ->
    lerp_gyr O (rg tl) (rg tn) (tn - tl) (tm - tl) = rg tm ->
    meas_ok n M (meas c) -> (forall x, In x M -> fst x <= n) -> it_last c = ItAt n ->
    GetClosestState O d c tm = Ok (c3, os) ->
    let s := predicted (tl, sl) tm in
    os = Some (tm, s) /\ full n c3 ((B ++ [(tl, sl)]) ++ (tm, s) :: (tn, sn) :: Q) /\
    meas_ok n M (meas c3) /\ it_last c3 = ItAt n /\ same c c3 /\ time_P c3 = tm.
  Proof.
    intros n M c B tl sl tn sn Q tm c3 os F HF H1 H2 H3 Hge Hpos HtP Eal Egl Ean Egn La Lg HM Hn Hit H s.
    unfold F in HF.
    destruct (full_split _ _ _ _ _ _ HF Hge) as (hist & B' & HB & Hst & Hs & Hh).
    assert (0 < thr_interp) as Hthr by (unfold thr_interp, second; cbn; lia).
    assert (forall x, In x (B' ++ [(tl, sl)]) -> fst x < tm) as HL.
    { intros x Hx. apply sorted_mid in Hs as (_ & _ & Hb & _).
      apply in_app_or in Hx as [Hx|[<-|[]]]; [apply Hb in Hx; lia|cbn; lia]. }
    assert (forall x, In x ((tn, sn) :: Q) -> tm < fst x) as HR.
    { intros x [<-|Hx]; [cbn; lia|].
      replace (B' ++ (tl, sl) :: (tn, sn) :: Q) with ((B' ++ [(tl, sl)]) ++ (tn, sn) :: Q) in Hs
        by (rewrite <- app_assoc; reflexivity).
      apply sorted_mid in Hs as (_ & _ & _ & Hq). apply Hq in Hx. lia. }
    assert (states c = (B' ++ [(tl, sl)]) ++ (tn, sn) :: Q) as Hst2 by (rewrite Hst, <- app_assoc; reflexivity).
    assert (time_sorted (states c)) as Hsc by (rewrite Hst; exact Hs).
    destruct (bound_mid _ _ tm HL HR) as (Elb & Eub & Ein).
    assert (length (B' ++ [(tl, sl)]) = S (length B')) as Elen by (rewrite app_length; cbn; lia).
    assert (nth_error (states c) (length B') = Some (tl, sl)) as Enl.
    { rewrite Hst, nth_error_app2, Nat.sub_diag by lia. reflexivity. }
    assert (nth_error (states c) (S (length B')) = Some (tn, sn)) as Enn.
    { rewrite Hst2, nth_error_app2 by lia. rewrite Elen, Nat.sub_diag. reflexivity. }
    unfold GetClosestState in H.
    assert (exists p e, GetIteratorClosest d (states c) tm = Ok p /\ nth_error (states c) p = Some e /\
              (e = (tl, sl) \/ (e = (tn, sn) /\ nearest (states c) tm e))) as (p & e & Ep & Ee & Hcase).
    { destruct (closest_pos d (states c) tm Hsc) as (p & e & Ep & Ee & Hp & Hnear).
      - rewrite Hst. destruct B'; discriminate.
      - rewrite Hst, app_length. cbn [length]. apply Hd. lia.
      - exists p, e. split; [exact Ep|]. split; [exact Ee|].
        rewrite Hst2, Elb, Elen in Hp. destruct Hp as [->|Hp].
        + right. rewrite Enn in Ee. injection Ee as <-. split; [reflexivity|]. destruct Hnear; [discriminate|assumption].
        + injection Hp as ->. left. rewrite Enl in Ee. congruence. }
    rewrite Ep in H. cbn [bind] in H. unfold it_deref in H. rewrite Ee in H. cbn [bind] in H.
    assert (0 < fst e /\ Z.abs (fst e - tm) <= thr_closest /\ Z.abs (fst e - tm) > thr_interp) as (He1 & He2 & He3).
    { destruct Hcase as [->|[-> [_ Hne]]]; cbn [fst]; [lia|].
      specialize (Hne (tl, sl)). cbn [fst] in Hne. 
      assert (In (tl, sl) (states c)) as Hin by (eapply nth_error_In; exact Enl).
      specialize (Hne Hin). lia. }
    replace (fst e =? INVALID_TIME) with false in H by (unfold INVALID_TIME, second; lia).
    replace (Z.abs (fst e - tm) >? thr_closest) with false in H by lia. cbn [orb] in H.
    unfold interpolate in H. replace (Z.abs (fst e - tm) >? thr_interp) with true in H by lia.
    assert (GetClosestBefore (states c) tm = Some (tl, sl)) as Eb.
    { unfold GetClosestBefore. destruct (states c) eqn:E; [destruct B'; discriminate|]. rewrite <- E in *.
      rewrite Hst2, Elb, Elen, <- Hst2. exact Enl. }
    assert (GetClosestAfter (states c) tm = Some (tn, sn)) as Ea.
    { unfold GetClosestAfter. rewrite Hst2, Eub, Elen, <- Hst2. exact Enn. }
    rewrite Eb, Ea, !Hnum in H.
    replace (tl =? INVALID_TIME) with false in H by (unfold INVALID_TIME, second; lia).
    replace (tn =? INVALID_TIME) with false in H by (unfold INVALID_TIME, second; lia).
    replace (tl =? tn) with false in H by lia. cbn [negb andb] in H.
    rewrite Eal, Egl, Ean, Egn, La, Lg in H.
    assert (tl < n) as Hln.
    { destruct HF as (_ & [_ Hmax] & _). 
      specialize (Hmax (tn, sn)). cbn [fst] in Hmax.
      assert (In (tn, sn) (B ++ (tl, sl) :: (tn, sn) :: Q)) as Hin
        by (apply in_or_app; right; right; left; reflexivity).
      specialize (Hmax Hin). lia. }
    replace (time_P c >? tl) with true in H by lia.
    cbn [Insert fst] in H.
    set (fresh := mkst (ra tm) (rg tm) (s_val sl) (cov_zero O)) in *.
    set (c1 := set_time_P O _ tl) in *.
    assert (states c1 = B' ++ (tl, sl) :: vals (tl, sl) [(tm, fresh)] ++ (tn, sn) :: Q) as Hst1.
    { unfold c1. cbn [states set_time_P set_states]. rewrite Hst2, Ein, <- app_assoc. reflexivity. }
    assert (full n c1 (B ++ (tl, sl) :: vals (tl, sl) [(tm, fresh)] ++ (tn, sn) :: Q)) as HF1.
    { destruct HF as (HsF & HtF & _).
      pose proof (sorted_mid _ _ _ _ HsF) as (_ & _ & HbF & _).
      replace (B ++ (tl, sl) :: (tn, sn) :: Q) with ((B ++ [(tl, sl)]) ++ (tn, sn) :: Q) in HsF, HtF
        by (rewrite <- app_assoc; reflexivity).
      assert (forall x, In x (B ++ [(tl, sl)]) -> fst x < tm) as HLF.
      { intros x Hx. apply in_app_or in Hx as [Hx|[<-|[]]]; [apply HbF in Hx; lia|cbn; lia]. }
      destruct (bound_mid _ _ tm HLF HR) as (_ & _ & EinF).
      specialize (EinF (prop_val O tl sl tm fresh)).
      assert (B ++ (tl, sl) :: vals (tl, sl) [(tm, fresh)] ++ (tn, sn) :: Q =
              insert_list tm (prop_val O tl sl tm fresh) ((B ++ [(tl, sl)]) ++ (tn, sn) :: Q)) as EF.
      { rewrite EinF, <- app_assoc. reflexivity. }
      split; [rewrite EF; apply insert_list_sorted; exact HsF|].
      split.
      - rewrite EF. replace n with (Z.max n tm).
        + apply top_insert; assumption.
        + destruct HtF as [_ Hmax]. specialize (Hmax (tn, sn)). cbn [fst] in Hmax.
          assert (tn <= n) by (apply Hmax; apply in_or_app; right; left; reflexivity). lia.
      - exists hist. rewrite Hst1, HB, <- app_assoc. auto. }
    destruct (PropP_full n c1 B (tl, sl) [(tm, fresh)] ((tn, sn) :: Q) tm HF1) as
      (c2 & EP & HF2 & HP2 & Hsame & Hm2 & Hit2); auto.
    { intros x [<-|[]]. cbn. lia. }
    { intros t' s' [E|[]]. injection E as <- <-. split; reflexivity. }
    rewrite EP in H. cbn [bind] in H.
    cbn [keys map fst preds app last] in HF2, HP2.
    fold s in HF2.
    assert (full n c2 ((B ++ [(tl, sl)]) ++ (tm, s) :: (tn, sn) :: Q)) as HF2'.
    { rewrite <- app_assoc. exact HF2. }
    eapply GCS_tail in H as (-> & G1 & G2 & G3 & G4 & G5);
      [|exact HF2'|lia|rewrite Hm2; exact HM|exact Hn|rewrite Hit2; exact Hit].
    split; [reflexivity|]. split; [exact G1|]. split; [exact G2|]. split; [exact G3|].
    split; [|congruence]. eapply same_trans; [|exact G4]. exact Hsame.
  Qed.

  (** ** One measurement *)

  Hypothesis Happly : forall m g v P, exists r g',
    apply_meas O m g v P = (r, fst (fuse m v P), snd (fuse m v P), g') /\
    (r = false -> fuse m v P = (v, P)).

  (** The update of [m] is never refused. *)
  Definition never_refused (m : Meas O) : Prop :=
    forall g v P, fst (fst (fst (apply_meas O m g v P))) = true.

  Definition fuse_st (m : Meas O) (s : st) : st :=
    mkst (s_acc s) (s_gyr s) (fst (fuse m (s_val s) (s_cov s))) (snd (fuse m (s_val s) (s_cov s))).

  Lemma split_le : forall {A} (Y : cont A) t, time_sorted Y ->
    exists Y1 Y2, Y = Y1 ++ Y2 /\ (forall y, In y Y1 -> fst y <= t) /\ (forall y, In y Y2 -> t < fst y).
  Proof.
    intros A. induction Y as [|[k x] Y IH]; intros t Hs.
    - exists [], []. repeat split; intros ? [].
    - apply sorted_cons_inv in Hs as [Hs Hf]. destruct (Z_le_gt_dec k t) as [Hle|Hgt].
      + destruct (IH t Hs) as (Y1 & Y2 & -> & H1 & H2). exists ((k, x) :: Y1), Y2.
        repeat split; auto. intros y [<-|Hy]; [exact Hle|auto].
      + exists [], ((k, x) :: Y). repeat split; [intros ? []|].
        intros [k' x'] [E|Hy]; [injection E as <- <-; cbn; lia|]. specialize (Hf _ _ Hy). cbn. lia.
  Qed.

  Definition beyond (rest : list (Z * Meas O)) (Y : cont st) : Prop :=
    match rest with [] => Y = [] | (tn, _) :: _ => forall y, In y Y -> tn < fst y end.

  Lemma apply_step : forall n c1 A t s Y m rest applied c' b,
    full n c1 (A ++ (t, s) :: Y) -> n - buffer_age <= t -> 0 < t ->
    (forall tn mn r, rest = (tn, mn) :: r -> t < tn) ->
    (if negb (has_key t (meas c1)) then UB
     else if t <=? 0 then Ok (c1, applied)
     else
       let c2 := apply_at O c1 m t s in
       let pc := GetIteratorAtValue (states c2) t in
       let* pe := match rest with
                  | [] => Ok (pos_end (states c2))
                  | (tn, _) :: _ =>
                      let p := GetIteratorClosestAfter (states c2) tn in
                      if (p =? pos_end (states c2))%nat then Ok p
                      else it_inc (states c2) p
                  end in
       let* pn := it_inc (states c2) pc in
       match skipn pc (states c2) with
       | [] => UB
       | (told, sold) :: rest_s =>
           let* rest' := reprop O pc pe told sold rest_s in
           Ok (set_states O c2 (firstn pc (states c2) ++ (told, sold) :: rest'), true)
       end) = Ok (c', b) ->
    b = true /\
    exists r X Y', Y = X ++ Y' /\ beyond rest Y' /\
      full n c' (A ++ (t, fuse_st m s) :: vals (t, fuse_st m s) X ++ Y') /\
      time_P c' = (if r : bool then t else time_P c1) /\ (r = false -> fuse m (s_val s) (s_cov s) = (s_val s, s_cov s)) /\
      (never_refused m -> r = true) /\
      same c1 c' /\ meas c' = meas c1 /\ it_last c' = it_last c1.
  Proof.
    intros n c1 A t s Y m rest applied c' b HF Hge Hpos Hrest H.
    destruct (full_split _ _ _ _ _ _ HF Hge) as (hist & A' & HA & Hst & Hs & Hh).
    destruct (negb _); [discriminate|]. replace (t <=? 0) with false in H by lia.
    destruct (Happly m (glob c1) (s_val s) (s_cov s)) as (r & g' & Ea & Er).
    cbv zeta in H. set (c2 := apply_at O c1 m t s) in *.
    assert (states c2 = A' ++ (t, fuse_st m s) :: Y) as Hst2.
    { unfold c2, apply_at. rewrite Ea. destruct r; cbn [states set_time_P set_glob set_states]; rewrite Hst;
        apply upd_key_mid; exact Hs. }
    assert (time_P c2 = (if r then t else time_P c1)) as HP2.
    { unfold c2, apply_at. rewrite Ea. destruct r; reflexivity. }
    assert (same c1 c2 /\ meas c2 = meas c1 /\ it_last c2 = it_last c1) as Hsame2.
    { unfold c2, apply_at. rewrite Ea. destruct r; repeat split; reflexivity. }
    clearbody c2.
    assert (time_sorted (A' ++ (t, fuse_st m s) :: Y)) as Hs2.
    { eapply sorted_same_keys; [|exact Hs]. unfold keys. rewrite !map_app. reflexivity. }
    rewrite Hst2, AtValue_mid, skipn_mid, firstn_mid in H by exact Hs2.
    pose proof (sorted_mid _ _ _ _ Hs2) as (_ & HsY & HltA & HltY).
    assert (exists X Y' pe, Y = X ++ Y' /\ beyond rest Y' /\ (pe - S (length A') = length X)%nat /\
       (length A' < pe)%nat /\
       match rest with
       | [] => Ok (pos_end (A' ++ (t, fuse_st m s) :: Y))
       | (tn, _) :: _ =>
           let p := GetIteratorClosestAfter (A' ++ (t, fuse_st m s) :: Y) tn in
           if (p =? pos_end (A' ++ (t, fuse_st m s) :: Y))%nat then Ok p
           else it_inc (A' ++ (t, fuse_st m s) :: Y) p
       end = Ok pe) as (X & Y' & pe & EY & Hb & Hpe & Hlt & Epe).
    { destruct rest as [|[tn mn] rest'].
      - exists Y, [], (pos_end (A' ++ (t, fuse_st m s) :: Y)). rewrite app_nil_r. repeat split; unfold pos_end;
          rewrite app_length; cbn [length]; lia.
      - specialize (Hrest _ _ _ eq_refl).
        destruct (split_le Y tn HsY) as (Y1 & Y2 & EY & H1 & H2).
        assert (upper_bound tn (A' ++ (t, fuse_st m s) :: Y) = length A' + S (length Y1))%nat as Eub.
        { replace (A' ++ (t, fuse_st m s) :: Y) with ((A' ++ (t, fuse_st m s) :: Y1) ++ Y2)
            by (rewrite EY, <- app_assoc; reflexivity).
          rewrite upper_mid; [rewrite app_length; reflexivity| |exact H2].
          intros x Hx. apply in_app_or in Hx as [Hx|[<-|Hx]]; [apply HltA in Hx; lia|cbn; lia|auto]. }
        cbv zeta. unfold GetIteratorClosestAfter, pos_end, it_inc. rewrite Eub, app_length. cbn [length].
        rewrite EY, app_length. destruct Y2 as [|y Y2].
        + exists Y1, [], (length A' + S (length Y1))%nat. cbn [length].
          replace (_ =? _)%nat with true by lia. repeat split; try lia; try (intros ? []); reflexivity.
        + exists (Y1 ++ [y]), Y2, (S (length A' + S (length Y1)))%nat. cbn [length].
          replace (_ =? _)%nat with false by lia. replace (_ <? _)%nat with true by lia.
          rewrite <- app_assoc, app_length. cbn [length]. repeat split; try lia; try reflexivity.
          intros x Hx. apply H2. right. exact Hx. }
    cbv zeta in Epe. rewrite Epe in H. cbn [bind] in H. unfold it_inc in H. rewrite app_length in H. cbn [length] in H.
    replace (length A' <? length A' + S (length Y))%nat with true in H by lia. cbn [bind] in H.
    inv_bind H. injection H as <- <-. split; [reflexivity|].
    apply reprop_vals in E; [|lia|unfold INVALID_TIME, second; lia|
      intros x Hx; apply HltY in Hx; unfold INVALID_TIME, second; lia].
    rewrite Hpe, EY, firstn_app, skipn_app, firstn_all, skipn_all, Nat.sub_diag, app_nil_r in E.
    cbn [firstn skipn app] in E. 
    exists r, X, Y'. split; [exact EY|]. split; [exact Hb|]. split.
    { eapply full_change; [exact HF|exact HA|exact Hh|cbn [states set_states]; rewrite E; reflexivity|].
      cbn [keys map fst]. f_equal. fold (keys Y). fold (keys (vals (t, fuse_st m s) X ++ Y')).
      rewrite keys_app, vals_keys, <- keys_app, EY. reflexivity. }
    split; [exact HP2|]. split; [exact Er|]. split; [|exact Hsame2].
    intros Hr. specialize (Hr (glob c1) (s_val s) (s_cov s)). rewrite Ea in Hr. exact Hr.
  Qed.

  Lemma lookup_In : forall M t m, NoDup (map fst M) -> In (t, m) M -> lookup M t = Some m.
  Proof.
    intros M t m. unfold BatchSpec.lookup. induction M as [|[k x] M IH]; intros Hn Hin; [destruct Hin|].
    cbn in Hn. apply NoDup_cons_iff in Hn as [Hk Hn]. cbn [find fst]. destruct (k =? t) eqn:E.
    - destruct Hin as [Hin|Hin]; [congruence|]. exfalso. apply Hk. apply in_map_iff. exists (t, m). split; [cbn; lia|exact Hin].
    - destruct Hin as [Hin|Hin]; [injection Hin as -> ->; lia|]. apply IH; assumption.
  Qed.
  Lemma lookup_none : forall M t, ~ In t (map fst M) -> lookup M t = None.
  Proof.
    intros M t. unfold BatchSpec.lookup. induction M as [|[k x] M IH]; intros Hin; [reflexivity|].
    cbn [find fst]. destruct (k =? t) eqn:E; [exfalso; apply Hin; left; cbn; lia|].
    apply IH. intros Hi. apply Hin. right. exact Hi.
  Qed.
  Lemma fused_In : forall M t m s, NoDup (map fst M) -> In (t, m) M -> fused M t s = fuse_st m s.
  Proof. intros M t m s Hn Hin. unfold BatchSpec.fused. rewrite (lookup_In _ _ _ Hn Hin). reflexivity. Qed.

  Lemma rd_ok_app : forall X Y, rd_ok (X ++ Y) <-> rd_ok X /\ rd_ok Y.
  Proof.
    intros X Y. unfold rd_ok. split.
    - intros H. split; intros t s Hin; apply H; apply in_or_app; auto.
    - intros [H1 H2] t s Hin. apply in_app_or in Hin as [Hin|Hin]; auto.
  Qed.

  Lemma full_top : forall n c F, full n c F -> time_sorted (states c) /\ top (states c) n.
  Proof.
    intros n c F (Hs & [[s Hin] Hmax] & hist & -> & Hh). split; [apply sorted_app in Hs; tauto|].
    split.
    - apply in_app_or in Hin as [Hin|Hin]; [|exists s; exact Hin].
      specialize (Hh _ Hin). cbn [fst] in Hh. unfold buffer_age, second in Hh. lia.
    - intros x Hx. apply Hmax. apply in_or_app. auto.
  Qed.

  (** ** The measurement loop *)

  Section Loop.
    Variables (n : Z) (M : list (Z * Meas O)) (s0 : st) (G : list Z).
    Hypothesis HMn : forall x, In x M -> fst x <= n.
    Hypothesis HMd : NoDup (map fst M).
    Hypothesis HMG : forall x, In x M -> In (fst x) G.

    Definition pending (t : Z) (todo : list (Z * Meas O)) : Prop :=
      time_sorted todo /\ forall x, In x todo <-> In x M /\ t < fst x.

    Definition between (c : core) (todo : list (Z * Meas O)) : Prop :=
      exists A e X Y, full n c (A ++ e :: vals e X ++ Y) /\ n - buffer_age <= fst e /\ 0 < fst e /\
        time_P c = fst e /\ rd_ok (X ++ Y) /\ beyond todo Y /\
        plain M s0 G = A ++ e :: filter_from M e (keys (X ++ Y)) /\
        pending (fst e) todo /\ meas_ok n M (meas c) /\ it_last c = ItAt n.

    Lemma enter_between : forall c1 A t s Y m rest applied c' b,
      full n c1 (A ++ (t, s) :: Y) -> n - buffer_age <= t -> 0 < t -> rd_ok Y ->
      plain M s0 G = A ++ (t, fused M t s) :: filter_from M (t, fused M t s) (keys Y) ->
      In (t, m) M -> pending t rest -> meas_ok n M (meas c1) -> it_last c1 = ItAt n ->
      (time_P c1 = t \/ never_refused m) ->
      (if negb (has_key t (meas c1)) then UB
       else if t <=? 0 then Ok (c1, applied)
       else
         let c2 := apply_at O c1 m t s in
         let pc := GetIteratorAtValue (states c2) t in
         let* pe := match rest with
                    | [] => Ok (pos_end (states c2))
                    | (tn, _) :: _ =>
                        let p := GetIteratorClosestAfter (states c2) tn in
                        if (p =? pos_end (states c2))%nat then Ok p
                        else it_inc (states c2) p
                    end in
         let* pn := it_inc (states c2) pc in
         match skipn pc (states c2) with
         | [] => UB
         | (told, sold) :: rest_s =>
             let* rest' := reprop O pc pe told sold rest_s in
             Ok (set_states O c2 (firstn pc (states c2) ++ (told, sold) :: rest'), true)
         end) = Ok (c', b) ->
      b = true /\ between c' rest /\ same c1 c'.
    Proof.
      intros c1 A t s Y m rest applied c' b HF Hge Hpos Hr Hpl Hin Hpend HM Hit Hor H.
      eapply apply_step in H as (-> & r & X & Y' & EY & Hb & HF' & HP & Hr0 & Hr1 & Hsame & Hm & Hit');
        [|exact HF|exact Hge|exact Hpos|].
      - subst Y. split; [reflexivity|]. split; [|exact Hsame].
        rewrite (fused_In _ _ _ s HMd Hin) in Hpl.
        exists A, (t, fuse_st m s), X, Y'. cbn [fst]. repeat (split; [assumption|]).
        split; [destruct r; [exact HP|destruct Hor as [Hor|Hor]; [congruence|specialize (Hr1 Hor); congruence]]|].
        split; [assumption|]. split; [assumption|]. split; [assumption|]. split; [assumption|].
        split; congruence.
      - intros tn mn r ->. destruct Hpend as [_ Hp]. destruct (Hp (tn, mn)) as [Hp' _].
        apply Hp'. left. reflexivity.
    Qed.

    Lemma preds_last : forall X t e, exists e', preds e (X ++ [t]) = preds e X ++ [(t, predicted e' t)] /\
      e' = last (preds e X) e.
    Proof. intros X t e. rewrite preds_app. eexists. split; reflexivity. Qed.

    Lemma filter_preds : forall X t Y e,
      (forall x, In x X -> lookup M x = None) ->
      filter_from M e (X ++ t :: Y) =
      let s := predicted (last (preds e X) e) t in
      preds e X ++ (t, fused M t s) :: filter_from M (t, fused M t s) Y.
    Proof.
      induction X as [|x X IH]; intros t Y e H; [reflexivity|].
      cbn [app BatchSpec.filter_from preds]. unfold BatchSpec.fused at 1 2.
      rewrite (H x (or_introl eq_refl)), IH by (intros y Hy; apply H; right; exact Hy).
      cbv zeta. rewrite last_cons. reflexivity.
    Qed.

    Lemma loop_between : forall todo c applied c' b,
      between c todo -> (todo = [] -> applied = true) -> meas_loop O d c todo applied = Ok (c', b) ->
      b = true /\ between c' [] /\ same c c'.
    Proof.
      induction todo as [|[tn mn] rest IH]; intros c applied c' b Hbt Happ H; cbn [meas_loop] in H.
      { injection H as <- <-. split; [auto|]. split; [exact Hbt|apply same_refl]. }
      destruct Hbt as (A & [te se] & X & Y & HF & Hge & Hpos & HP & Hrd & Hb & Hpl & [Hps Hpe] & HM & Hit).
      cbn [fst] in *.
      destruct (proj1 (Hpe (tn, mn)) (or_introl eq_refl)) as [HinM Hlt]. cbn [fst] in Hlt.
      (* the state of the measurement *)
      assert (In tn (keys X)) as HinX.
      { pose proof (HMG _ HinM) as HG. cbn [fst] in HG.
        rewrite <- (plain_keys M s0 G), Hpl, keys_app in HG. cbn [keys map fst] in HG.
        fold (keys (filter_from M (te, se) (keys (X ++ Y)))) in HG.
        rewrite filter_keys, keys_app in HG.
        apply in_app_or in HG as [HG|[HG|HG]].
        - exfalso. destruct HF as (Hs & _). pose proof (sorted_mid _ _ _ _ Hs) as (_ & _ & Hs1 & _).
          apply in_keys_occupied in HG as [z Hz]. apply Hs1 in Hz. cbn in Hz. lia.
        - lia.
        - apply in_app_or in HG as [HG|HG]; [exact HG|].
          apply in_keys_occupied in HG as [z Hz]. apply Hb in Hz. cbn in Hz. lia. }
      apply in_keys_occupied in HinX as [z Hz]. apply split_at_key in Hz as (X1 & X2 & EX).
      (* order *)
      assert (time_sorted ((te, se) :: X1 ++ (tn, z) :: X2)) as HsX.
      { destruct HF as (Hs & _). apply sorted_app in Hs as (_ & Hs & _).
        change ((te, se) :: vals (te, se) X ++ Y) with (((te, se) :: vals (te, se) X) ++ Y) in Hs.
        apply sorted_app in Hs as (Hs & _ & _). eapply sorted_same_keys; [|exact Hs].
        cbn. f_equal. fold (keys (X1 ++ (tn, z) :: X2)). fold (keys (vals (te, se) X)). rewrite vals_keys, EX. reflexivity. }
      assert (forall x, In x X1 -> te < fst x /\ fst x < tn) as HX1.
      { apply sorted_cons_inv in HsX as [HsX Hf]. intros [k y] Hy. cbn. split.
        - apply (Hf k y). apply in_or_app. auto.
        - apply sorted_mid in HsX as (_ & _ & Hx & _). apply (Hx (k, y) Hy). }
      assert (forall x, In x X2 -> tn < fst x) as HX2.
      { apply sorted_cons_inv in HsX as [HsX Hf]. apply sorted_mid in HsX as (_ & _ & _ & Hx). exact Hx. }
      assert (forall x, In x (keys X1) -> lookup M x = None) as Hnone.
      { intros x Hx. apply lookup_none. intros Hin. apply in_map_iff in Hin as ([k mk] & E & Hin). cbn in E. subst k.
        apply in_keys_occupied in Hx as [y Hy]. apply HX1 in Hy as [Hy1 Hy2]. cbn in Hy1, Hy2.
        assert (In (x, mk) ((tn, mn) :: rest)) as Hin2 by (apply Hpe; split; assumption).
        destruct Hin2 as [E|Hin2]; [injection E as -> _; lia|].
        apply sorted_cons_inv in Hps as [_ Hf]. specialize (Hf _ _ Hin2). lia. }
      (* the buffer *)
      set (Y2 := vals (last (vals (te, se) (X1 ++ [(tn, z)])) (te, se)) X2 ++ Y).
      assert (full n c (A ++ (te, se) :: vals (te, se) (X1 ++ [(tn, z)]) ++ Y2)) as HF1.
      { rewrite EX in HF. replace (X1 ++ (tn, z) :: X2) with ((X1 ++ [(tn, z)]) ++ X2) in HF
          by (rewrite <- app_assoc; reflexivity).
        rewrite vals_app, <- app_assoc in HF. exact HF. }
      assert (keys Y2 = keys X2 ++ keys Y) as HkY2 by (unfold Y2; rewrite keys_app, vals_keys; reflexivity).
      assert (rd_ok X1 /\ rd_ok [(tn, z)] /\ rd_ok X2 /\ rd_ok Y) as (Hrd1 & Hrdz & Hrd2 & HrdY).
      { rewrite EX in Hrd. replace ((X1 ++ (tn, z) :: X2) ++ Y) with (X1 ++ [(tn, z)] ++ X2 ++ Y) in Hrd
          by (rewrite <- app_assoc; reflexivity).
        rewrite !rd_ok_app in Hrd. tauto. }
      assert (forall y, In y Y2 -> tn < fst y) as HY2.
      { intros [k y] Hy. assert (In k (keys Y2)) as Hk by (apply in_map_iff; exists (k, y); auto).
        rewrite HkY2 in Hk. apply in_app_or in Hk as [Hk|Hk]; apply in_keys_occupied in Hk as [w Hw].
        - apply HX2 in Hw. exact Hw.
        - apply Hb in Hw. exact Hw. }
      destruct (PropP_full n c A (te, se) (X1 ++ [(tn, z)]) Y2 tn HF1 Hge HP) as
        (c2 & EP & HF2 & HP2 & Hsame2 & Hm2 & Hit2).
      { intros x Hx. apply in_app_or in Hx as [Hx|[<-|[]]]; [apply HX1 in Hx; lia|cbn; lia]. }
      { exact HY2. }
      { apply rd_ok_app. auto. }
      rewrite keys_app in HF2, HP2. cbn [keys map fst] in HF2, HP2. fold (keys X1) in HF2, HP2.
      destruct (preds_last (keys X1) tn (te, se)) as (el & Epl & Eel).
      rewrite Epl in HF2. rewrite last_last in HP2.
      set (s := predicted el tn) in *.
      assert (full n c2 ((A ++ (te, se) :: preds (te, se) (keys X1)) ++ (tn, s) :: Y2)) as HF2'.
      { rewrite <- app_assoc. cbn [app]. rewrite <- app_assoc in HF2. exact HF2. }
      (* this measurement *)
      inv_bind H. destruct a as [c4 a4]. unfold meas_body in E.
      replace (tn <=? 0) with false in E by lia.
      inv_bind E. destruct a as [c3 os].
      eapply GCS_exact in E0 as (Eos & HF3 & HM3 & Hit3 & Hsame3 & HP3);
        [|exact HF|exact EP|exact HF2'| |lia|lia|rewrite Hm2; exact HM|exact HMn|rewrite Hit2; exact Hit].
      2:{ rewrite !keys_app. cbn [keys map fst]. rewrite !map_app. cbn [map fst].
          fold (keys (vals (te, se) X)). fold (keys (preds (te, se) (keys X1))). fold (keys Y). fold (keys Y2).
          rewrite vals_keys, preds_keys, HkY2, EX, keys_app. cbn [keys map fst]. rewrite <- !app_assoc. reflexivity. }
      subst os. eapply enter_between in E as (-> & Hbt & Hsame4).
      - eapply IH in H as (-> & Hfin & Hsame5); [|exact Hbt|auto].
        split; [reflexivity|]. split; [exact Hfin|].
        eapply same_trans; [exact Hsame2|]. eapply same_trans; [exact Hsame3|].
        eapply same_trans; [exact Hsame4|exact Hsame5].
      - exact HF3.
      - lia.
      - lia.
      - unfold Y2. apply rd_ok_app. split; [apply vals_rd; exact Hrd2|exact HrdY].
      - rewrite Hpl, EX. rewrite keys_app, keys_app. cbn [keys map fst]. fold (keys X2).
        rewrite <- app_assoc. cbn [app]. rewrite filter_preds by exact Hnone. cbv zeta.
        rewrite <- Eel. fold s. rewrite HkY2, <- app_assoc. reflexivity.
      - exact HinM.
      - split; [apply sorted_cons_inv in Hps; tauto|]. intros [k x]. split.
        + intros Hx. split; [apply Hpe; right; exact Hx|].
          apply sorted_cons_inv in Hps as [_ Hf]. apply (Hf _ _ Hx).
        + intros [Hx Hgt]. cbn [fst] in Hgt. assert (In (k, x) ((tn, mn) :: rest)) as Hin by (apply Hpe; cbn [fst]; split; [exact Hx|lia]).
          destruct Hin as [E1|Hin]; [injection E1 as -> _; lia|exact Hin].
      - exact HM3.
      - exact Hit3.
      - left. congruence.
    Qed.

    (** After the loop the covariances are brought to the newest state. *)
    Lemma final_between : forall c, between c [] ->
      exists c', PropPToState O c n = Ok c' /\ full n c' (plain M s0 G) /\ time_P c' = n /\ same c c' /\
        meas_ok n M (meas c') /\ it_last c' = ItAt n.
    Proof.
      intros c (A & e & X & Y & HF & Hge & Hpos & HP & Hrd & Hb & Hpl & [_ Hpe] & HM & Hit).
      cbn in Hb. subst Y. rewrite app_nil_r in *.
      assert (forall x, In x X -> fst e < fst x /\ fst x <= n) as HX.
      { intros [k y] Hy. assert (In k (keys (vals e X))) as Hk.
        { rewrite vals_keys. apply in_map_iff. exists (k, y). auto. }
        apply in_keys_occupied in Hk as [w Hw]. destruct HF as (Hs & [_ Hmax] & _). split.
        - destruct e as [te se]. pose proof (sorted_mid _ _ _ _ Hs) as (_ & _ & _ & Hx). apply (Hx _ Hw).
        - apply (Hmax (k, w)). apply in_or_app. right. right. exact Hw. }
      rewrite <- (app_nil_r (vals e X)) in HF.
      destruct (PropP_full n c A e X [] n HF Hge HP) as (c2 & EP & HF2 & HP2 & Hsame2 & Hm2 & Hit2); auto.
      { intros x Hx. apply HX in Hx. lia. }
      { intros y []. }
      exists c2. split; [exact EP|]. rewrite app_nil_r in HF2.
      split.
      { rewrite Hpl, filter_none; [exact HF2|]. intros t Ht. apply lookup_none. intros Hin.
        apply in_map_iff in Hin as (x & E & Hin). subst t.
        apply in_keys_occupied in Ht as [y Hy]. apply HX in Hy as [Hy _]. cbn in Hy.
        destruct (proj2 (Hpe x)). split; assumption. }
      split.
      { rewrite HP2. destruct HF2 as (Hs & Ht & _).
        rewrite <- (top_last _ _ Hs Ht). destruct X as [|x X _] using rev_ind.
        - cbn. rewrite GetLast_app. destruct e; reflexivity.
        - rewrite keys_app. cbn [keys map]. rewrite last_last.
          destruct (preds_last (keys X) (fst x) e) as (e' & E & _). rewrite E.
          change (A ++ e :: preds e (keys X) ++ [(fst x, predicted e' (fst x))]) with
                 (A ++ (e :: preds e (keys X)) ++ [(fst x, predicted e' (fst x))]).
          rewrite app_assoc, GetLast_app. reflexivity. }
      split; [exact Hsame2|]. split; [rewrite Hm2; exact HM|congruence].
    Qed.
  End Loop.

  (** ** AddMeasurement *)

  Variables (t0 : Z) (s0 : st).
  Hypothesis Hra : s_acc s0 = ra t0.
  Hypothesis Hrg : s_gyr s0 = rg t0.

  Lemma fused_rd : forall M t s, s_acc (fused M t s) = s_acc s /\ s_gyr (fused M t s) = s_gyr s.
  Proof. intros M t s. unfold BatchSpec.fused. destruct (lookup M t); split; reflexivity. Qed.
  Lemma filter_rd : forall M l e, rd_ok (filter_from M e l).
  Proof.
    intros M. induction l as [|t l IH]; intros e t' s' Hin; [destruct Hin|].
    cbn [BatchSpec.filter_from] in Hin. destruct Hin as [E|Hin]; [|exact (IH _ _ _ Hin)].
    injection E as <- <-. destruct (fused_rd M t (predicted e t)) as [-> ->]. destruct e. split; reflexivity.
  Qed.
  Lemma plain_rd : forall M l, rd_ok (plain M s0 (t0 :: l)).
  Proof.
    intros M l t s Hin. cbn [plain_filter] in Hin. destruct Hin as [E|Hin]; [|exact (filter_rd _ _ _ _ _ Hin)].
    injection E as <- <-. destruct (fused_rd M t0 s0) as [-> ->]. auto.
  Qed.

  Lemma vals_preds : forall l e, vals e (preds e l) = preds e l.
  Proof.
    induction l as [|t l IH]; intros [te se]; [reflexivity|]. cbn [preds vals fst snd].
    assert (prop_val O te se t (predicted (te, se) t) = predicted (te, se) t) as -> by reflexivity.
    f_equal. apply IH.
  Qed.

  Lemma lookup_app_other : forall M t m t', t' <> t -> lookup (M ++ [(t, m)]) t' = lookup M t'.
  Proof.
    intros M t m t' Hne. unfold BatchSpec.lookup. induction M as [|[k x] M IH]; cbn.
    - replace (t =? t') with false by lia. reflexivity.
    - destruct (k =? t'); [reflexivity|exact IH].
  Qed.

  Definition binv (n : Z) (M : list (Z * Meas O)) (F : cont st) (c : core) : Prop :=
    full n c F /\ F = plain M s0 (keys F) /\ (exists r, keys F = t0 :: r) /\
    (forall x, In x F -> 0 < fst x) /\ time_P c = n /\ it_last c = ItAt n /\
    meas_ok n M (meas c) /\ NoDup (map fst M) /\ (forall x, In x M -> In (fst x) (keys F)).

  (** A measurement at a stored state's time, or well between two. *)
  Definition placed (ks : list Z) (tm : Z) : Prop :=
    In tm ks \/
    ((forall k, In k ks -> thr_interp < Z.abs (k - tm)) /\
     (exists k, In k ks /\ tm - thr_closest <= k /\ k < tm) /\
     (forall tl tn, In tl ks -> In tn ks -> tl < tm -> tm < tn ->
        (forall k, In k ks -> k <= tl \/ tn <= k) ->
        lerp_acc O (ra tl) (ra tn) (tn - tl) (tm - tl) = ra tm /\
        lerp_gyr O (rg tl) (rg tn) (tn - tl) (tm - tl) = rg tm)).

  Lemma binv_rd : forall n M F c, binv n M F c -> rd_ok F.
  Proof. intros n M F c (_ & E & [r Hr] & _). rewrite E, Hr. apply plain_rd. Qed.

  Lemma insert_meas : forall n M ms tm m,
    meas_ok n M ms -> ~ In tm (map fst M) -> n - buffer_age <= tm ->
    exists L R, insert_list tm m ms = L ++ (tm, m) :: R /\ meas_ok n (M ++ [(tm, m)]) (L ++ (tm, m) :: R) /\
      pending (M ++ [(tm, m)]) tm R /\ find_pos tm (L ++ (tm, m) :: R) = length L.
  Proof.
    intros n M ms tm m (Hs & H1 & H2) Hnew Hge.
    assert (~ occupied ms tm) as Hfree.
    { intros [x Hx]. apply Hnew. apply in_map_iff. exists (tm, x). split; [reflexivity|auto]. }
    destruct (insert_list_split ms tm m Hs Hfree) as (L & R & E & Ei & HL & HR).
    exists L, R. split; [exact Ei|].
    assert (time_sorted (L ++ (tm, m) :: R)) as Hs' by (rewrite <- Ei; apply insert_list_sorted; exact Hs).
    split; [|split].
    - split; [exact Hs'|]. split.
      + intros x Hx. apply in_app_or in Hx as [Hx|[<-|Hx]]; apply in_or_app.
        * left. apply H1. rewrite E. apply in_or_app. auto.
        * right. left. reflexivity.
        * left. apply H1. rewrite E. apply in_or_app. auto.
      + intros x Hx Hgx. apply in_app_or in Hx as [Hx|[<-|[]]]; [|apply in_or_app; right; left; reflexivity].
        specialize (H2 x Hx Hgx). rewrite E in H2. apply in_app_or in H2 as [H2|H2]; apply in_or_app; [auto|right; right; exact H2].
    - split; [apply sorted_mid in Hs'; tauto|]. intros x. split.
      + intros Hx. split; [|apply HR; exact Hx]. apply in_or_app. left. apply H1. rewrite E. apply in_or_app. auto.
      + intros [Hx Hlt]. apply in_app_or in Hx as [Hx|[<-|[]]]; [|cbn in Hlt; lia].
        assert (In x ms) as Hxm by (apply H2; [exact Hx|lia]). rewrite E in Hxm.
        apply in_app_or in Hxm as [Hxm|Hxm]; [|exact Hxm]. apply HL in Hxm. lia.
    - apply find_pos_mid. exact Hs'.
  Qed.

  Lemma add_batch : forall n M F c tm m c' ev,
    binv n M F c -> initialized c = true -> predictionMade c = true ->
    0 < tm -> tm <= n -> n <= tm + late_limit -> ~ In tm (map fst M) ->
    placed (keys F) tm -> (never_refused m \/ forall x, In x M -> fst x < tm) ->
    AddMeasurement O d c tm m = Ok (c', ev) ->
    exists F' s, binv n (M ++ [(tm, m)]) F' c' /\
      (forall t, In t (keys F') <-> In t (keys F) \/ t = tm) /\ same c c' /\
      In (n, s) F' /\ ev = [PubUpdate n s].
  Proof.
    intros n M F c tm m c' ev HB Hini Hpm Hpos Hle Hlate Hnew Hpl Hord H.
    pose proof (binv_rd _ _ _ _ HB) as Hrd.
    destruct HB as (HF & HFp & [r0 Hr0] & Hkp & HP & Hit & HM & HMd & HMF).
    assert (n - buffer_age <= tm - thr_closest) as Hage
      by (unfold late_limit in Hlate; lia).
    assert (0 < thr_closest /\ 0 < thr_interp) as [Hth1 Hth2] by (unfold thr_closest, thr_interp, second; cbn; lia).
    set (M' := M ++ [(tm, m)]).
    assert (NoDup (map fst M')) as HMd'.
    { unfold M'. rewrite map_app. cbn [map fst]. apply NoDup_Add with (a := tm) (l := map fst M).
      - rewrite <- (app_nil_r (map fst M)) at 1. apply Add_app.
      - split; assumption. }
    assert (forall x, In x M -> fst x <= n) as HMn.
    { intros x Hx. apply HMF in Hx. apply in_keys_occupied in Hx as [z Hz]. destruct HF as (_ & [_ Hmax] & _).
      apply (Hmax _ Hz). }
    assert (forall x, In x M' -> fst x <= n) as HMn'.
    { intros x Hx. apply in_app_or in Hx as [Hx|[<-|[]]]; [auto|exact Hle]. }
    assert (In (tm, m) M') as HinM' by (apply in_or_app; right; left; reflexivity).
    assert (forall t, t <> tm -> lookup M' t = lookup M t) as Hlk by (intros t Ht; apply lookup_app_other; exact Ht).
    destruct (full_top _ _ _ HF) as [Hsc Htop].
    (* the newest state *)
    assert (exists P sn, F = P ++ [(n, sn)]) as (FP & sn & EF).
    { destruct HF as (HsF & HtF & _). pose proof (top_last _ _ HsF HtF) as Hl.
      destruct F as [|x FP _] using rev_ind; [destruct HtF as [[? []] _]|].
      rewrite GetLast_app in Hl. destruct x as [k x]. cbn in Hl. subst k. eauto. }
    (* not too old *)
    assert (exists k, occupied (states c) k /\ k <= tm) as (k0 & [z0 Hk0] & Hk0le).
    { destruct Hpl as [Hin|(_ & (k & Hin & Hk1 & Hk2) & _)].
      - apply in_keys_occupied in Hin as [z Hz]. exists tm. split; [|lia]. exists z.
        destruct HF as (_ & _ & hist & E & Hh). rewrite E in Hz. apply in_app_or in Hz as [Hz|Hz]; [|exact Hz].
        apply Hh in Hz. cbn [fst] in Hz. lia.
      - apply in_keys_occupied in Hin as [z Hz]. exists k. split; [|lia]. exists z.
        destruct HF as (_ & _ & hist & E & Hh). rewrite E in Hz. apply in_app_or in Hz as [Hz|Hz]; [|exact Hz].
        apply Hh in Hz. cbn [fst] in Hz. lia. }
    unfold AddMeasurement in H. rewrite Hini, Hpm in H. cbn [negb orb] in H.
    rewrite (top_last _ _ Hsc Htop) in H. replace (tm >? n) with false in H by lia.
    assert (tm <? otime (GetFirst (states c)) = false) as Eold.
    { destruct (states c) as [|[k1 x1] rs]; [destruct Hk0|]. cbn. destruct Hk0 as [E|Hk0]; [injection E as -> _; lia|].
      apply sorted_cons_inv in Hsc as [_ Hf]. specialize (Hf _ _ Hk0). lia. }
    rewrite Eold in H. unfold Insert in H.
    destruct (insert_meas n M (meas c) tm m HM Hnew) as (L & R & Ei & HMk & Hpend & Efp); [lia|].
    fold M' in HMk, Hpend. rewrite Ei, Efp, skipn_mid in H.
    set (c0 := set_meas O c (L ++ (tm, m) :: R)) in *.
    assert (full n c0 F) as HF0 by exact HF.
    inv_bind H. destruct a as [c1 applied]. cbn [meas_loop] in E. inv_bind E.
    destruct a as [c4 a4]. unfold meas_body in E0. replace (tm <=? 0) with false in E0 by lia.
    inv_bind E0. destruct a as [c3 os].
    (* what remains after the first measurement *)
    assert (forall A s Y, full n c3 (A ++ (tm, s) :: Y) -> os = Some (tm, s) -> rd_ok Y ->
              plain M' s0 (keys (A ++ (tm, s) :: Y)) =
                A ++ (tm, fused M' tm s) :: filter_from M' (tm, fused M' tm s) (keys Y) ->
              meas_ok n M' (meas c3) -> it_last c3 = ItAt n -> same c c3 ->
              (time_P c3 = tm \/ never_refused m) ->
              (exists rr, keys (A ++ (tm, s) :: Y) = t0 :: rr) ->
              (forall t, In t (keys (A ++ (tm, s) :: Y)) <-> In t (keys F) \/ t = tm) ->
              exists F' s, binv n M' F' c' /\
                (forall t, In t (keys F') <-> In t (keys F) \/ t = tm) /\ same c c' /\
                In (n, s) F' /\ ev = [PubUpdate n s]) as Hrest.
    { intros A s Y HF3 Eos Hrd3 Hpl3 HM3 Hit3 Hsame3 Hor [rr Hrr] Hks. subst os.
      eapply (enter_between n M' s0 (keys (A ++ (tm, s) :: Y)) HMd') in E0 as (-> & Hbt & Hsame4);
        [|exact HF3|lia|lia|exact Hrd3|exact Hpl3|exact HinM'|exact Hpend|exact HM3|exact Hit3|exact Hor].
      eapply (loop_between n M' s0 _ HMn' HMd') in E as (-> & Hbt5 & Hsame5); [| |exact Hbt|auto].
      2:{ intros x Hx. apply Hks. apply in_app_or in Hx as [Hx|[<-|[]]]; auto. }
      destruct (final_between n M' s0 _ _ Hbt5) as (c6 & EP & HF6 & HP6 & Hsame6 & HM6 & Hit6).
      cbn [negb] in H.
      assert (otime (GetLast (states c1)) = n) as El.
      { destruct Hbt5 as (A5 & e5 & X5 & Y5 & HF5 & _). apply full_top in HF5 as [G1 G2]. apply top_last; assumption. }
      rewrite El, EP in H. cbn [bind] in H.
      set (F' := plain M' s0 (keys (A ++ (tm, s) :: Y))) in *.
      assert (keys F' = keys (A ++ (tm, s) :: Y)) as HkF' by apply plain_keys.
      destruct (full_top _ _ _ HF6) as [Hs6 Ht6].
      destruct (GetLast (states c6)) as [[k s6]|] eqn:E6; [|discriminate]. injection H as <- <-.
      pose proof (top_last _ _ Hs6 Ht6) as Hl6. rewrite E6 in Hl6. cbn in Hl6. subst k.
      exists F', s6. split.
      { repeat split.
        - apply HF6. - apply HF6. - apply HF6. - apply HF6.
        - unfold F'. rewrite plain_keys. reflexivity.
        - exists rr. rewrite HkF'. exact Hrr.
        - intros [k x] Hx. assert (In k (keys F')) as Hk by (apply in_map_iff; exists (k, x); auto).
          rewrite HkF' in Hk. apply Hks in Hk as [Hk| ->]; [|exact Hpos]. apply in_keys_occupied in Hk as [z Hz].
          apply (Hkp _ Hz).
        - exact HP6.
        - exact Hit6.
        - apply HM6. - apply HM6. - apply HM6.
        - exact HMd'.
        - intros x Hx. rewrite HkF'. apply Hks. apply in_app_or in Hx as [Hx|[<-|[]]]; auto. }
      split; [intros t; rewrite HkF'; apply Hks|]. split.
      { eapply same_trans; [exact Hsame3|]. eapply same_trans; [exact Hsame4|].
        eapply same_trans; [exact Hsame5|exact Hsame6]. }
      split; [|reflexivity].
      destruct HF6 as (_ & _ & hist & -> & _). apply in_or_app. right.
      unfold GetLast in E6. destruct (states c6) eqn:Es6; [discriminate|]. rewrite <- Es6 in *.
      eapply nth_error_In; exact E6. }
    destruct Hpl as [Hin|(Hfar & (k & Hink & Hk1 & Hk2) & Hlerp)].
    - (* at a stored state *)
      apply in_keys_occupied in Hin as [s Hs]. apply split_at_key in Hs as (A & Y & EA).
      assert (PropPToState O c0 tm = Ok c0) as EP0.
      { eapply (PropP_noop n c0 FP n sn []); [rewrite <- EF; exact HF0|unfold buffer_age, second; lia|exact HP|intros ? []]. }
      rewrite EA in HF0.
      eapply GCS_exact in E1 as (Eos & HF3 & HM3 & Hit3 & Hsame3 & HP3);
        [|exact HF0|exact EP0|exact HF0|reflexivity|lia|exact Hpos|exact HMk|exact HMn'|exact Hit].
      assert (rd_ok Y) as HrdY.
      { rewrite EA in Hrd. apply rd_ok_app in Hrd as [_ Hrd]. intros t' s' Hi. apply Hrd. right. exact Hi. }
      assert (lookup M tm = None) as Hlt by (apply lookup_none; exact Hnew).
      assert (forall t, In t (keys A) -> t <> tm) as HA.
      { intros t Ht. destruct HF0 as (HsF & _). pose proof (sorted_mid _ _ _ _ HsF) as (_ & _ & Hlt1 & _).
        apply in_keys_occupied in Ht as [z Hz]. apply Hlt1 in Hz. cbn in Hz. lia. }
      assert (plain M s0 (keys (A ++ (tm, s) :: Y)) = A ++ (tm, s) :: Y) as Hpl0 by (rewrite <- EA; symmetry; exact HFp).
      assert (plain M' s0 (keys (A ++ (tm, s) :: Y)) =
                A ++ (tm, fused M' tm s) :: filter_from M' (tm, fused M' tm s) (keys Y)) as Hpl3.
      { apply (plain_enter M M' s0 _ A tm s Y); [exact Hpl0|exact Hlt|]. intros t Ht. apply Hlk. auto. }
      assert (forall t, In t (keys (A ++ (tm, s) :: Y)) <-> In t (keys F) \/ t = tm) as Hks.
      { intros t. rewrite EA. split; [auto|]. intros [Ht| ->]; [exact Ht|]. rewrite keys_app. apply in_or_app. right. left. reflexivity. }
      destruct Hord as [Hnr|Hord].
      { eapply Hrest; eauto. exists r0. rewrite <- EA. exact Hr0. }
      (* refusable: newest measurement *)
      assert (R = []) as ER.
      { destruct R as [|x R]; [reflexivity|]. destruct Hpend as [_ Hpe].
        destruct (proj1 (Hpe x) (or_introl eq_refl)) as [Hx1 Hx2].
        apply in_app_or in Hx1 as [Hx1|[<-|[]]]; [|cbn in Hx2; lia]. apply Hord in Hx1. lia. }
      subst os R.
      eapply (apply_step n c3 A tm s Y m []) in E0 as (-> & r & X & Y' & EY & Hb & HF4 & HP4 & Hr4 & _ & Hsame4 & Hm4 & Hit4);
        [|exact HF3|lia|exact Hpos|discriminate].
      cbn in Hb. subst Y'. rewrite app_nil_r in EY, HF4. subst X.
      cbn [meas_loop] in E. injection E as <- <-. cbn [negb] in H.
      assert (otime (GetLast (states c4)) = n) as El.
      { apply full_top in HF4 as [G1 G2]. apply top_last; assumption. }
      rewrite El in H.
      assert (forall t, In t (keys Y) -> lookup M' t = None) as HnY.
      { intros t Ht. assert (tm < t) as Hgt.
        { destruct HF0 as (HsF & _). pose proof (sorted_mid _ _ _ _ HsF) as (_ & _ & _ & Hlt1).
          apply in_keys_occupied in Ht as [z Hz]. apply (Hlt1 _ Hz). }
        rewrite Hlk by lia. apply lookup_none. intros Hi. apply in_map_iff in Hi as (x & <- & Hx). apply Hord in Hx. lia. }
      set (s' := fuse_st m s) in *.
      assert (fused M' tm s = s') as Efs by (apply fused_In; assumption).
      rewrite Efs, (filter_none M' (keys Y)) in Hpl3 by exact HnY.
      (* either way the covariances end at the newest state *)
      assert (exists c6, PropPToState O c4 n = Ok c6 /\ full n c6 (A ++ (tm, s') :: preds (tm, s') (keys Y)) /\
                time_P c6 = n /\ same c4 c6 /\ meas c6 = meas c4 /\ it_last c6 = it_last c4)
        as (c6 & EP & HF6 & HP6 & Hsame6 & Hm6 & Hit6).
      { destruct r.
        - rewrite <- (app_nil_r (vals _ Y)) in HF4.
          destruct (PropP_full n c4 A (tm, s') Y [] n HF4) as (c6 & EP & HF6 & HP6 & Hsame6 & Hm6 & Hit6); auto.
          { cbn [fst]. lia. }
          { intros x Hx. destruct HF0 as (_ & [_ Hmax] & _). apply Hmax. apply in_or_app. right. right. exact Hx. }
          { intros ? []. }
          exists c6. rewrite app_nil_r in HF6. split; [exact EP|]. split; [exact HF6|]. split; [|auto].
          rewrite HP6. cbn [fst].
          pose proof (top_last _ _ (proj1 HF6) (proj1 (proj2 HF6))) as Hl.
          destruct Y as [|x Y _] using rev_ind.
          + cbn in *. rewrite GetLast_app in Hl. exact Hl.
          + rewrite keys_app in *. cbn [keys map] in *. rewrite last_last.
            destruct (preds_last (keys Y) (fst x) (tm, s')) as (e' & E & _). fold (keys Y) in Hl. rewrite E in Hl.
            change (A ++ (tm, s') :: preds (tm, s') (keys Y) ++ [(fst x, predicted e' (fst x))]) with
                 (A ++ ((tm, s') :: preds (tm, s') (keys Y)) ++ [(fst x, predicted e' (fst x))]) in Hl.
            rewrite app_assoc, GetLast_app in Hl. exact Hl.
        - specialize (Hr4 eq_refl).
          assert (s' = s) as Es' by (unfold s', fuse_st; rewrite Hr4; destruct s; reflexivity).
          rewrite Es' in *.
          assert (Y = preds (tm, s) (keys Y)) as EY.
          { destruct (plain_split _ _ _ _ _ _ Hpl0) as (_ & EY & _). rewrite EY at 1. apply filter_none.
            intros t Ht. rewrite <- Hlk; [apply HnY; exact Ht|]. intros ->.
            destruct HF0 as (HsF & _). pose proof (sorted_mid _ _ _ _ HsF) as (_ & _ & _ & Hlt1).
            apply in_keys_occupied in Ht as [z Hz]. apply Hlt1 in Hz. cbn in Hz. lia. }
          rewrite EY, vals_preds, <- EY in HF4.
          exists c4. split.
          { eapply (PropP_noop n c4 FP n sn []); [rewrite <- EF, EA; exact HF4|unfold buffer_age, second; lia| |intros ? []].
            rewrite HP4, HP3. exact HP. }
          rewrite <- EY. split; [exact HF4|]. split; [rewrite HP4, HP3; exact HP|]. repeat split; reflexivity. }
      rewrite EP in H. cbn [bind] in H.
      rewrite <- Hpl3 in HF6.
      set (F' := plain M' s0 (keys (A ++ (tm, s) :: Y))) in *.
      assert (keys F' = keys (A ++ (tm, s) :: Y)) as HkF' by apply plain_keys.
      destruct (full_top _ _ _ HF6) as [Hs6 Ht6].
      destruct (GetLast (states c6)) as [[k s6]|] eqn:E6; [|discriminate]. injection H as <- <-.
      pose proof (top_last _ _ Hs6 Ht6) as Hl6. rewrite E6 in Hl6. cbn in Hl6. subst k.
      exists F', s6. split.
      { repeat split.
        + apply HF6. + apply HF6. + apply HF6. + apply HF6.
        + unfold F'. rewrite plain_keys. reflexivity.
        + exists r0. rewrite HkF', <- EA. exact Hr0.
        + intros [k x] Hx. assert (In k (keys F')) as Hk by (apply in_map_iff; exists (k, x); auto).
          rewrite HkF' in Hk. apply Hks in Hk as [Hk| ->]; [|exact Hpos]. apply in_keys_occupied in Hk as [z Hz].
          apply (Hkp _ Hz).
        + exact HP6.
        + congruence.
        + rewrite Hm6, Hm4. apply HM3. + rewrite Hm6, Hm4. apply HM3. + rewrite Hm6, Hm4. apply HM3.
        + exact HMd'.
        + intros x Hx. rewrite HkF'. apply Hks. apply in_app_or in Hx as [Hx|[<-|[]]]; auto. }
      split; [intros t; rewrite HkF'; apply Hks|]. split.
      { eapply same_trans; [exact Hsame3|]. eapply same_trans; [exact Hsame4|exact Hsame6]. }
      split; [|reflexivity].
      destruct HF6 as (_ & _ & hist & -> & _). apply in_or_app. right.
      unfold GetLast in E6. destruct (states c6) eqn:Es6; [discriminate|]. rewrite <- Es6 in *.
      eapply nth_error_In; exact E6.
    - (* between two states *)
      assert (tm < n) as Hlt.
      { assert (In n (keys F)) as Hn by (rewrite EF, keys_app; apply in_or_app; right; left; reflexivity).
        specialize (Hfar _ Hn). lia. }
      pose proof HF as (HsF & HtF & _).
      destruct (split_le F tm HsF) as (L1 & R1 & ELR & HL1 & HR1).
      assert (exists B tl sl, L1 = B ++ [(tl, sl)]) as (B & tl & sl & ->).
      { destruct L1 as [|[tl sl] B _] using rev_ind; [|eauto]. exfalso.
        apply in_keys_occupied in Hink as [z Hz]. rewrite ELR in Hz. apply HR1 in Hz. cbn in Hz. lia. }
      assert (exists tn sn' Q, R1 = (tn, sn') :: Q) as (tn & sn' & Q & ->).
      { destruct R1 as [|[tn sn'] Q]; [|eauto]. exfalso.
        assert (In (n, sn) F) as Hz by (rewrite EF; apply in_or_app; right; left; reflexivity).
        rewrite ELR, app_nil_r in Hz. apply HL1 in Hz. cbn in Hz. lia. }
      rewrite <- app_assoc in ELR. cbn [app] in ELR.
      assert (In tl (keys F) /\ In tn (keys F)) as [Hil Hin].
      { rewrite ELR, keys_app. split; apply in_or_app; right; [left; reflexivity|right; left; reflexivity]. }
      assert (tl < tm) as Htl.
      { specialize (Hfar _ Hil). assert (tl <= tm) by (apply (HL1 (tl, sl)); apply in_or_app; right; left; reflexivity). lia. }
      assert (tm < tn) as Htn by (apply (HR1 (tn, sn')); left; reflexivity).
      assert (forall k', In k' (keys F) -> k' <= tl \/ tn <= k') as Hadj.
      { intros k' Hk'. apply in_keys_occupied in Hk' as [z Hz]. rewrite ELR in Hz, HsF.
        apply in_app_or in Hz as [Hz|[Hz|[Hz|Hz]]].
        - apply sorted_mid in HsF as (_ & _ & Hx & _). apply Hx in Hz. cbn in Hz. lia.
        - injection Hz as -> _. lia.
        - injection Hz as -> _. lia.
        - replace (B ++ (tl, sl) :: (tn, sn') :: Q) with ((B ++ [(tl, sl)]) ++ (tn, sn') :: Q) in HsF
            by (rewrite <- app_assoc; reflexivity).
          apply sorted_mid in HsF as (_ & _ & _ & Hx). apply Hx in Hz. cbn in Hz. lia. }
      destruct (Hlerp tl tn Hil Hin Htl Htn Hadj) as [La Lg].
      assert (k <= tl) as Hkl by (destruct (Hadj _ Hink); lia).
      pose proof (Hfar _ Hil) as Hf1. pose proof (Hfar _ Hin) as Hf2.
      destruct (Hrd tl sl) as [Ea1 Eg1]; [rewrite ELR; apply in_or_app; right; left; reflexivity|].
      destruct (Hrd tn sn') as [Ea2 Eg2]; [rewrite ELR; apply in_or_app; right; right; left; reflexivity|].
      rewrite ELR in HF0.
      assert (0 < tl) as Htlp by (apply in_keys_occupied in Hil as [z Hz]; apply (Hkp _ Hz)).
      eapply (GCS_interp n M' c0 B tl sl tn sn' Q tm c3 os) in E1 as (Eos & HF3 & HM3 & Hit3 & Hsame3 & HP3);
        try assumption; try lia.
      set (s := predicted (tl, sl) tm) in *.
      assert (plain M s0 (keys (B ++ (tl, sl) :: (tn, sn') :: Q)) = B ++ (tl, sl) :: (tn, sn') :: Q) as Hpl0
        by (rewrite <- ELR; symmetry; exact HFp).
      destruct (plain_split _ _ _ _ _ _ Hpl0) as (HplB & _ & _).
      assert (forall t, In t (keys ((B ++ [(tl, sl)]) ++ (tm, s) :: (tn, sn') :: Q)) <-> In t (keys F) \/ t = tm) as Hks.
      { intros t. rewrite ELR. rewrite <- app_assoc. cbn [app]. rewrite !keys_app. cbn [keys map fst]. fold (keys Q).
        rewrite !in_app_iff. cbn [In]. intuition congruence. }
      eapply Hrest; try eassumption.
      + rewrite ELR in Hrd. replace (B ++ (tl, sl) :: (tn, sn') :: Q) with ((B ++ [(tl, sl)]) ++ (tn, sn') :: Q) in Hrd
            by (rewrite <- app_assoc; reflexivity).
        apply rd_ok_app in Hrd. tauto.
      + assert (plain M' s0 (keys (B ++ [(tl, sl)])) = B ++ [(tl, sl)]) as HplB'.
        { rewrite <- HplB at 2. apply plain_ext. intros t Ht. apply Hlk. intros ->.
          assert (In tm (keys F)) as Hbad.
          { rewrite ELR. replace (B ++ (tl, sl) :: (tn, sn') :: Q) with ((B ++ [(tl, sl)]) ++ (tn, sn') :: Q)
            by (rewrite <- app_assoc; reflexivity). rewrite keys_app. apply in_or_app. left. exact Ht. }
          specialize (Hfar _ Hbad). lia. }
        rewrite keys_app. cbn [keys map fst]. fold (keys Q).
        rewrite (plain_app _ _ _ _ _ _ HplB'), <- app_assoc. reflexivity.
      + left. exact HP3.
      + rewrite ELR, keys_app in Hr0. cbn [keys map fst] in Hr0. fold (keys Q) in Hr0.
        rewrite keys_app, keys_app. cbn [keys map fst]. fold (keys Q).
        destruct (keys B) as [|b Bk]; cbn [app] in *; injection Hr0 as -> _; eexists; reflexivity.
  Qed.

  (** ** ProcessIMU *)

  Hypothesis Hnum_p : forall v, numeric_p O v = true.

  Definition after_pending (c : core) (t : Z) (s : st) : res (core * list (event O)) :=
    let* (c3, ev) := if predictionMade c then HandlePendingMeasurements O d c else Ok (c, []) in
    Ok (c3, PubPropagation t s :: ev).

  Lemma imu_batch : forall n M F c a g t,
    binv n M F c -> initialized c = true -> (predictionMade c = true \/ t - n <= thr_gap_imu) -> n < t ->
    (if acc_spike O a then last_am c else a) = ra t -> g = rg t ->
    exists c1 s, binv t M (F ++ [(t, s)]) c1 /\ initialized c1 = true /\
      states c1 = states c ++ [(t, s)] /\
      predictionMade c1 = (predictionMade c || (3 <? S (length (states c)))%nat) /\
      queue c1 = queue c /\ last_am c1 = (if acc_spike O a then last_am c else ra n) /\
      ProcessIMU O d c a g t = after_pending c1 t s.
  Proof.
    intros n M F c a g t HB Hini Hpm Hlt Ea Eg.
    pose proof (binv_rd _ _ _ _ HB) as Hrd.
    destruct HB as (HF & HFp & [r0 Hr0] & Hkp & HP & Hit & HM & HMd & HMF).
    destruct (full_top _ _ _ HF) as [Hsc Htop].
    assert (exists P sn, F = P ++ [(n, sn)]) as (FP & sn & EF).
    { destruct HF as (HsF & HtF & _). pose proof (top_last _ _ HsF HtF) as Hl.
      destruct F as [|x FP _] using rev_ind; [destruct HtF as [[? []] _]|].
      rewrite GetLast_app in Hl. destruct x as [k x]. cbn in Hl. subst k. eauto. }
    assert (In (n, sn) F) as HinF by (rewrite EF; apply in_or_app; right; left; reflexivity).
    assert (0 < n) as Hn by (apply (Hkp _ HinF)).
    destruct (Hrd _ _ HinF) as [Eacc Egyr].
    pose proof HF as HF'. rewrite EF in HF'.
    destruct (full_split n c FP n sn [] HF') as (hist & S0 & EFP & Hst & Hs & Hh); [unfold buffer_age, second; lia|].
    unfold ProcessIMU. rewrite Hini. cbn [negb]. unfold deref_last. rewrite Hit. cbn [bind].
    rewrite Hst, GetValueAt_mid by exact Hs. cbn [bind].
    replace (n =? INVALID_TIME) with false by (unfold INVALID_TIME, second; lia).
    replace (t - n <? - thr_out_of_order) with false by (unfold thr_out_of_order, second; cbn; lia). cbn [andb].
    set (c1 := if acc_spike O a then set_it O c (ItAt n) else set_last_am O (set_it O c (ItAt n)) (s_acc sn)).
    assert (predictionMade c1 = predictionMade c /\ initialized c1 = true /\ states c1 = S0 ++ [(n, sn)] /\
            meas c1 = meas c /\ queue c1 = queue c /\ time_P c1 = n /\
            last_am c1 = (if acc_spike O a then last_am c else ra n)) as (E1 & E2 & E3 & E4 & E5 & E6 & E7).
    { unfold c1. destruct (acc_spike O a); cbn; rewrite ?Eacc; auto 10. }
    replace (negb (predictionMade c1) && (Z.abs (t - n) >? thr_gap_imu)) with false
      by (rewrite E1; destruct Hpm as [->|Hpm]; [reflexivity|]; destruct (predictionMade c); cbn [negb andb]; lia).
    change (last_am (set_it O c (ItAt n))) with (last_am c). rewrite Ea, E3.
    subst g.
    assert (forall x, In x (S0 ++ [(n, sn)]) -> fst x < t) as HLt.
    { intros x Hx. rewrite <- Hst in Hx. destruct Htop as [_ Hmax]. apply Hmax in Hx. lia. }
    set (new := prop_val O n sn t (mkst (ra t) (rg t) (s_val sn) (cov_zero O))).
    destruct (bound_mid (S0 ++ [(n, sn)]) [] t HLt) as (_ & _ & Ein); [intros ? []|].
    rewrite app_nil_r in Ein. unfold Insert. rewrite Ein. cbn [fst].
    assert (has_key t (S0 ++ [(n, sn)]) = false) as Ehk.
    { destruct (has_key t (S0 ++ [(n, sn)])) eqn:E; [|reflexivity]. apply has_key_true in E as [z Hz].
      apply HLt in Hz. cbn in Hz. lia. }
    rewrite Ehk. cbn [negb].
    unfold imu_finish, PropagatePOneStep. cbn [states set_it set_states time_P]. rewrite E6.
    rewrite <- !app_assoc. cbn [app].
    assert (time_sorted (S0 ++ (n, sn) :: [(t, new)])) as Hs2.
    { replace (S0 ++ (n, sn) :: [(t, new)]) with ((S0 ++ [(n, sn)]) ++ [(t, new)]) by (rewrite <- app_assoc; reflexivity).
      rewrite <- Ein. apply insert_list_sorted. exact Hs. }
    rewrite AtValue_mid by exact Hs2.
    unfold it_inc, pos_end.
    assert (length (S0 ++ [(n, sn); (t, new)]) = (length S0 + 2)%nat) as El by (rewrite app_length; reflexivity).
    rewrite El. replace (length S0 <? length S0 + 2)%nat with true by lia. cbn [bind].
    replace (S (length S0) =? length S0 + 2)%nat with false by lia. unfold it_deref.
    assert (nth_error (S0 ++ [(n, sn); (t, new)]) (length S0) = Some (n, sn)) as En1
      by (rewrite nth_error_app2, Nat.sub_diag by lia; reflexivity).
    assert (nth_error (S0 ++ [(n, sn); (t, new)]) (S (length S0)) = Some (t, new)) as En2
      by (rewrite nth_error_app2 by lia; replace (S (length S0) - length S0)%nat with 1%nat by lia; reflexivity).
    rewrite En1, En2. cbn [bind fst snd].
    unfold pred_cov. replace (t - n <=? 0) with false by lia.
    set (s := with_cov O new _).
    assert (s = predicted (n, sn) t) as Es by reflexivity.
    rewrite Hnum_p. cbn [bind].
    replace (S0 ++ [(n, sn); (t, new)]) with ((S0 ++ [(n, sn)]) ++ (t, new) :: []) in * by (rewrite <- app_assoc; reflexivity).
    assert (time_sorted ((S0 ++ [(n, sn)]) ++ [(t, new)])) as Hs3 by exact Hs2.
    rewrite upd_key_mid by exact Hs3.
    cbn [states set_time_P set_states].
    assert (time_sorted ((S0 ++ [(n, sn)]) ++ [(t, s)])) as Hs4.
    { eapply sorted_same_keys; [|exact Hs3]. unfold keys. rewrite !map_app. reflexivity. }
    rewrite GetValueAt_mid by exact Hs4.
    set (c2 := set_time_P O _ t).
    set (c3 := if (3 <? Size ((S0 ++ [(n, sn)]) ++ [(t, s)]))%nat then set_flags O c2 (initialized c2) true else c2).
    rewrite <- Hst. exists c3, s.
    assert (states c3 = states c ++ [(t, s)] /\ initialized c3 = true /\ queue c3 = queue c /\ meas c3 = meas c /\
            time_P c3 = t /\ it_last c3 = ItAt t /\ last_am c3 = (if acc_spike O a then last_am c else ra n) /\
            predictionMade c3 = (predictionMade c || (3 <? S (length (states c)))%nat))
      as (G1 & G2 & G3 & G4 & G5 & G6 & G7 & G8).
    { assert (Size ((S0 ++ [(n, sn)]) ++ [(t, s)]) = S (length (states c))) as Esz.
      { unfold Size. rewrite Hst, app_length. cbn. lia. }
      unfold c3, c2. rewrite Esz. destruct (3 <? S (length (states c)))%nat;
        cbn [states initialized queue meas time_P it_last last_am predictionMade set_flags set_time_P set_states set_it];
        rewrite ?Hst, ?E1, ?orb_true_r, ?orb_false_r; repeat split; auto. }
    split; [|split; [exact G2|]; split; [exact G1|]; split; [exact G8|]; split; [exact G3|]; split; [exact G7|]].
    2:{ unfold after_pending. fold c3. destruct (predictionMade c3); reflexivity. }
    assert (keys (F ++ [(t, s)]) = keys F ++ [t]) as Hk by (rewrite keys_app; reflexivity).
    assert (forall x, In x F -> fst x < t) as HFlt.
    { intros x Hx. destruct HF as (_ & [_ Hmax] & _). apply Hmax in Hx. lia. }
    split.
    { destruct HF as (HsF & [[z Hz] Hmax] & hist' & EH & Hh'). split; [|split].
      - apply sorted_app. split; [exact HsF|]. split; [repeat constructor|].
        intros e1 e2 H1 [<-|[]]. cbn. auto.
      - split; [exists s; apply in_or_app; right; left; reflexivity|].
        intros e He. apply in_app_or in He as [He|[<-|[]]]; [apply HFlt in He; lia|cbn; lia].
      - exists hist'. rewrite G1, EH, <- app_assoc. split; [reflexivity|].
        intros x Hx. apply Hh' in Hx. lia. }
    split.
    { rewrite Hk. assert (plain M s0 (keys F) = FP ++ [(n, sn)]) as Hpl by (rewrite <- EF; symmetry; exact HFp).
      rewrite (plain_app _ _ _ _ _ _ Hpl). cbn [BatchSpec.filter_from].
      assert (lookup M t = None) as Hno.
      { apply lookup_none. intros Hi. apply in_map_iff in Hi as (x & <- & Hx). apply HMF in Hx.
        apply in_keys_occupied in Hx as [z Hz]. apply HFlt in Hz. cbn in Hz. lia. }
      unfold BatchSpec.fused. rewrite Hno, EF, <- app_assoc. reflexivity. }
    split; [exists (r0 ++ [t]); rewrite Hk, Hr0; reflexivity|].
    split.
    { intros x Hx. apply in_app_or in Hx as [Hx|[<-|[]]]; [auto|cbn; lia]. }
    split; [exact G5|]. split; [exact G6|]. split.
    { rewrite G4. destruct HM as (HM1 & HM2 & HM3). split; [exact HM1|]. split; [exact HM2|].
      intros x Hx Hge. apply HM3; [exact Hx|lia]. }
    split; [exact HMd|]. intros x Hx. rewrite Hk. apply in_or_app. left. auto.
  Qed.

  (** ** Whole sessions *)

  Section Session.
    Variables (U : list Z) (Mall : list (Z * Meas O)).
    Hypothesis HU0 : forall u, In u U -> 0 < u.
    Hypothesis HMall : NoDup (map fst Mall).
    Hypothesis Hplaced : forall tm m, In (tm, m) Mall ->
        In tm U \/
        ((forall k, In k U \/ In k (map fst Mall) -> k <> tm -> thr_interp < Z.abs (k - tm)) /\
         (exists k, In k U /\ tm - thr_closest <= k /\ k < tm) /\
         (forall tl tn, tl < tm -> tm < tn ->
            In tl U \/ In tl (map fst Mall) -> In tn U \/ In tn (map fst Mall) ->
            (forall k, In k U -> k <= tl \/ tn <= k) ->
            lerp_acc O (ra tl) (ra tn) (tn - tl) (tm - tl) = ra tm /\
            lerp_gyr O (rg tl) (rg tn) (tn - tl) (tm - tl) = rg tm)).

    Definition gridpts (n : Z) (M : list (Z * Meas O)) (ks : list Z) : Prop :=
      forall t, In t ks <-> (In t U /\ t <= n) \/ In t (map fst M).

    Lemma placed_now : forall n M ks tm m rest,
      gridpts n M ks -> Mall = M ++ (tm, m) :: rest -> tm <= n ->
      (forall t, In t ks -> t <= n) -> (forall u, In u U -> u <= n \/ n < u) ->
      placed ks tm /\ 0 < tm /\ ~ In tm (map fst M).
    Proof.
      intros n M ks tm m rest Hg HE Hle Hkn _.
      assert (In (tm, m) Mall) as Hin by (rewrite HE; apply in_or_app; right; left; reflexivity).
      assert (forall k, In k (map fst M) -> In k (map fst Mall)) as Hsub.
      { intros k Hk. rewrite HE, map_app. apply in_or_app. auto. }
      assert (~ In tm (map fst M)) as Hnew.
      { rewrite HE, map_app in HMall. cbn [map fst] in HMall. apply NoDup_remove_2 in HMall.
        intros Hi. apply HMall. apply in_or_app. auto. }
      destruct (in_dec Z.eq_dec tm ks) as [Hks|Hks].
      { split; [left; exact Hks|]. split; [|exact Hnew].
        apply Hg in Hks as [[Hu _]|Hm]; [auto|contradiction]. }
      destruct (Hplaced _ _ Hin) as [Hu|(Hfar & (k & Hk & Hk1 & Hk2) & Hlerp)].
      { exfalso. apply Hks. apply Hg. left. split; assumption. }
      split; [right; split; [|split]|].
      - intros k' Hk'. apply Hfar; [apply Hg in Hk' as [[Hk' _]|Hk']; auto|]. intros ->. contradiction.
      - exists k. split; [apply Hg; left; split; [exact Hk|lia]|auto].
      - intros tl tn Hl Hn Hl1 Hn1 Hadj. apply Hlerp; auto.
        + apply Hg in Hl as [[Hl _]|Hl]; auto.
        + apply Hg in Hn as [[Hn _]|Hn]; auto.
        + intros k' Hk'. destruct (Z_le_gt_dec k' n) as [Hkn'|Hkn'].
          * apply Hadj. apply Hg. left. auto.
          * right. specialize (Hkn _ Hn). lia.
      - split; [|exact Hnew]. apply HU0 in Hk. lia.
    Qed.

    Lemma binv_queue : forall n M F c q, binv n M F c -> binv n M F (set_queue O c q).
    Proof. intros n M F c q H. exact H. Qed.

    Lemma take_batch : forall n M F c tm m rest c' ev,
      binv n M F c -> initialized c = true -> predictionMade c = true ->
      gridpts n M (keys F) -> Mall = M ++ (tm, m) :: rest -> tm <= n -> n <= tm + late_limit ->
      (never_refused m \/ forall x, In x M -> fst x < tm) ->
      AddMeasurement O d c tm m = Ok (c', ev) ->
      exists F' s, binv n (M ++ [(tm, m)]) F' c' /\ gridpts n (M ++ [(tm, m)]) (keys F') /\ same c c' /\
        In (n, s) F' /\ ev = [PubUpdate n s].
    Proof.
      intros n M F c tm m rest c' ev HB Hi Hp Hg HE Hle Hlate Hord H.
      destruct (placed_now n M (keys F) tm m rest Hg HE Hle) as (Hpl & Hpos & Hnew).
      { intros t Ht. destruct HB as ((_ & [_ Hmax] & _) & _). apply in_keys_occupied in Ht as [z Hz]. apply (Hmax _ Hz). }
      { intros u _. lia. }
      destruct (add_batch n M F c tm m c' ev HB Hi Hp Hpos Hle Hlate Hnew Hpl Hord H) as (F' & s & H1 & H2 & H3 & H4 & H5).
      exists F', s. split; [exact H1|]. split; [|auto].
      intros t. rewrite H2, (Hg t), map_app, in_app_iff. cbn. intuition congruence.
    Qed.

    Lemma binv_sinv : forall n M F c, binv n M F c -> sinv O true c n.
    Proof.
      intros n M F c (HF & HFp & _ & Hkp & HP & Hit & (HM1 & HM2 & HM3) & HMd & HMF).
      destruct (full_top _ _ _ HF) as [Hs Ht]. constructor; auto.
      - intros k [x Hx]. apply HM2, HMF in Hx. cbn in Hx. apply in_keys_occupied in Hx as [z Hz].
        destruct HF as (_ & [_ Hmax] & _). apply (Hmax _ Hz).
      - lia.
      - intros _. exists n. split; [exact Hit|]. split; [apply Ht|unfold buffer_age, second; lia].
    Qed.

    Lemma run_batch : forall l c n M F,
      binv n M F c -> initialized c = true -> predictionMade c = true ->
      sensor_calls O l -> StronglySorted Z.lt (n :: imu_stamps O l) ->
      (forall t a g, In (t, a, g) (despiked O (ra n) (last_am c) (imu_msgs O l)) -> a = ra t /\ g = rg t) ->
      (forall t, In t U -> t <= n \/ In t (imu_stamps O l)) ->
      (forall t, In t (imu_stamps O l) -> In t U) ->
      gridpts n M (keys F) -> Mall = M ++ map snd (fst (schedule O n (queue c) l)) ->
      (forall k tm m, In (k, (tm, m)) (fst (schedule O n (queue c) l)) -> k <= tm + late_limit) ->
      (forall p1 k tm m p2, fst (schedule O n (queue c) l) = p1 ++ (k, (tm, m)) :: p2 ->
         never_refused m \/ ((forall x, In x M -> fst x < tm) /\ forall x, In x p1 -> fst (snd x) < tm)) ->
      exists c' ev n' F', run O d c l = Ok (c', ev) /\ binv n' Mall F' c' /\ (forall t, In t (keys F') <-> In t U \/ In t (map fst Mall)) /\
        queue c' = snd (schedule O n (queue c) l).
    Proof.
      induction l as [|k l IH]; intros c n M F HB Hi Hp Hcalls Hsort Hread HUn HUi Hg HE Htime Href.
      { exists c, [], n, F. split; [reflexivity|]. cbn in HE. rewrite app_nil_r in HE. subst Mall.
        split; [exact HB|]. split; [|reflexivity].
        intros t. rewrite (Hg t). split; [tauto|]. intros [Ht|Ht]; [|auto]. left. split; [exact Ht|].
        destruct (HUn t Ht) as [?|[]]. assumption. }
      assert (forall c1 ev1 (P : core -> Z -> cont st -> Prop), step O d c k = Ok (c1, ev1) ->
                (exists c' ev n' F', run O d c1 l = Ok (c', ev) /\ P c' n' F') ->
                exists c' ev n' F', run O d c (k :: l) = Ok (c', ev) /\ P c' n' F') as Hrun.
      { intros c1 ev1 P E (c2 & ev2 & n2 & F2 & E2 & HP2). exists c2, (ev1 ++ ev2), n2, F2.
        cbn [run]. rewrite E. cbn [bind]. rewrite E2. cbn [bind]. auto. }
      unfold sensor_calls in Hcalls. apply Forall_cons_iff in Hcalls as [Hk Hcalls]. fold (sensor_calls O l) in Hcalls.
      destruct k as [ | a g t | | tm m]; try destruct Hk.
      - (* IMU message *)
        unfold imu_stamps in Hsort, HUn, HUi. cbn [imu_msgs map fst] in Hsort, HUn, HUi. fold (imu_stamps O l) in Hsort, HUn, HUi.
        assert (n < t) as Hlt by (apply StronglySorted_inv in Hsort as [_ Hf]; apply Forall_cons_iff in Hf; tauto).
        assert (StronglySorted Z.lt (t :: imu_stamps O l)) as Hsort' by (apply StronglySorted_inv in Hsort; tauto).
        cbn [imu_msgs despiked] in Hread.
        assert ((if acc_spike O a then last_am c else a) = ra t /\ g = rg t) as [Ea Eg].
        { destruct (acc_spike O a); apply Hread; left; reflexivity. }
        destruct (imu_batch n M F c a g t HB Hi (or_introl Hp) Hlt Ea Eg) as (c3 & s & HB3 & Hi3 & _ & Hp3 & Hq3 & Hl3 & EP).
        rewrite Hp in Hp3. cbn [orb] in Hp3. unfold after_pending, HandlePendingMeasurements in EP. rewrite Hp3, Hq3 in EP.
        assert (forall t1 a1 g1, In (t1, a1, g1) (despiked O (ra t) (last_am c3) (imu_msgs O l)) -> a1 = ra t1 /\ g1 = rg t1) as Hread3.
        { intros t1 a1 g1 Hin. apply Hread. rewrite Hl3 in Hin.
          destruct (acc_spike O a); right; [rewrite Ea in Hin |- *|subst a]; exact Hin. }
        assert (forall t1, In t1 U -> t1 <= t \/ In t1 (imu_stamps O l)) as HUn'.
        { intros t1 Ht1. destruct (HUn _ Ht1) as [?|[?|?]]; [left; lia|left; lia|auto]. }
        assert (In t U) as HtU by (apply HUi; left; reflexivity).
        assert (gridpts t M (keys (F ++ [(t, s)]))) as Hg3.
        { intros t1. rewrite keys_app, in_app_iff, (Hg t1). cbn. split.
          - intros [[[H1 H2]|H1]|[<-|[]]]; [left; split; [exact H1|lia]|auto|left; split; [exact HtU|lia]].
          - intros [[H1 H2]|H1]; [|auto]. destruct (HUn _ H1) as [H3|[H3|H3]]; [auto|auto|].
            exfalso. apply StronglySorted_inv in Hsort' as [_ Hf]. rewrite Forall_forall in Hf. specialize (Hf _ H3). lia. }
        cbn [schedule] in HE, Htime, Href |- *.
        destruct (queue c) as [|[tm m] q] eqn:Eq.
        + cbn [bind] in EP. refine (Hrun _ _ (fun c' n' F' => _) EP _).
          edestruct (IH c3) as (c' & ev & n' & F' & E0 & Hres); [exact HB3|exact Hi3|exact Hp3|exact Hcalls|exact Hsort'|exact Hread3|exact HUn'| |exact Hg3| | | |].
          * intros t1 Ht1. apply HUi. right. exact Ht1.
          * rewrite Hq3. exact HE.
          * rewrite Hq3. exact Htime.
          * rewrite Hq3. exact Href.
          * exists c', ev, n', F'. split; [exact E0|]. rewrite Hq3 in Hres. exact Hres.
        + destruct (full_top _ _ _ (proj1 HB3)) as [Hs3 Ht3].
          destruct (tm >? t) eqn:Et.
          * assert (AddMeasurement O d (set_queue O c3 q) tm m = Ok (set_queue O c3 (q ++ [(tm, m)]), [])) as E1.
            { unfold AddMeasurement. cbn [initialized predictionMade set_queue states queue].
              rewrite Hi3, Hp3. cbn [negb orb]. rewrite (top_last _ _ Hs3 Ht3), Et. reflexivity. }
            rewrite E1 in EP. cbn [bind] in EP. refine (Hrun _ _ (fun c' n' F' => _) EP _).
            eapply (IH (set_queue O c3 (q ++ [(tm, m)])));
              [apply binv_queue; exact HB3|exact Hi3|exact Hp3|exact Hcalls|exact Hsort'|exact Hread3|exact HUn'| |exact Hg3| | | ].
            -- intros t1 Ht1. apply HUi. right. exact Ht1.
            -- exact HE.
            -- exact Htime.
            -- exact Href.
          * destruct (schedule O t q l) as [p q''] eqn:Es. cbn [fst snd map] in HE, Htime, Href |- *.
            destruct (AddMeasurement_safe O d Hd true (set_queue O c3 q) t tm m) as (c4 & ev4 & E1 & _).
            { exact (binv_sinv _ _ _ _ (binv_queue _ _ _ _ q HB3)). }
            { specialize (Htime t tm m (or_introl eq_refl)). lia. }
            rewrite E1 in EP. cbn [bind] in EP. refine (Hrun _ _ (fun c' n' F' => _) EP _).
            destruct (take_batch t M (F ++ [(t, s)]) (set_queue O c3 q) tm m (map snd p) c4 ev4) as
              (F4 & s4 & HB4 & Hg4 & (Hs41 & Hs42 & Hs43 & Hs44) & _); auto.
            { lia. }
            { apply (Htime t tm m). left. reflexivity. }
            { destruct (Href [] t tm m p eq_refl) as [?|[? _]]; auto. }
            cbn in Hs41, Hs42, Hs43, Hs44.
            edestruct (IH c4 t (M ++ [(tm, m)]) F4) as (c' & ev & n' & F' & E0 & Hres);
              [exact HB4|congruence|congruence|exact Hcalls|exact Hsort'|rewrite Hs44; exact Hread3|exact HUn'| |exact Hg4| | | |].
            -- intros t1 Ht1. apply HUi. right. exact Ht1.
            -- rewrite Hs43, Es. rewrite <- app_assoc. exact HE.
            -- rewrite Hs43, Es. intros k1 tm1 m1 Hin. apply (Htime k1 tm1 m1). right. exact Hin.
            -- rewrite Hs43, Es. cbn [fst]. intros p1 k1 tm1 m1 p2 Ep. 
               destruct (Href ((t, (tm, m)) :: p1) k1 tm1 m1 p2) as [?|[Ha Hb]]; [rewrite Ep; reflexivity|auto|right].
               split; [|intros x Hx; apply Hb; right; exact Hx].
               intros x Hx. apply in_app_or in Hx as [Hx|[<-|[]]]; [auto|]. apply (Hb (t, (tm, m))). left. reflexivity.
            -- exists c', ev, n', F'. split; [exact E0|]. rewrite Hs43, Es in Hres. exact Hres.
      - (* measurement *)
        cbn [schedule] in HE, Htime, Href |- *.
        unfold imu_stamps in Hsort, HUn, HUi. cbn [imu_msgs] in Hsort, HUn, HUi, Hread. fold (imu_stamps O l) in Hsort, HUn, HUi.
        destruct (full_top _ _ _ (proj1 HB)) as [Hs3 Ht3].
        destruct (tm >? n) eqn:Et.
        + assert (step O d c (CMeas tm m) = Ok (set_queue O c (queue c ++ [(tm, m)]), [])) as E1.
          { cbn [step]. unfold AddMeasurement. rewrite Hi, Hp. cbn [negb orb]. rewrite (top_last _ _ Hs3 Ht3), Et. reflexivity. }
          refine (Hrun _ _ (fun c' n' F' => _) E1 _).
          eapply (IH (set_queue O c (queue c ++ [(tm, m)])));
            [apply binv_queue; exact HB|exact Hi|exact Hp|exact Hcalls|exact Hsort|exact Hread|exact HUn|exact HUi|exact Hg|exact HE|exact Htime|exact Href].
        + destruct (schedule O n (queue c) l) as [p q''] eqn:Es. cbn [fst snd map] in HE, Htime, Href |- *.
          destruct (AddMeasurement_safe O d Hd true c n tm m) as (c1 & ev1 & E1 & _).
          { exact (binv_sinv _ _ _ _ HB). }
          { specialize (Htime n tm m (or_introl eq_refl)). lia. }
          refine (Hrun c1 ev1 (fun c' n' F' => _) E1 _).
          destruct (take_batch n M F c tm m (map snd p) c1 ev1) as
              (F4 & s4 & HB4 & Hg4 & (Hs41 & Hs42 & Hs43 & Hs44) & _); auto.
          { lia. }
          { apply (Htime n tm m). left. reflexivity. }
          { destruct (Href [] n tm m p eq_refl) as [?|[? _]]; auto. }
          edestruct (IH c1 n (M ++ [(tm, m)]) F4) as (c' & ev & n' & F' & E0 & Hres);
              [exact HB4|congruence|congruence|exact Hcalls|exact Hsort|rewrite Hs44; exact Hread|exact HUn|exact HUi|exact Hg4| | | |].
          * rewrite Hs43, Es. rewrite <- app_assoc. exact HE.
          * rewrite Hs43, Es. intros k1 tm1 m1 Hin. apply (Htime k1 tm1 m1). right. exact Hin.
          * rewrite Hs43, Es. cbn [fst]. intros p1 k1 tm1 m1 p2 Ep. 
            destruct (Href ((n, (tm, m)) :: p1) k1 tm1 m1 p2) as [?|[Ha Hb]]; [rewrite Ep; reflexivity|auto|right].
            split; [|intros x Hx; apply Hb; right; exact Hx].
            intros x Hx. apply in_app_or in Hx as [Hx|[<-|[]]]; [auto|]. apply (Hb (n, (tm, m))). left. reflexivity.
          * exists c', ev, n', F'. split; [exact E0|]. rewrite Hs43, Es in Hres. exact Hres.
    Qed.
  End Session.

  (** From the initialisation on. *)
  Lemma session_batch : forall c l,
    0 < t0 -> session O ra rg never_refused (last_am c) t0 s0 l ->
    exists c' ev n' F', run O d c (CInit t0 s0 :: l) = Ok (c', ev) /\
      binv n' (taken O t0 l) F' c' /\
      (forall t, In t (keys F') <-> In t (t0 :: imu_stamps O l) \/ In t (map fst (taken O t0 l))) /\
      queue c' = snd (schedule O t0 [] l).
  Proof.
    intros c l Hpos [Hcalls Hsort Hstart [_ _] Hread Hdist Htime Hplaced Href].
    destruct Hstart as (a1 & g1 & t1 & a2 & g2 & t2 & a3 & g3 & t3 & r & El & Hg1 & Hg2 & Hg3).
    assert (imu_stamps O l = t1 :: t2 :: t3 :: imu_stamps O r) as Est by (rewrite El; reflexivity).
    assert (schedule O t0 [] l = schedule O t3 [] r) as Esch by (rewrite El; reflexivity).
    assert (t0 < t1 /\ t1 < t2 /\ t2 < t3 /\ StronglySorted Z.lt (t3 :: imu_stamps O r)) as (L1 & L2 & L3 & Hsr).
    { rewrite Est in Hsort. apply StronglySorted_inv in Hsort as [S1 F1]. apply StronglySorted_inv in S1 as [S2 F2].
      apply StronglySorted_inv in S2 as [S3 F3]. apply Forall_cons_iff in F1 as [F1 _].
      apply Forall_cons_iff in F2 as [F2 _]. apply Forall_cons_iff in F3 as [F3 _]. auto. }
    (* initialisation *)
    set (c0 := mkcore true false [(t0, s0)] [] [] t0 (ItAt t0) (last_am c) (last_am_ext c) (janitor c) (glob_reset O)).
    assert (step O d c (CInit t0 s0) = Ok (c0, [])) as E0.
    { cbn [step]. unfold Init. replace (t0 =? 0) with false by lia. reflexivity. }
    assert (binv t0 [] [(t0, s0)] c0) as HB0.
    { split.
      - split; [apply sorted_cons; [constructor|intros ? ? []]|]. split.
        + split; [exists s0; left; reflexivity|]. intros e [<-|[]]. cbn. lia.
        + exists []. split; [reflexivity|intros ? []].
      - split; [reflexivity|]. split; [exists []; reflexivity|]. split; [intros x [<-|[]]; exact Hpos|].
        split; [reflexivity|]. split; [reflexivity|]. split; [|split; [constructor|intros ? []]].
        split; [constructor|]. split; intros ? []. }
    (* three messages *)
    rewrite El in Hread. cbn [imu_msgs] in Hread.
    destruct (imu_batch t0 [] _ c0 a1 g1 t1 HB0 eq_refl) as (c1 & s1 & HB1 & Hi1 & Hs1 & Hp1 & Hq1 & Hl1 & E1); auto.
    { cbn [despiked] in Hread. change (last_am c0) with (last_am c). destruct (acc_spike O a1); apply (Hread t1 _ g1); left; reflexivity. }
    { cbn [despiked] in Hread. destruct (acc_spike O a1); apply (Hread t1 _ g1 (or_introl eq_refl)). }
    cbn [predictionMade c0 states length orb] in Hp1. change (3 <? 2)%nat with false in Hp1.
    unfold after_pending in E1. rewrite Hp1 in E1. cbn [bind] in E1.
    set (r1 := if acc_spike O a1 then last_am c else a1) in *.
    assert (r1 = ra t1 /\ g1 = rg t1) as [Er1 Eg1].
    { unfold r1. cbn [despiked] in Hread. destruct (acc_spike O a1); apply Hread; left; reflexivity. }
    assert (forall t a g, In (t, a, g) (despiked O (ra t1) (last_am c1) ((t2, a2, g2) :: (t3, a3, g3) :: imu_msgs O r)) ->
              a = ra t /\ g = rg t) as Hread1.
    { intros t a g Hin. apply Hread. cbn [despiked]. cbn [last_am c0] in Hl1. rewrite Hl1, <- Er1 in Hin. unfold r1 in Hin.
      rewrite Hra. destruct (acc_spike O a1); right; exact Hin. }
    clear Hread Er1 Eg1 r1.
    destruct (imu_batch t1 [] _ c1 a2 g2 t2 HB1 Hi1) as (c2 & s2 & HB2 & Hi2 & Hs2 & Hp2 & Hq2 & Hl2 & E2); auto.
    { cbn [despiked] in Hread1. destruct (acc_spike O a2); apply (Hread1 t2 _ g2); left; reflexivity. }
    { cbn [despiked] in Hread1. destruct (acc_spike O a2); apply (Hread1 t2 _ g2 (or_introl eq_refl)). }
    rewrite Hp1, Hs1 in Hp2. cbn [states c0 length app orb] in Hp2. change (3 <? 3)%nat with false in Hp2.
    unfold after_pending in E2. rewrite Hp2 in E2. cbn [bind] in E2.
    set (r2 := if acc_spike O a2 then last_am c1 else a2) in *.
    assert (r2 = ra t2 /\ g2 = rg t2) as [Er2 Eg2].
    { unfold r2. cbn [despiked] in Hread1. destruct (acc_spike O a2); apply Hread1; left; reflexivity. }
    assert (forall t a g, In (t, a, g) (despiked O (ra t2) (last_am c2) ((t3, a3, g3) :: imu_msgs O r)) ->
              a = ra t /\ g = rg t) as Hread2.
    { intros t a g Hin. apply Hread1. cbn [despiked]. rewrite Hl2, <- Er2 in Hin. unfold r2 in Hin.
      destruct (acc_spike O a2); right; exact Hin. }
    clear Hread1 Er2 Eg2 r2.
    destruct (imu_batch t2 [] _ c2 a3 g3 t3 HB2 Hi2) as (c3 & s3 & HB3 & Hi3 & Hs3 & Hp3 & Hq3 & Hl3 & E3); auto.
    { cbn [despiked] in Hread2. destruct (acc_spike O a3); apply (Hread2 t3 _ g3); left; reflexivity. }
    { cbn [despiked] in Hread2. destruct (acc_spike O a3); apply (Hread2 t3 _ g3 (or_introl eq_refl)). }
    rewrite Hp2, Hs2, Hs1 in Hp3. cbn [states c0 length app orb] in Hp3. change (3 <? 4)%nat with true in Hp3.
    assert (queue c3 = []) as Hq3' by (rewrite Hq3, Hq2, Hq1; reflexivity).
    unfold after_pending, HandlePendingMeasurements in E3. rewrite Hp3, Hq3' in E3. cbn [bind] in E3.
    set (r3 := if acc_spike O a3 then last_am c2 else a3) in *.
    assert (r3 = ra t3 /\ g3 = rg t3) as [Er3 Eg3].
    { unfold r3. cbn [despiked] in Hread2. destruct (acc_spike O a3); apply Hread2; left; reflexivity. }
    assert (forall t a g, In (t, a, g) (despiked O (ra t3) (last_am c3) (imu_msgs O r)) ->
              a = ra t /\ g = rg t) as Hread3.
    { intros t a g Hin. apply Hread2. cbn [despiked]. rewrite Hl3, <- Er3 in Hin. unfold r3 in Hin.
      destruct (acc_spike O a3); right; exact Hin. }
    clear Hread2 Er3 Eg3 r3.
    (* the rest *)
    destruct (run_batch (t0 :: imu_stamps O l) (taken O t0 l)) with (l := r) (c := c3) (n := t3) (M := @nil (Z * Meas O))
      (F := ((([(t0, s0)] ++ [(t1, s1)]) ++ [(t2, s2)]) ++ [(t3, s3)])) as (c' & ev & n' & F' & ER & HBF & HkF & HqF); auto.
    - rewrite Est. intros u Hu. apply StronglySorted_inv in Hsort as [_ Hf]. rewrite Est in Hf.
      destruct Hu as [<-|Hu]; [lia|]. rewrite Forall_forall in Hf. specialize (Hf _ Hu). lia.
    - rewrite El in Hcalls. unfold sensor_calls in *. do 3 apply Forall_cons_iff in Hcalls as [_ Hcalls]. exact Hcalls.
    - rewrite Est. intros t [<-|[<-|[<-|[<-|Ht]]]]; [left; lia|left; lia|left; lia|left; lia|auto].
    - rewrite Est. intros t Ht. right. right. right. right. exact Ht.
    - intros t. rewrite Est. cbn. split.
      + intros [<-|[<-|[<-|[<-|[]]]]]; left; split; auto 6; lia.
      + intros [[[<-|[<-|[<-|[<-|Ht]]]] Hle]|[]]; auto 6.
        exfalso. apply StronglySorted_inv in Hsr as [_ Hf]. rewrite Forall_forall in Hf. specialize (Hf _ Ht). lia.
    - rewrite Hq3'. unfold taken. rewrite Esch. reflexivity.
    - rewrite Hq3', <- Esch. intros k tm m Hin. specialize (Htime _ _ _ Hin). exact Htime.
    - rewrite Hq3', <- Esch. intros p1 k tm m p2 Ep. destruct (Href p1 k tm m p2 Ep) as [?|?]; [auto|right].
      split; [intros ? []|assumption].
    - exists c'. eexists. exists n', F'. split; [|split; [exact HBF|split; [exact HkF|]]].
      + rewrite El. cbn [run]. rewrite E0. cbn [bind].
        change (step O d c0 (CImu a1 g1 t1)) with (ProcessIMU O d c0 a1 g1 t1). rewrite E1. cbn [bind].
        change (step O d c1 (CImu a2 g2 t2)) with (ProcessIMU O d c1 a2 g2 t2). rewrite E2. cbn [bind].
        change (step O d c2 (CImu a3 g3 t3)) with (ProcessIMU O d c2 a3 g3 t3). rewrite E3. cbn [bind].
        rewrite ER. cbn [bind]. reflexivity.
      + rewrite HqF, Hq3', Esch. reflexivity.
  Qed.
End Batch.
