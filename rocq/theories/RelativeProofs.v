(** Lemmas about the core with relative measurements: it agrees with the core on
    absolute measurements, and it is free of undefined iterator use (C64). *)

From Coq Require Import ZArith List Lia ZifyBool ZifyNat Bool.
From Verif Require Import Outcome SortedContainer SortedContainerSpec SortedContainerProofs
     Core CoreBasics CoreInv CoreSteps CoreSafety Previous PreviousProofs Relative.
Import ListNotations.
Open Scope Z_scope.

(** ** Which of two queries gets the earlier state

    The buffer as far as the choice of a state depends on it: stamps, and whether
    the core states are numbers. *)
Section Pick.
  Variable d : nat -> dec_begin.
  Hypothesis Hd : forall n, (0 < n)%nat -> d n <> DecUB.
  Implicit Types (c S : cont bool) (t : Z).

  (** The exact choice of the closest position. *)
  Lemma closest_exactly : forall {A} (c : cont A) t p e,
    time_sorted c -> c <> [] -> GetIteratorClosest d c t = Ok p -> nth_error c p = Some e ->
    nearest c t e \/
    (d (length c) = DecBegin /\ p = 0%nat /\ lower_bound t c = 1%nat /\ ~ occupied c t).
  Proof.
    intros A c t p e Hs Hne Hp He.
    destruct (occupied_dec c t) as [Ho|Hfree].
    - left. rewrite (GetIteratorClosest_exact d c t Ho) in Hp. injection Hp as <-.
      destruct Ho as [a Ha]. rewrite (find_pos_nth c t a Hs Ha) in He. injection He as <-.
      apply nearest_exact; assumption.
    - destruct (closest_pos d c t Hs Hne) as (p' & e' & Hp' & He' & Hlb & Hn).
      { apply Hd. destruct c; [congruence|cbn; lia]. }
      rewrite Hp in Hp'. injection Hp' as <-. rewrite He in He'. injection He' as <-.
      destruct Hn as [->|Hn]; [|left; exact Hn].
      destruct (lower_bound t c) as [|[|i]] eqn:El; [| |lia].
      + left. split; [eapply nth_error_In; eauto|]. intros e' Hin. apply In_nth_error in Hin as [j Hj].
        pose proof (lower_bound_spec c t _ _ Hs Hj) as Hb. rewrite El in Hb.
        pose proof (lower_bound_spec c t _ _ Hs He) as Hb0. rewrite El in Hb0.
        pose proof (sorted_nth_le _ _ _ _ _ Hs He Hj) as Hle. lia.
      + destruct (d (length c)) eqn:Ed.
        * exfalso. apply (Hd (length c)); [destruct c; [congruence|cbn; lia]|exact Ed].
        * left. pose proof (proj1 (free_find c t) Hfree) as Hf.
          pose proof (bounds_free c t Hs Hf) as Hb. rewrite El in Hb.
          pose proof (nth_error_some_lt _ _ _ He) as Hlen.
          destruct (Nat.eq_dec (length c) 1) as [H1|H1].
          -- eapply nearest_after_all with (i := 0%nat); eauto. lia.
          -- destruct (nth_error_lt_some c 1) as [ep Hep]; [lia|].
             pose proof (nearest_between c t 0 e ep Hs Hf El He Hep) as Hnb.
             unfold GetIteratorClosest, GetIteratorClosestBefore, GetIteratorBeforeBegin,
               GetIteratorClosestAfter, pos_begin, pos_end in Hp.
             rewrite Hf, Nat.eqb_refl, El, <- Hb in Hp. cbn [negb it_dec] in Hp. rewrite Ed in Hp.
             unfold pos_end in Hp. cbn [bind] in Hp.
             replace (0 =? length c)%nat with false in Hp by lia.
             replace (1 =? length c)%nat with false in Hp by lia.
             unfold it_deref in Hp. rewrite He, Hep in Hp. cbn [bind] in Hp.
             destruct (Z.abs (fst ep - t) <? Z.abs (fst e - t)); [discriminate|exact Hnb].
        * right. auto.
  Qed.

  Lemma closest_begin : forall {A} (c : cont A) t,
    d (length c) = DecBegin -> lower_bound t c = 1%nat -> ~ occupied c t ->
    GetIteratorClosest d c t = Ok 0%nat.
  Proof.
    intros A c t Ed El Hfree. pose proof (proj1 (free_find c t) Hfree) as Hf.
    unfold GetIteratorClosest, GetIteratorClosestBefore, GetIteratorBeforeBegin, pos_begin, pos_end.
    rewrite Hf, Nat.eqb_refl, El. cbn [negb it_dec]. rewrite Ed. reflexivity.
  Qed.

  (** The test of lines 776-785 for inserting an interpolated state. *)
  Definition interp_ok (c : cont bool) (t : Z) : bool :=
    match GetClosestBefore c t, GetClosestAfter c t with
    | Some (tl, nl), Some (tn, nn) =>
        negb (tl =? INVALID_TIME) && negb (tn =? INVALID_TIME) && nl && nn && negb (tl =? tn)
    | _, _ => false
    end.

  (** The state used for time [t]: at [ts], a new one if [new]. *)
  Definition picks (c : cont bool) (t ts : Z) (new : bool) : Prop :=
    exists p e, GetIteratorClosest d c t = Ok p /\ nth_error c p = Some e /\
      new = (Z.abs (fst e - t) >? thr_interp) && interp_ok c t /\
      ts = if new then t else fst e.

  (** The stored state is the last before [t] and nothing lies between. *)
  Lemma picks_before : forall c t ts, time_sorted c -> c <> [] -> picks c t ts false -> ts < t ->
    (exists x, In (ts, x) c) /\ (forall e, In e c -> fst e <= ts \/ t < fst e) /\
    (forall e, In e c -> t < fst e -> d (length c) = DecBegin /\ (forall e', In e' c -> ts <= fst e')
       \/ t - ts <= fst e - t).
  Proof.
    intros c t ts Hs Hne (p & e & Hp & He & Hnew & Hts) Hlt. cbn in Hts. subst ts.
    pose proof (nth_error_In _ _ He) as Hin.
    split; [destruct e as [k x]; exists x; exact Hin|].
    destruct (closest_exactly c t p e Hs Hne Hp He) as [[_ Hn]|(Hdb & -> & El & Hf)].
    - split.
      + intros e' He'. destruct (Hn _ He') as [H1 H2]. lia.
      + intros e' He' Ht. right. destruct (Hn _ He') as [H1 H2]. lia.
    - assert (forall e', In e' c -> fst e <= fst e') as Hmin.
      { intros e' He'. apply In_nth_error in He' as [j Hj].
        pose proof (sorted_nth_le _ _ _ _ _ Hs He Hj) as Hle. lia. }
      split; [|intros; left; auto].
      intros e' He'. apply In_nth_error in He' as [j Hj].
      pose proof (lower_bound_spec c t _ _ Hs Hj) as Hb. rewrite El in Hb.
      destruct j as [|j]; [rewrite He in Hj; injection Hj as <-; left; lia|]. right.
      assert (t <= fst e') as Hle by lia.
      assert (fst e' <> t); [|lia]. intros E. apply Hf. destruct e' as [k y]. cbn in E. subst k.
      exists y. eapply nth_error_In; eauto.
  Qed.

  Lemma before_of : forall {A} (c : cont A) t k x, time_sorted c -> In (k, x) c -> k < t ->
    (forall e, In e c -> fst e < t -> fst e <= k) -> GetClosestBefore c t = Some (k, x).
  Proof.
    intros A c t k x Hs Hin Hlt Hmax.
    destruct (GetClosestBefore_spec c t Hs) as [[k' x'] [Hb (H1 & H2 & H3)]]; [exists (k, x); auto|].
    rewrite Hb. specialize (Hmax _ H1 H2). specialize (H3 _ Hin Hlt). cbn in *.
    assert (k' = k) as -> by lia. f_equal. f_equal. eapply sorted_unique; eauto.
  Qed.

  Lemma after_of : forall {A} (c : cont A) t k x, time_sorted c -> In (k, x) c -> t < k ->
    (forall e, In e c -> t < fst e -> k <= fst e) -> GetClosestAfter c t = Some (k, x).
  Proof.
    intros A c t k x Hs Hin Hlt Hmin. destruct (GetClosestAfter c t) as [[k' x']|] eqn:E.
    - apply GetClosestAfter_some in E as (H1 & H2 & H3); [|exact Hs].
      specialize (Hmin _ H1 H2). specialize (H3 _ Hin Hlt). cbn in *.
      assert (k' = k) as -> by lia. f_equal. f_equal. eapply sorted_unique; eauto.
    - pose proof (proj1 (GetClosestAfter_none c t Hs) E _ Hin) as H. cbn in H. lia.
  Qed.

  (** Two queries in time order, the second one (for the earlier time) made on what
      is left of the buffer: the states come in the same order. *)
  Lemma picks_order : forall c c' tm ts new tp told new',
    time_sorted c -> c <> [] -> picks c tm ts new ->
    time_sorted c' -> c' <> [] -> occupied c' ts ->
    (new = false -> exists n, c' = skipn n c) ->
    tp < tm -> picks c' tp told new' -> told <= ts.
  Proof.
    intros c c' tm ts new tp told new' Hs Hne Hpick Hs' Hne' [xs Hxs] Hsuf Hlt Hpick'.
    destruct (Z_lt_le_dec ts told) as [Hgt|]; [exfalso|assumption].
    destruct new.
    { (* the state is at [tm] itself *)
      assert (ts = tm) as -> by (destruct Hpick as (p & e & _ & _ & _ & Ht); exact Ht).
      destruct Hpick' as (p & e & Hp & He & Hnew & Hts).
      destruct new'; [lia|].
      destruct (closest_exactly c' tp p e Hs' Hne' Hp He) as [[_ Hn]|(_ & -> & _ & _)].
      - destruct (Hn _ Hxs) as [H1 _]. cbn in H1. lia.
      - pose proof (first_min c' e Hs' He tm (ex_intro _ xs Hxs)). lia. }
    destruct (Hsuf eq_refl) as [n Hc'].
    assert (forall e, In e c' -> In e c) as Hsub.
    { intros e He. rewrite <- (firstn_skipn n c). apply in_or_app. right. rewrite <- Hc'. exact He. }
    destruct (Z_lt_le_dec ts tp) as [Hlt'|Hge].
    2:{ (* the first state is not before [tp] *)
        destruct Hpick' as (p & e & Hp & He & Hnew & Hts). destruct new'; [lia|].
        destruct (closest_exactly c' tp p e Hs' Hne' Hp He) as [[_ Hn]|(_ & -> & _ & _)].
        - destruct (Hn _ Hxs) as [H1 _]. cbn in H1. lia.
        - pose proof (first_min c' e Hs' He ts (ex_intro _ xs Hxs)). lia. }
    destruct (picks_before c tm ts Hs Hne Hpick) as (_ & Hgap & Hfar); [lia|].
    (* if the first state heads the old buffer nothing was removed *)
    assert ((forall e', In e' c -> ts <= fst e') -> c' = c) as Hall.
    { intros Hmin. rewrite Hc'. destruct n as [|n]; [reflexivity|]. exfalso.
      assert (In (ts, xs) (skipn (S n) c)) as Hx by (rewrite <- Hc'; exact Hxs).
      destruct c as [|[k0 x0] r]; [congruence|].
      apply sorted_cons_inv in Hs as [_ Hf].
      assert (In (ts, xs) r) as Hr by (rewrite <- (firstn_skipn n r); apply in_or_app; right; exact Hx).
      specialize (Hf _ _ Hr). specialize (Hmin (k0, x0) (or_introl eq_refl)). cbn in Hmin. lia. }
    assert (~ occupied c' tp) as Hfree.
    { intros [y Hy]. destruct (Hgap _ (Hsub _ Hy)) as [H|H]; cbn in H; lia. }
    assert (d (length c) = DecBegin -> (forall e', In e' c -> ts <= fst e') ->
            GetIteratorClosest d c' tp = Ok 0%nat /\ nth_error c' 0 = Some (ts, xs)) as Hquirk.
    { intros Edb Hmin. pose proof (Hall Hmin) as E. rewrite E in *.
      apply In_nth_error in Hxs as [j Hj].
      assert (j = 0%nat) as ->.
      { destruct j; [reflexivity|]. exfalso. destruct c as [|[k0 x0] r]; [congruence|].
        pose proof (sorted_nth_lt _ 0 (S j) (k0, x0) _ Hs eq_refl Hj ltac:(lia)) as H. cbn in H.
        specialize (Hmin (k0, x0) (or_introl eq_refl)). cbn in Hmin. lia. }
      split; [|exact Hj]. apply closest_begin; [exact Edb| |exact Hfree].
      destruct c as [|[k0 x0] r]; [congruence|]. cbn in Hj. injection Hj as -> ->.
      cbn. replace (ts <? tp) with true by lia. f_equal.
      destruct r as [|[k1 x1] r]; [reflexivity|]. cbn.
      destruct (Hgap (k1, x1) (or_intror (or_introl eq_refl))) as [H|H]; cbn in H.
      - apply sorted_cons_inv in Hs as [_ Hf]. specialize (Hf _ _ (or_introl eq_refl)). lia.
      - replace (k1 <? tp) with false by lia. reflexivity. }
    (* the closest stored state for [tp] is the first state *)
    destruct Hpick' as (p & e & Hp & He & Hnew & Hts).
    assert (fst e = ts) as Hets.
    { destruct (closest_exactly c' tp p e Hs' Hne' Hp He) as [[Hin Hn]|(Edb & -> & _ & _)].
      - destruct (Hgap _ (Hsub _ Hin)) as [H|H].
        + destruct (Hn _ Hxs) as [H1 H2]. cbn in H1, H2. lia.
        + destruct (Hfar _ (Hsub _ Hin) H) as [[Edb Hmin]|Hf].
          * destruct (Hquirk Edb Hmin) as [Hq1 Hq2]. rewrite Hq1 in Hp. injection Hp as <-.
            rewrite Hq2 in He. injection He as <-. reflexivity.
          * destruct (Hn _ Hxs) as [H1 H2]. cbn in H1, H2. lia.
      - pose proof (first_min c' e Hs' He ts (ex_intro _ xs Hxs)) as H1.
        destruct (Hgap _ (Hsub _ (nth_error_In _ _ He))) as [H|H]; [|lia].
        (* the head is not the first state: then it would not be the only one before *)
        destruct (Z.eq_dec (fst e) ts) as [|Hneq]; [assumption|]. exfalso.
        assert (lower_bound tp c' = 1%nat) as El.
        { destruct (closest_exactly c' tp 0 e Hs' Hne' Hp He) as [[_ Hn]|(_ & _ & El & _)]; [|exact El].
          destruct (Hn _ Hxs) as [H2 _]. cbn in H2. lia. }
        apply In_nth_error in Hxs as [j Hj].
        pose proof (lower_bound_spec c' tp _ _ Hs' Hj) as Hb. rewrite El in Hb. cbn in Hb.
        destruct j; [rewrite He in Hj; injection Hj as ->; cbn in Hneq; lia|lia]. }
    destruct new'; [|lia]. subst told. symmetry in Hnew. apply andb_prop in Hnew as [Habs Hok].
    rewrite Hets in Habs.
    (* the same test failed for [tm] *)
    destruct Hpick as (p0 & e0 & Hp0 & He0 & Hnew0 & Hts0). cbn in Hts0. subst ts.
    assert (Z.abs (fst e0 - tm) >? thr_interp = true) as Hab0 by lia.
    rewrite Hab0 in Hnew0. cbn [andb] in Hnew0.
    assert (interp_ok c tm = interp_ok c' tp) as Hsame; [|congruence].
    unfold interp_ok.
    rewrite (before_of c tm (fst e0) xs Hs (Hsub _ Hxs)); [|lia|].
    2:{ intros e' He' Hl. destruct (Hgap _ He'); lia. }
    rewrite (before_of c' tp (fst e0) xs Hs' Hxs); [|lia|].
    2:{ intros e' He' Hl. destruct (Hgap _ (Hsub _ He')); lia. }
    replace (GetClosestAfter c' tp) with (GetClosestAfter c tm); [reflexivity|].
    destruct (GetClosestAfter c' tp) as [[tn nn]|] eqn:Ea'.
    - apply GetClosestAfter_some in Ea' as (H1 & H2 & H3); [|exact Hs'].
      apply after_of; [exact Hs|apply Hsub; exact H1| |]; cbn in *.
      { destruct (Hgap _ (Hsub _ H1)) as [H|H]; cbn in H; lia. }
      intros e' He' Ht. apply H3; [|lia].
      (* elements behind a kept one are kept *)
      rewrite Hc'. apply In_nth_error in He' as [j Hj]. apply skipn_In_nth. exists j. split; [|exact Hj].
      assert (In (fst e0, xs) (skipn n c)) as Hx by (rewrite <- Hc'; exact Hxs).
      apply skipn_In_nth in Hx as [j0 [Hj0 Hj0']].
      destruct (le_lt_dec n j) as [|Hjn]; [assumption|].
      pose proof (sorted_nth_lt _ _ _ _ _ Hs Hj Hj0' ltac:(lia)) as Hb. cbn in Hb. lia.
    - apply GetClosestAfter_none; [exact Hs|]. intros e' He'.
      destruct (Z_lt_le_dec tm (fst e')) as [Ht|]; [|lia]. exfalso.
      assert (In e' c') as Hin'.
      { rewrite Hc'. apply In_nth_error in He' as [j Hj]. apply skipn_In_nth. exists j. split; [|exact Hj].
        assert (In (fst e0, xs) (skipn n c)) as Hx by (rewrite <- Hc'; exact Hxs).
        apply skipn_In_nth in Hx as [j0 [Hj0 Hj0']].
        destruct (le_lt_dec n j) as [|Hjn]; [assumption|].
        pose proof (sorted_nth_lt _ _ _ _ _ Hs Hj Hj0' ltac:(lia)) as Hb. cbn in Hb. lia. }
      pose proof (proj1 (GetClosestAfter_none c' tp Hs') Ea' _ Hin') as Hb. lia.
  Qed.
End Pick.

(** ** The extended machine beside the core *)
Section Proj.
  Variable O : ops.
  Variable R : rel_ops O.
  Variable d : nat -> dec_begin.
  Notation st := (st O).
  Notation core := (core O).
  Notation rcore := (rcore O R).

  (** Forget the transition matrices. *)
  Definition forget1 (r : res rcore) : res core := let* c := r in Ok (base c).
  Definition forget {A : Type} (r : res (rcore * A)) : res (core * A) :=
    let* (c, a) := r in Ok (base c, a).

  Lemma rPropPToState_forget : forall c tt,
    forget1 (rPropPToState O R c tt) = PropPToState O (base c) tt.
  Proof.
    intros c tt. unfold forget1, rPropPToState.
    destruct (PropPToState O (base c) tt); reflexivity.
  Qed.

  Lemma rPropagatePOneStep_forget : forall c,
    forget1 (rPropagatePOneStep O R c) = PropagatePOneStep O (base c).
  Proof.
    intros c. unfold forget1, rPropagatePOneStep.
    destruct (PropagatePOneStep O (base c)); reflexivity.
  Qed.

  Lemma rGetClosestState_forget : forall c t,
    forget (rGetClosestState O R d c t) = GetClosestState O d (base c) t.
  Proof.
    intros c t. unfold forget, rGetClosestState, GetClosestState.
    destruct (GetIteratorClosest d (states (base c)) t) as [p| |]; cbn [bind]; try reflexivity.
    destruct (it_deref (states (base c)) p) as [e| |]; cbn [bind]; try reflexivity.
    destruct (_ || _); [reflexivity|].
    destruct (interpolate O (base c) t (fst e)) as [b1 tc].
    unfold rPropPToState. cbn [base].
    destruct (PropPToState O b1 tc) as [b2| |]; cbn [bind base]; try reflexivity.
    destruct (GetValueAt (states b2) tc) as [[k s]|]; [|reflexivity].
    destruct (negb (numeric O (s_val s))); [reflexivity|].
    destruct (janitor b2 >? janitor_limit); [|reflexivity].
    destruct (CleanUpBuffers O d b2); reflexivity.
  Qed.

  Lemma rmeas_body_forget : forall c tm m rest a, r_relative R m = false ->
    forget (rmeas_body O R d c tm m rest a) = meas_body O d (base c) tm m rest a.
  Proof.
    intros c tm m rest a Hm. unfold rmeas_body, meas_body.
    destruct (tm <=? 0); [reflexivity|].
    pose proof (rGetClosestState_forget c tm) as Hg. unfold forget in Hg.
    destruct (rGetClosestState O R d c tm) as [[c1 os]| |]; cbn [bind] in Hg; rewrite <- Hg;
      cbn [bind]; try reflexivity.
    destruct os as [[ts s]|]; [|reflexivity].
    destruct (negb (has_key tm (meas (base c1)))); [reflexivity|].
    destruct (ts <=? 0); [reflexivity|].
    unfold rapply. rewrite Hm. cbn [negb bind base trs].
    match goal with |- forget (bind ?x _) = _ => destruct x as [pe| |]; try reflexivity end.
    cbn [bind].
    match goal with |- forget (bind ?x _) = _ => destruct x as [pn| |]; try reflexivity end.
    cbn [bind].
    destruct (skipn _ _) as [|[told sold] rs]; [reflexivity|].
    destruct (reprop O _ pe told sold rs); reflexivity.
  Qed.

  Lemma rmeas_loop_forget : forall todo c a,
    (forall t m, In (t, m) todo -> r_relative R m = false) ->
    forget (rmeas_loop O R d c todo a) = meas_loop O d (base c) todo a.
  Proof.
    induction todo as [|[tm m] r IH]; intros c a Hall; cbn [rmeas_loop meas_loop]; [reflexivity|].
    pose proof (rmeas_body_forget c tm m r a (Hall tm m (or_introl eq_refl))) as Hb.
    unfold forget in Hb.
    destruct (rmeas_body O R d c tm m r a) as [[c1 a1]| |]; cbn [bind] in Hb; rewrite <- Hb;
      cbn [bind]; try reflexivity.
    apply IH. intros t m' Hin. apply (Hall t m'). right. exact Hin.
  Qed.

  (** All stored measurements are absolute. *)
  Definition all_abs (b : core) : Prop :=
    (forall t m, In (t, m) (meas b) -> r_relative R m = false) /\
    (forall t m, In (t, m) (queue b) -> r_relative R m = false).

  Lemma insert_list_In : forall {A} t (a : A) c e,
    In e (insert_list t a c) -> e = (t, a) \/ In e c.
  Proof.
    intros A t a c. induction c as [|[k x] r IH]; intros e; cbn; [intuition|].
    destruct (k <? t); [|destruct (k =? t)]; cbn; intuition.
    destruct (IH _ H0); auto.
  Qed.

  Lemma rAddMeasurement_forget : forall c tm m, all_abs (base c) -> r_relative R m = false ->
    forget (rAddMeasurement O R d c tm m) = AddMeasurement O d (base c) tm m.
  Proof.
    intros c tm m [Ha _] Hm. unfold rAddMeasurement, AddMeasurement.
    destruct (_ || _); [reflexivity|].
    destruct (tm >? _); [reflexivity|]. destruct (tm <? _); [reflexivity|].
    cbn [Insert]. set (ms := insert_list tm m (meas (base c))).
    pose proof (rmeas_loop_forget (skipn (find_pos tm ms) ms)
                  (mkr (set_meas O (base c) ms) (trs c)) false) as Hl.
    cbn [base] in Hl. rewrite <- Hl.
    2:{ intros t m' Hin. assert (In (t, m') ms) as Hin'.
        { rewrite <- (firstn_skipn (find_pos tm ms) ms). apply in_or_app. right. exact Hin. }
        apply insert_list_In in Hin' as [E|Hin']; [injection E as -> ->; exact Hm|eauto]. }
    unfold forget.
    destruct (rmeas_loop O R d _ _ _) as [[c1 ap]| |]; cbn [bind]; try reflexivity.
    destruct (negb ap); [reflexivity|].
    pose proof (rPropPToState_forget c1 (otime (GetLast (states (base c1))))) as Hp.
    unfold forget1 in Hp.
    destruct (rPropPToState O R c1 _) as [c2| |]; cbn [bind] in Hp; rewrite <- Hp; cbn [bind];
      try reflexivity.
    destruct (GetLast (states (base c2))) as [[t s]|]; reflexivity.
  Qed.

  Lemma rHandlePending_forget : forall c, all_abs (base c) ->
    forget (rHandlePending O R d c) = HandlePendingMeasurements O d (base c).
  Proof.
    intros c [Hm Hq]. unfold rHandlePending, HandlePendingMeasurements.
    destruct (queue (base c)) as [|[tm m] q] eqn:Eq; [reflexivity|].
    rewrite rAddMeasurement_forget; [reflexivity| |].
    - split; [exact Hm|]. cbn. intros t m' Hin. apply (Hq t m'). right. exact Hin.
    - apply (Hq tm m). left. reflexivity.
  Qed.

  Lemma abs_flags : forall b i p, all_abs b -> all_abs (set_flags O b i p).
  Proof. intros b i p H. exact H. Qed.

  Lemma one_step_abs : forall b b', PropagatePOneStep O b = Ok b' -> all_abs b -> all_abs b'.
  Proof.
    intros b b' H. apply PropagatePOneStep_frame in H as [(i & p & -> & _) _]. auto.
  Qed.

  Lemma rProcessIMU_forget : forall c a g t, all_abs (base c) ->
    forget (rProcessIMU O R d c a g t) = ProcessIMU O d (base c) a g t.
  Proof.
    intros c a g t Habs. unfold rProcessIMU, ProcessIMU.
    destruct (negb (initialized (base c))); [reflexivity|].
    destruct (deref_last O d (base c) t) as [[b0 [tl sl]]| |] eqn:Ed; cbn [bind]; try reflexivity.
    apply deref_last_frame in Ed as [_ Hb0].
    assert (all_abs b0) as Habs0 by (destruct Hb0 as [i ->]; exact Habs).
    destruct (tl =? INVALID_TIME); [reflexivity|].
    destruct (_ && predictionMade b0); [reflexivity|]. cbv zeta.
    set (b1 := if acc_spike O a then b0 else set_last_am O b0 (s_acc sl)).
    assert (all_abs b1) as Habs1 by (unfold b1; destruct (acc_spike O a); exact Habs0).
    destruct (_ && _); [reflexivity|].
    unfold imu_finish.
    match goal with |- context [rPropagatePOneStep O R ?x] => set (c2 := x) end.
    pose proof (rPropagatePOneStep_forget c2) as Hp. unfold forget1 in Hp.
    assert (base c2 = set_it O (set_states O b1 (fst (Insert (states b1) t
              (prop_val O tl sl t (mkst (if acc_spike O a then last_am b0 else a) g (s_val sl) (cov_zero O))))))
              (ItAt t)) as Hc2 by reflexivity.
    rewrite Hc2 in Hp.
    destruct (rPropagatePOneStep O R c2) as [c3| |]; cbn [bind] in Hp; rewrite <- Hp; cbn [bind];
      try reflexivity.
    symmetry in Hp. apply one_step_abs in Hp; [|exact Habs1].
    destruct (3 <? Size (states (base c3)))%nat; cbn [base predictionMade set_flags].
    - pose proof (rHandlePending_forget
                    (mkr (set_flags O (base c3) (initialized (base c3)) true) (trs c3)) Hp) as Hh.
      unfold forget in Hh. cbn [base] in Hh.
      destruct (rHandlePending O R d _) as [[c5 ev]| |]; cbn [bind] in Hh; rewrite <- Hh; reflexivity.
    - destruct (predictionMade (base c3)); [|reflexivity].
      pose proof (rHandlePending_forget c3 Hp) as Hh. unfold forget in Hh.
      destruct (rHandlePending O R d c3) as [[c5 ev]| |]; cbn [bind] in Hh; rewrite <- Hh; reflexivity.
  Qed.

  Lemma rProcessExt_forget : forall c a g x already t, all_abs (base c) ->
    forget (rProcessExt O R d c a g x already t) =
    ProcessExternallyPropagatedState O d (base c) a g x already t.
  Proof.
    intros c a g x already t Habs. unfold rProcessExt, ProcessExternallyPropagatedState.
    destruct (negb (initialized (base c))); [reflexivity|].
    destruct (GetLast (states (base c))) as [[tl sl]|]; [|reflexivity].
    destruct (tl =? INVALID_TIME); [reflexivity|]. cbv zeta.
    set (b1 := if acc_spike O a then base c else set_last_am_ext O (base c) a).
    assert (all_abs b1) as Habs1 by (unfold b1; destruct (acc_spike O a); exact Habs).
    destruct (_ && _); [reflexivity|].
    match goal with |- context [Insert (states ?w) t ?nn] => set (new' := nn); set (b2 := w) end.
    assert (all_abs b2) as Habs2.
    { unfold b2. destruct (predictionMade b1); [exact Habs1|]. split; intros ? ? []. }
    match goal with |- context [rPropagatePOneStep O R ?x] => set (c3 := x) end.
    pose proof (rPropagatePOneStep_forget c3) as Hp. unfold forget1 in Hp.
    change (base c3) with (set_states O b2 (fst (Insert (states b2) t new'))) in Hp.
    destruct (rPropagatePOneStep O R c3) as [c4| |]; cbn [bind] in Hp; rewrite <- Hp; cbn [bind];
      try reflexivity.
    symmetry in Hp. apply one_step_abs in Hp; [|exact Habs2].
    pose proof (rHandlePending_forget
                  (mkr (set_flags O (base c4) (initialized (base c4)) true) (trs c4)) Hp) as Hh.
    unfold forget in Hh. cbn [base] in Hh.
    destruct (rHandlePending O R d _) as [[c5 ev]| |]; cbn [bind] in Hh; rewrite <- Hh; reflexivity.
  Qed.

  Definition abs_call (k : call O) : Prop :=
    match k with CMeas _ m => r_relative R m = false | _ => True end.

  Lemma rstep_forget : forall c k, all_abs (base c) -> abs_call k ->
    forget (rstep O R d c k) = step O d (base c) k.
  Proof.
    intros c [t s|a g t|a g x b t|t m] Habs Hk; cbn [rstep step].
    - destruct (Init O (base c) t s); reflexivity.
    - apply rProcessIMU_forget. exact Habs.
    - apply rProcessExt_forget. exact Habs.
    - apply rAddMeasurement_forget; assumption.
  Qed.

  Let T {A : Type} : A -> Prop := fun _ => True.

  Lemma trivially_closed :
    closed O T T T T (fun m => r_relative R m = false) T T.
  Proof. constructor; intros; repeat split; exact I. Qed.

  Lemma rrun_forget : forall l c,
    good O T T T T (fun m => r_relative R m = false) T (base c) ->
    Forall abs_call l -> forget (rrun O R d c l) = run O d (base c) l.
  Proof.
    induction l as [|k r IH]; intros c Hg Hl; cbn [rrun run]; [reflexivity|].
    inversion Hl as [|? ? Hk Hr]; subst.
    assert (all_abs (base c)) as Habs.
    { split; [exact (g_measP _ _ _ _ _ _ _ _ Hg)|exact (g_queue _ _ _ _ _ _ _ _ Hg)]. }
    pose proof (rstep_forget c k Habs Hk) as Hs. unfold forget in Hs.
    destruct (rstep O R d c k) as [[c1 e1]| |] eqn:E1; cbn [bind] in Hs; rewrite <- Hs; cbn [bind];
      try reflexivity.
    symmetry in Hs.
    eapply (step_good O d T T T T (fun m => r_relative R m = false) T T trivially_closed) in Hs
      as [Hg1 _]; [|exact Hg|].
    2:{ destruct k; cbn; repeat split; auto. }
    specialize (IH c1 Hg1 Hr). unfold forget in IH |- *.
    destruct (rrun O R d c1 r) as [[c2 e2]| |]; cbn [bind] in IH; rewrite <- IH; reflexivity.
  Qed.

  Lemma rrun_forget_new : forall l g, Forall abs_call l ->
    forget (rrun O R d (rcore_new O R g) l) = run O d (core_new O g) l.
  Proof.
    intros l g Hl. rewrite rrun_forget; [reflexivity| |exact Hl].
    cbn. constructor; cbn; try (intros ? ? []); try exact I.
    - split; [constructor|intros ? ? []].
    - constructor.
  Qed.
End Proj.

(** ** Absence of undefined iterator use *)
Section VMap.
  Context {A B : Type}.
  Variable f : A -> B.
  Definition vmap (c : cont A) : cont B := map (fun e => (fst e, f (snd e))) c.

  Lemma vmap_keys : forall c, map fst (vmap c) = keys c.
  Proof. intros c. unfold vmap. rewrite map_map. reflexivity. Qed.

  Lemma vmap_length : forall c, length (vmap c) = length c.
  Proof. intros c. apply map_length. Qed.

  Lemma vmap_nth : forall c p, nth_error (vmap c) p =
    match nth_error c p with Some e => Some (fst e, f (snd e)) | None => None end.
  Proof.
    intros c p. unfold vmap. rewrite nth_error_map. destruct (nth_error c p); reflexivity.
  Qed.

  Lemma vmap_closest : forall d c t, GetIteratorClosest d (vmap c) t = GetIteratorClosest d c t.
  Proof.
    intros d c t. unfold GetIteratorClosest, GetIteratorClosestBefore, GetIteratorBeforeBegin,
      GetIteratorClosestAfter, pos_end, pos_begin, it_dec, it_deref, pos_end, pos_begin.
    rewrite (find_pos_keys c (vmap c) t (vmap_keys c)),
      (lower_bound_keys c (vmap c) t (vmap_keys c)),
      (upper_bound_keys c (vmap c) t (vmap_keys c)), vmap_length.
    destruct (negb _); [reflexivity|].
    match goal with |- bind ?x _ = bind ?x _ => destruct x as [p| |]; cbn [bind]; try reflexivity end.
    match goal with |- bind ?x _ = bind ?x _ => destruct x as [q| |]; cbn [bind]; try reflexivity end.
    destruct (_ =? _)%nat; [reflexivity|]. destruct (_ =? _)%nat; [reflexivity|].
    destruct (_ =? _)%nat; [reflexivity|].
    rewrite !vmap_nth.
    destruct (nth_error c (upper_bound t c)); cbn [bind]; [|reflexivity].
    destruct (nth_error c p); reflexivity.
  Qed.

  Lemma vmap_before : forall c t, GetClosestBefore (vmap c) t =
    match GetClosestBefore c t with Some e => Some (fst e, f (snd e)) | None => None end.
  Proof.
    intros c t. unfold GetClosestBefore.
    rewrite (lower_bound_keys c (vmap c) t (vmap_keys c)).
    destruct c as [|e r]; [reflexivity|].
    change (match vmap (e :: r) with [] => None | _ :: _ =>
              match lower_bound t (e :: r) with
              | O => nth_error (vmap (e :: r)) 0
              | S p => nth_error (vmap (e :: r)) p end end)
      with (match lower_bound t (e :: r) with
            | O => nth_error (vmap (e :: r)) 0
            | S p => nth_error (vmap (e :: r)) p end).
    destruct (lower_bound t (e :: r)); apply vmap_nth.
  Qed.

  Lemma vmap_after : forall c t, GetClosestAfter (vmap c) t =
    match GetClosestAfter c t with Some e => Some (fst e, f (snd e)) | None => None end.
  Proof.
    intros c t. unfold GetClosestAfter.
    rewrite (upper_bound_keys c (vmap c) t (vmap_keys c)). apply vmap_nth.
  Qed.

  Lemma vmap_occupied : forall c k, occupied (vmap c) k <-> occupied c k.
  Proof.
    intros c k. rewrite <- !in_keys_occupied. unfold keys at 1. rewrite vmap_keys. tauto.
  Qed.

  Lemma vmap_skipn : forall n c, vmap (skipn n c) = skipn n (vmap c).
  Proof. induction n as [|n IH]; intros [|e r]; cbn; auto. Qed.

  Lemma vmap_app : forall c c', vmap (c ++ c') = vmap c ++ vmap c'.
  Proof. intros. apply map_app. Qed.
End VMap.

Section Safety.
  Variable O : ops.
  Variable R : rel_ops O.
  Variable d : nat -> dec_begin.
  Hypothesis Hd : forall n, (0 < n)%nat -> d n <> DecUB.
  Notation st := (st O).
  Notation core := (core O).
  Notation rcore := (rcore O R).

  Definition num (s : st) : bool := numeric O (s_val s).
  Definition flags (c : core) : cont bool := vmap num (states c).

  (** The prediction of covariances leaves the values alone. *)
  Lemma propP_vals : forall rest told sold tt tP,
    vmap num (fst (propP_loop O told sold rest tt tP)) = vmap num rest.
  Proof.
    induction rest as [|[t s] r IH]; intros told sold tt tP; cbn [propP_loop]; [reflexivity|].
    destruct (t <=? tt); [|reflexivity].
    destruct (pred_cov O told sold t s tP) as [s' tP'] eqn:E.
    specialize (IH t s' tt tP').
    destruct (propP_loop O t s' r tt tP') as [r' tP'']. cbn in *. f_equal; [|exact IH].
    unfold pred_cov in E. destruct (_ <=? 0); injection E as <- _; reflexivity.
  Qed.

  Lemma PropPToState_flags : forall c tt c', PropPToState O c tt = Ok c' -> flags c' = flags c.
  Proof.
    intros c tt c' H. unfold PropPToState in H. inv_bind H.
    destruct (skipn _ (states c)) as [|[told sold] rest] eqn:Es; [discriminate|].
    pose proof (propP_vals rest told sold tt (time_P c)) as Hv.
    destruct (propP_loop O told sold rest tt (time_P c)) as [rest' tP]. injection H as <-.
    unfold flags. cbn [states set_time_P set_states].
    transitivity (vmap num (firstn (GetIteratorAtValue (states c) (time_P c)) (states c) ++
                            skipn (GetIteratorAtValue (states c) (time_P c)) (states c)));
      [|rewrite firstn_skipn; reflexivity].
    rewrite Es, !vmap_app. f_equal. cbn in *. f_equal. exact Hv.
  Qed.

  Lemma interpolate_flags : forall c t k c1 ts,
    interpolate O c t k = (c1, ts) ->
    let new := (Z.abs (k - t) >? thr_interp) && interp_ok (flags c) t in
    ts = (if new then t else k) /\ (new = false -> c1 = c).
  Proof.
    intros c t k c1 ts H. unfold interpolate in H. unfold interp_ok, flags.
    rewrite vmap_before, vmap_after.
    destruct (Z.abs (k - t) >? thr_interp); cbn [andb]; [|injection H as <- <-; auto].
    destruct (GetClosestBefore (states c) t) as [[tl sl]|]; [|injection H as <- <-; auto].
    destruct (GetClosestAfter (states c) t) as [[tn sn]|]; [|injection H as <- <-; auto].
    cbn [fst snd]. fold (num sl) (num sn) in H.
    destruct (_ && _); injection H as <- <-; cbn; split; auto; discriminate.
  Qed.

  Lemma CleanUpBuffers_flags : forall c c', time_sorted (states c) -> states c <> [] ->
    CleanUpBuffers O d c = Ok c' ->
    exists n, flags c' = skipn n (flags c).
  Proof.
    intros c c' Hs Hne H. apply CleanUpBuffers_frame in H as (Hc & _ & _).
    destruct (top_exists (states c) Hs Hne) as [n [[x Hx] Hm]].
    assert (newest (states c) (n, x)) as Hn by (split; [exact Hx|exact Hm]).
    destruct (ClearOlderThan_cases d (states c) buffer_age (states c') _ Hs Hn) as (p & Hp & _).
    { unfold buffer_age, second. lia. }
    { exact Hc. }
    exists p. unfold flags. rewrite Hp. apply vmap_skipn.
  Qed.

  (** What a successful GetClosestState chose. *)
  Lemma GetClosestState_picks : forall c t c' ts s,
    time_sorted (states c) -> states c <> [] -> GetClosestState O d c t = Ok (c', Some (ts, s)) ->
    exists new, picks d (flags c) t ts new /\
                (new = false -> exists k, flags c' = skipn k (flags c)).
  Proof.
    intros c t c' ts s Hs Hne H.
    unfold GetClosestState in H. inv_bind H. rename a into p. inv_bind H. rename a into e.
    destruct (_ || _); [discriminate|].
    destruct (interpolate O c t (fst e)) as [c1 tc] eqn:Ei.
    apply interpolate_flags in Ei. cbv zeta in Ei. destruct Ei as [Htc Hc1].
    inv_bind H. rename a into c2.
    destruct (GetValueAt (states c2) tc) as [[k s']|]; [|discriminate].
    destruct (negb _); [discriminate|].
    inv_bind H. rename a into c3. injection H as <- <- <-.
    unfold it_deref in E0. destruct (nth_error (states c) p) as [e0|] eqn:En; [|discriminate].
    injection E0 as ->.
    eexists. split.
    - exists p, (fst e, num (snd e)). unfold flags at 1. rewrite vmap_closest.
      split; [exact E|]. split; [unfold flags; rewrite vmap_nth, En; reflexivity|].
      cbn [fst]. split; [reflexivity|exact Htc].
    - intros Hnew. rewrite (Hc1 Hnew) in E1. apply PropPToState_frame in E1 as Hfr.
      destruct Hfr as [_ Hk2]. apply PropPToState_flags in E1.
      destruct (janitor c2 >? janitor_limit).
      + inv_bind E2. rename a into c3'. injection E2 as <-.
        apply CleanUpBuffers_flags in E0 as [m Hm].
        * exists m. rewrite <- E1. exact Hm.
        * eapply sorted_same_keys; [exact Hk2|exact Hs].
        * intros E3. rewrite E3 in Hk2. destruct (states c); [congruence|discriminate].
      + injection E2 as <-. exists 0%nat. exact E1.
  Qed.

  (** GetClosestState adds at most the stamp it was asked for. *)
  Lemma GetClosestState_keys : forall c t c' os k,
    time_sorted (states c) ->
    GetClosestState O d c t = Ok (c', os) -> occupied (states c') k ->
    k = t \/ occupied (states c) k.
  Proof.
    intros c t c' os k Hs H Hk. unfold GetClosestState in H. inv_bind H. inv_bind H.
    destruct (_ || _); [injection H as <- <-; auto|].
    destruct (interpolate O c t (fst a0)) as [c1 tc] eqn:Ei.
    assert (forall k', occupied (states c1) k' -> k' = t \/ occupied (states c) k') as H1.
    { apply interpolate_frame in Ei as
        [[-> _]|(_ & _ & tl & sl & tn & sn & _ & _ & _ & _ & _ & _ & _ & ->)]; [auto|].
      intros k' Hk'. cbn in Hk'. apply insert_occupied_iff in Hk'; [tauto|exact Hs]. }
    assert (time_sorted (states c1)) as Hs1.
    { apply interpolate_frame in Ei as
        [[-> _]|(_ & _ & tl & sl & tn & sn & _ & _ & _ & _ & _ & _ & _ & ->)]; [exact Hs|].
      cbn. apply insert_list_sorted. exact Hs. }
    inv_bind H. rename a1 into c2. apply PropPToState_frame in E1 as [_ Hk2].
    apply H1. apply in_keys_occupied. rewrite <- Hk2. apply in_keys_occupied.
    destruct (GetValueAt (states c2) tc) as [[ks s]|]; [|discriminate].
    destruct (negb _); [injection H as <- <-; exact Hk|].
    inv_bind H. injection H as <- <-.
    destruct (janitor c2 >? janitor_limit).
    - inv_bind E1. injection E1 as <-. cbn in Hk.
      apply CleanUpBuffers_frame in E2 as (Hc & _ & _).
      destruct Hk as [x Hx]. exists x. eapply ClearOlderThan_In; eauto.
    - injection E1 as <-. exact Hk.
  Qed.

  Lemma AtValue_lower : forall {A} (c : cont A) k, time_sorted c ->
    GetIteratorAtValue c k = lower_bound k c.
  Proof.
    intros A c k Hs. destruct (occupied_dec c k) as [Ho|Hf].
    - rewrite AtValue_occ by exact Ho. destruct Ho as [a Ha]. symmetry.
      eapply lower_bound_at; [exact Hs|]. apply find_pos_nth; eassumption.
    - unfold GetIteratorAtValue, pos_end. rewrite (proj1 (free_find c k) Hf), Nat.eqb_refl.
      reflexivity.
  Qed.

  Lemma lower_bound_mono : forall {A} (c : cont A) k k', k <= k' ->
    (lower_bound k c <= lower_bound k' c)%nat.
  Proof.
    intros A c k k' H. induction c as [|[x a] r IH]; cbn; [lia|].
    destruct (x <? k) eqn:E1; destruct (x <? k') eqn:E2; lia.
  Qed.

  Lemma acc_loop_ok : forall f rest i e F, (i <= e)%nat -> (e <= i + length rest)%nat ->
    exists F', acc_loop O R f rest i e F = Ok F'.
  Proof.
    intros f. induction rest as [|[k s] r IH]; intros i e F H1 H2; cbn [acc_loop].
    - cbn in H2. replace (i =? e)%nat with true by lia. eauto.
    - destruct (i =? e)%nat eqn:E; [eauto|]. cbn in H2. apply IH; lia.
  Qed.

  Lemma GetAccumulated_ok : forall c told tnew, time_sorted (states (base c)) -> told <= tnew ->
    exists F, GetAccumulated O R c told tnew = Ok F.
  Proof.
    intros c told tnew Hs Hle. unfold GetAccumulated.
    rewrite !AtValue_lower by exact Hs. apply acc_loop_ok.
    - apply lower_bound_mono. exact Hle.
    - rewrite skipn_length. pose proof (lower_bound_le (states (base c)) tnew).
      pose proof (lower_bound_le (states (base c)) told). lia.
  Qed.

  Lemma sinv_glob : forall imu c n g, sinv O imu c n -> sinv O imu (set_glob O c g) n.
  Proof. intros imu c n g []. constructor; assumption. Qed.
  Lemma sinv_time_P : forall imu c n t, sinv O imu c n -> t <= n -> sinv O imu (set_time_P O c t) n.
  Proof. intros imu c n t [] H. constructor; assumption. Qed.

  Definition rsinv (imu : bool) (c : rcore) (n : Z) : Prop := sinv O imu (base c) n.

  (** The extended GetClosestState, through the core's. *)
  Lemma rGetClosestState_safe : forall imu c n t,
    rsinv imu c n ->
    exists c' os, rGetClosestState O R d c t = Ok (c', os) /\
      GetClosestState O d (base c) t = Ok (base c', os) /\ rsinv imu c' n /\
      (forall k, occupied (meas (base c)) k -> n - buffer_age <= k -> occupied (meas (base c')) k) /\
      (forall ts s, os = Some (ts, s) ->
         Z.abs (ts - t) <= thr_closest /\ ts <= n /\
         (n - buffer_age <= ts -> occupied (states (base c')) ts) /\
         (forall k, occupied (states (base c')) k -> t < k -> ts <= k)).
  Proof.
    intros imu c n t Hinv.
    destruct (GetClosestState_safe O d Hd imu (base c) n t Hinv) as (b' & os & Hb & H1 & H2 & H3).
    pose proof (rGetClosestState_forget O R d c t) as Hf. rewrite Hb in Hf. unfold forget in Hf.
    destruct (rGetClosestState O R d c t) as [[c' os']| |]; try discriminate Hf.
    cbn [bind] in Hf. injection Hf as <- <-.
    exists c', os'. split; [reflexivity|]. auto.
  Qed.

  (** States are kept by a query unless they are a minute old. *)
  Lemma GetClosestState_keeps : forall imu c n t c' os k,
    sinv O imu c n -> GetClosestState O d c t = Ok (c', os) ->
    occupied (states c) k -> n - buffer_age <= k -> occupied (states c') k.
  Proof.
    intros imu c n t c' os k Hinv H Hk Hle. unfold GetClosestState in H.
    pose proof Hinv as [Hs _ Ht _ _ _].
    inv_bind H. inv_bind H. destruct (_ || _); [injection H as <- <-; exact Hk|].
    destruct (interpolate O c t (fst a0)) as [c1 tc] eqn:Ei.
    assert (occupied (states c1) k /\ time_sorted (states c1) /\ top (states c1) n) as (Hk1 & Hs1 & Ht1).
    { apply interpolate_frame in Ei as
        [[-> _]|(_ & Habs & tl & sl & tn & sn & Hb & Ha & _ & _ & Hneq & _ & _ & ->)]; [auto|].
      destruct (occupied_dec (states c) t) as [Ho|Hf].
      { rewrite (closest_occupied d _ _ _ _ Hs E E0 Ho) in Habs.
        unfold thr_interp, second in Habs. cbn in Habs. lia. }
      destruct (interp_strict _ _ _ _ _ _ Hs Hf Hb Ha Hneq) as (Hlt & Hil & Hin & Hgap).
      cbn. split; [apply insert_occupied_iff; auto|]. split; [apply insert_list_sorted; exact Hs|].
      pose proof (top_insert (states c) n t
              (prop_val O tl sl t
                      (mkst (lerp_acc O (s_acc sl) (s_acc sn) (tn - tl) (t - tl))
                            (lerp_gyr O (s_gyr sl) (s_gyr sn) (tn - tl) (t - tl))
                            (s_val sl) (cov_zero O))) Hs Ht) as Htt.
      destruct Ht as [_ Hmax]. pose proof (Hmax _ Hin) as Hle'. cbn in Hle'.
      replace (Z.max n t) with n in Htt by lia. exact Htt. }
    inv_bind H. rename a1 into c2. apply PropPToState_frame in E1 as [_ Hk2].
    assert (occupied (states c2) k) as Hok2.
    { apply in_keys_occupied. rewrite Hk2. apply in_keys_occupied. exact Hk1. }
    assert (time_sorted (states c2)) as Hs2 by (eapply sorted_same_keys; [exact Hk2|exact Hs1]).
    assert (top (states c2) n) as Ht2 by (eapply top_keys; [exact Hk2|exact Ht1]).
    destruct (GetValueAt (states c2) tc) as [[ks s]|]; [|discriminate].
    destruct (negb _); [injection H as <- <-; exact Hok2|].
    inv_bind H. injection H as <- <-.
    destruct (janitor c2 >? janitor_limit).
    - inv_bind E1. injection E1 as <-. cbn.
      apply CleanUpBuffers_frame in E2 as (Hc & _ & _).
      apply (top_clear d (states c2) n buffer_age (states a2) Hs2 Ht2) in Hc as (_ & _ & Hkeep);
        [|unfold buffer_age, second; lia]. apply Hkeep; assumption.
    - injection E1 as <-. exact Hok2.
  Qed.

  (** Apply, on a state that the first query returned. *)
  Lemma rapply_safe : forall imu c n tm m ts s,
    rsinv imu c n -> ts <= n -> occupied (meas (base c)) tm -> n - buffer_age <= tm ->
    occupied (states (base c)) ts -> n - buffer_age <= ts ->
    (forall tp told new, tp < tm -> picks d (flags (base c)) tp told new -> told <= ts) ->
    exists c', rapply O R d c tm m ts s = Ok c' /\ rsinv imu c' n /\
      (forall k, occupied (meas (base c)) k -> n - buffer_age <= k -> occupied (meas (base c')) k) /\
      occupied (states (base c')) ts /\
      (forall k, occupied (states (base c')) k -> k < tm \/ occupied (states (base c)) k).
  Proof.
    intros imu c n tm m ts s Hinv Hts Hom Hlate Hos Hlts Hord. unfold rapply.
    destruct (negb (r_relative R m)).
    { destruct (apply_at_safe O imu (base c) n m ts s Hinv Hts) as (H1 & H2 & H3).
      eexists. split; [reflexivity|]. split; [exact H1|]. cbn [base].
      assert (forall k, occupied (states (apply_at O (base c) m ts s)) k <-> occupied (states (base c)) k)
        as Hocc by (intros k; rewrite <- !in_keys_occupied, H3; tauto).
      split; [rewrite H2; auto|]. split; [apply Hocc; exact Hos|]. intros k Hk. right. apply Hocc. exact Hk. }
    pose proof Hinv as [Hs Hms Ht Hm HP Hit].
    assert (meas (base c) <> []) as Hmne by (destruct Hom as [x Hx]; intros E; rewrite E in Hx; destruct Hx).
    destruct Hom as [mm Hmm].
    destruct (previous_found (r_sid R) d (meas (base c)) tm (r_sid R m) mm Hms Hmm (d_ne d Hd _ Hmne))
      as (om & Hpm & Hspec). cbv zeta in Hspec.
    rewrite Hpm. cbn [bind].
    assert (exists c', Ok c = Ok c' /\ rsinv imu c' n /\
      (forall k, occupied (meas (base c)) k -> n - buffer_age <= k -> occupied (meas (base c')) k) /\
      occupied (states (base c')) ts /\
      (forall k, occupied (states (base c')) k -> k < tm \/ occupied (states (base c)) k)) as Hsame.
    { exists c. auto 10. }
    destruct om as [[tp mp]|]; [|exact Hsame].
    destruct Hspec as (_ & _ & _ & Htp & _ & _). cbn [fst] in Htp.
    destruct (_ || _); [exact Hsame|]. clear Hsame.
    destruct (rGetClosestState_safe imu c n tp Hinv) as (c1 & os & Hc & Hb & Hinv1 & Hm1 & Hos1).
    rewrite Hc. cbn [bind].
    assert (occupied (meas (base c1)) tm) as Hom1 by (apply Hm1; [exists mm; exact Hmm|exact Hlate]).
    replace (has_key tm (meas (base c1))) with true by (symmetry; apply has_key_true; exact Hom1).
    cbn [negb].
    assert (occupied (states (base c1)) ts) as Hots1
      by (eapply GetClosestState_keeps; [exact Hinv|exact Hb|exact Hos|exact Hlts]).
    assert (forall k, occupied (states (base c1)) k -> k < tm \/ occupied (states (base c)) k) as Hk1.
    { intros k Hk. destruct (GetClosestState_keys _ _ _ _ k Hs Hb Hk) as [->|H]; [left; exact Htp|auto]. }
    assert (exists c', Ok c1 = Ok c' /\ rsinv imu c' n /\
      (forall k, occupied (meas (base c)) k -> n - buffer_age <= k -> occupied (meas (base c')) k) /\
      occupied (states (base c')) ts /\
      (forall k, occupied (states (base c')) k -> k < tm \/ occupied (states (base c)) k)) as Hsame.
    { exists c1. auto 10. }
    destruct os as [[told sold]|]; [|exact Hsame].
    destruct (told =? INVALID_TIME); [exact Hsame|]. clear Hsame.
    destruct (GetClosestState_picks (base c) tp (base c1) told sold Hs (top_ne _ _ Ht) Hb) as (new & Hpk & _).
    pose proof (Hord _ _ _ Htp Hpk) as Hle.
    pose proof (si_sorted _ _ _ _ Hinv1) as Hs1.
    destruct (GetAccumulated_ok c1 told ts Hs1 Hle) as [F HF]. cbv zeta. rewrite HF. cbn [bind].
    set (snew := match GetValueAt (states (base c1)) ts with Some (_, s') => s' | None => s end).
    destruct (apply_rel R mp m (glob (base c1)) (s_val sold) (s_cov sold) F (s_val snew) (s_cov snew))
      as [[[b v] P] g].
    eexists. split; [reflexivity|].
    set (s2 := upd_key O ts (mkst (s_acc snew) (s_gyr snew) v P) (states (base c1))).
    assert (keys s2 = keys (states (base c1))) as Hkk by apply upd_key_keys.
    assert (sinv O imu (set_glob O (set_states O (base c1) s2) g) n) as Hinv2.
    { apply sinv_glob. apply sinv_same_keys; [exact Hinv1|exact Hkk]. }
    assert (forall k, occupied s2 k <-> occupied (states (base c1)) k) as Hocc
      by (intros k; rewrite <- !in_keys_occupied, Hkk; tauto).
    split; [destruct b; [apply sinv_time_P; assumption|exact Hinv2]|].
    assert (forall cc, cc = mkr (if b then set_time_P O (set_glob O (set_states O (base c1) s2) g) ts
                                 else set_glob O (set_states O (base c1) s2) g) (trs c1) ->
              meas (base cc) = meas (base c1) /\ states (base cc) = s2) as Hcc.
    { intros cc ->. destruct b; auto. }
    destruct (Hcc _ eq_refl) as [-> ->].
    split; [exact Hm1|]. split; [apply Hocc; exact Hots1|].
    intros k Hk. apply Hk1. apply Hocc. exact Hk.
  Qed.

  (** ** What the measurement path leaves alone *)
  Lemma rGetClosestState_frame : forall c t c' os,
    rGetClosestState O R d c t = Ok (c', os) -> same_frame O (base c) (base c').
  Proof.
    intros c t c' os H. pose proof (rGetClosestState_forget O R d c t) as Hf. unfold forget in Hf.
    rewrite H in Hf. cbn [bind] in Hf. symmetry in Hf.
    apply GetClosestState_frame in Hf as (E1 & E2 & E3 & E4 & E5 & _). repeat split; assumption.
  Qed.

  Lemma rapply_frame : forall c tm m ts s c',
    rapply O R d c tm m ts s = Ok c' -> same_frame O (base c) (base c').
  Proof.
    intros c tm m ts s c' H. unfold rapply in H.
    destruct (negb (r_relative R m)).
    { injection H as <-. apply apply_at_frame. }
    inv_bind H. destruct a as [[tp mp]|]; [|injection H as <-; apply same_frame_refl].
    destruct (_ || _); [injection H as <-; apply same_frame_refl|].
    inv_bind H. destruct a as [c1 os]. apply rGetClosestState_frame in E0 as H1.
    destruct (negb _); [discriminate|].
    destruct os as [[told sold]|]; [|injection H as <-; exact H1].
    destruct (told =? INVALID_TIME); [injection H as <-; exact H1|].
    cbv zeta in H. inv_bind H.
    destruct (apply_rel R _ _ _ _ _ _ _ _) as [[[b v] P] g]. injection H as <-.
    eapply same_frame_trans; [exact H1|]. destruct b; repeat split.
  Qed.

  Lemma rmeas_body_frame : forall c tm m rest a c' a',
    rmeas_body O R d c tm m rest a = Ok (c', a') -> same_frame O (base c) (base c').
  Proof.
    intros c tm m rest a c' a' H. unfold rmeas_body in H.
    destruct (tm <=? 0); [injection H as <- <-; apply same_frame_refl|].
    inv_bind H. destruct a0 as [c1 os]. apply rGetClosestState_frame in E as H1.
    destruct os as [[ts s]|]; [|injection H as <- <-; exact H1].
    destruct (negb _); [discriminate|].
    destruct (ts <=? 0); [injection H as <- <-; exact H1|].
    inv_bind H. rename a0 into c2. apply rapply_frame in E0 as H2. cbv zeta in H.
    inv_bind H. inv_bind H.
    destruct (skipn (GetIteratorAtValue (states (base c2)) ts) (states (base c2)))
      as [|[told sold] rs]; [discriminate|].
    inv_bind H. injection H as <- <-.
    eapply same_frame_trans; [exact H1|]. eapply same_frame_trans; [exact H2|].
    repeat split.
  Qed.

  Lemma rmeas_loop_frame : forall todo c a c' a',
    rmeas_loop O R d c todo a = Ok (c', a') -> same_frame O (base c) (base c').
  Proof.
    induction todo as [|[tm m] r IH]; intros c a c' a' H; cbn [rmeas_loop] in H.
    - injection H as <- <-. apply same_frame_refl.
    - inv_bind H. destruct a0 as [c1 a1]. eapply same_frame_trans.
      + eapply rmeas_body_frame; exact E.
      + eapply IH; exact H.
  Qed.

  Lemma rAddMeasurement_pm : forall c tm m c' ev,
    rAddMeasurement O R d c tm m = Ok (c', ev) ->
    predictionMade (base c') = predictionMade (base c).
  Proof.
    intros c tm m c' ev H. unfold rAddMeasurement in H.
    destruct (_ || _); [injection H as <- <-; reflexivity|].
    destruct (tm >? _). { injection H as <- <-. reflexivity. }
    destruct (tm <? _); [injection H as <- <-; reflexivity|].
    cbn [Insert] in H. inv_bind H. destruct a as [c1 applied].
    apply rmeas_loop_frame in E as (_ & F2 & _). cbn in F2.
    destruct (negb applied); [injection H as <- <-; exact F2|].
    inv_bind H. unfold rPropPToState in E. inv_bind E. injection E as <-. cbn [base] in H.
    apply PropPToState_frame in E0 as [E0 _].
    destruct (GetLast (states a0)) as [[t s]|]; [|discriminate].
    injection H as <- <-. cbn [base]. rewrite E0. exact F2.
  Qed.

  (** ** The measurement path *)
  Lemma rmeas_body_safe : forall imu c n tm m rest a,
    rsinv imu c n -> occupied (meas (base c)) tm -> n - late_limit <= tm ->
    (forall tn mn r, rest = (tn, mn) :: r -> tm < tn) ->
    exists c' a', rmeas_body O R d c tm m rest a = Ok (c', a') /\ rsinv imu c' n /\
      (forall k, occupied (meas (base c)) k -> n - buffer_age <= k -> occupied (meas (base c')) k).
  Proof.
    intros imu c n tm m rest a Hinv Hom Hlate Hrest. unfold rmeas_body.
    destruct (tm <=? 0). { exists c, a. auto. }
    destruct (rGetClosestState_safe imu c n tm Hinv) as (c1 & os & Hc & Hb & Hinv1 & Hm1 & Hos).
    rewrite Hc. cbn [bind]. destruct os as [[ts s]|]; [|exists c1, a; auto].
    destruct (Hos ts s eq_refl) as (Hcl & Htsn & Hkeep & Hbetween).
    pose proof late_limit_le as Hll.
    assert (n - buffer_age <= tm) as Htm by lia.
    assert (n - buffer_age <= ts) as Hts.
    { unfold late_limit, thr_closest, second in *. cbn in *. lia. }
    assert (occupied (meas (base c1)) tm) as Hom1 by (apply Hm1; [exact Hom|exact Htm]).
    replace (has_key tm (meas (base c1))) with true by (symmetry; apply has_key_true; exact Hom1).
    cbn [negb]. destruct (ts <=? 0); [exists c1, a; auto|].
    destruct (rapply_safe imu c1 n tm m ts s Hinv1 Htsn Hom1 Htm (Hkeep Hts) Hts)
      as (c2 & Hap & Hinv2 & Hm2 & Hots & Hocc).
    { intros tp told new' Htp Hpk'.
      destruct (GetClosestState_picks (base c) tm (base c1) ts s (si_sorted _ _ _ _ Hinv)
                  (top_ne _ _ (si_top _ _ _ _ Hinv)) Hb) as (new & Hpk & Hsk).
      eapply (picks_order d Hd (flags (base c)) (flags (base c1))); try eassumption.
      - eapply sorted_same_keys; [apply vmap_keys|]. apply (si_sorted _ _ _ _ Hinv).
      - unfold flags. intros E. apply (top_ne _ _ (si_top _ _ _ _ Hinv)).
        apply (f_equal (@length _)) in E. rewrite vmap_length in E.
        destruct (states (base c)); [reflexivity|discriminate E].
      - eapply sorted_same_keys; [apply vmap_keys|]. apply (si_sorted _ _ _ _ Hinv1).
      - unfold flags. intros E. apply (top_ne _ _ (si_top _ _ _ _ Hinv1)).
        apply (f_equal (@length _)) in E. rewrite vmap_length in E.
        destruct (states (base c1)); [reflexivity|discriminate E].
      - apply vmap_occupied. apply Hkeep. exact Hts. }
    rewrite Hap. cbn [bind]. cbv zeta.
    pose proof (si_sorted _ _ _ _ Hinv2) as Hs2.
    rewrite (AtValue_occ _ _ Hots). pose proof Hots as Hlt. apply occupied_find in Hlt.
    set (pc := find_pos ts (states (base c2))) in *.
    destruct (find_pos_occupied (states (base c2)) ts Hlt) as [xs Hxs]. fold pc in Hxs.
    assert (exists pe, match rest with
                       | [] => Ok (pos_end (states (base c2)))
                       | (tn, _) :: _ =>
                           if (GetIteratorClosestAfter (states (base c2)) tn =? pos_end (states (base c2)))%nat
                           then Ok (GetIteratorClosestAfter (states (base c2)) tn)
                           else it_inc (states (base c2)) (GetIteratorClosestAfter (states (base c2)) tn)
                       end = Ok pe /\ (pc < pe)%nat /\ (pe <= length (states (base c2)))%nat)
      as (pe & -> & Hpe1 & Hpe2).
    { destruct rest as [|[tn mn] r].
      - exists (length (states (base c2))). unfold pos_end. repeat split; lia.
      - unfold GetIteratorClosestAfter, pos_end.
        pose proof (upper_bound_le (states (base c2)) tn) as Hu.
        destruct (upper_bound tn (states (base c2)) =? length (states (base c2)))%nat eqn:Eu.
        + eexists. split; [reflexivity|]. lia.
        + unfold it_inc.
          replace (upper_bound tn (states (base c2)) <? length (states (base c2)))%nat with true by lia.
          eexists. split; [reflexivity|]. split; [|lia].
          destruct (nth_error_lt_some (states (base c2)) (upper_bound tn (states (base c2))))
            as [[ku xu] Hku]; [lia|].
          pose proof (upper_bound_spec _ tn _ _ Hs2 Hku) as Hub. cbn in Hub.
          specialize (Hrest tn mn r eq_refl).
          assert (ts <= ku) as Hle.
          { destruct (Hocc ku) as [Hlow|Hk]; [exists xu; eapply nth_error_In; eauto|lia|].
            apply Hbetween; [exact Hk|lia]. }
          pose proof (sorted_nth_le _ _ _ _ _ Hs2 Hxs Hku) as Hq. cbn in Hq. lia. }
    cbn [bind]. unfold it_inc. replace (pc <? length (states (base c2)))%nat with true by lia. cbn [bind].
    destruct (skipn_lt_cons (states (base c2)) pc Hlt) as ([told sold] & rs & Hsk & _ & Hlen).
    rewrite Hsk.
    destruct (reprop_ok O d Hd rs pc pe told sold Hpe1) as [rs' Hrs']; [lia|].
    rewrite Hrs'. cbn [bind]. eexists _, _. split; [reflexivity|]. split.
    - apply sinv_same_keys; [exact Hinv2|]. rewrite keys_app. cbn [keys map fst].
      fold (keys rs'). rewrite (reprop_keys O _ _ _ _ _ _ Hrs').
      rewrite <- (firstn_skipn pc (states (base c2))) at 2. rewrite keys_app, Hsk. reflexivity.
    - cbn. intros k Hk1 Hk2. apply Hm2; [apply Hm1; assumption|exact Hk2].
  Qed.

  Lemma rmeas_loop_safe : forall todo imu c n a,
    rsinv imu c n -> time_sorted todo ->
    (forall e, In e todo -> occupied (meas (base c)) (fst e) /\ n - late_limit <= fst e) ->
    exists c' a', rmeas_loop O R d c todo a = Ok (c', a') /\ rsinv imu c' n.
  Proof.
    induction todo as [|[tm m] r IH]; intros imu c n a Hinv Hsrt Hall; cbn [rmeas_loop].
    - eauto.
    - apply sorted_cons_inv in Hsrt as [Hsrt Hf].
      destruct (Hall (tm, m) (or_introl eq_refl)) as [Ho Hl]. cbn in Ho, Hl.
      destruct (rmeas_body_safe imu c n tm m r a Hinv Ho Hl) as (c1 & a1 & Hb & Hinv1 & Hk1).
      { intros tn mn r' ->. eapply Hf. left. reflexivity. }
      rewrite Hb. cbn [bind]. apply IH; [exact Hinv1|exact Hsrt|].
      intros e He. destruct (Hall e (or_intror He)) as [Ho' Hl']. split; [|exact Hl'].
      apply Hk1; [exact Ho'|]. pose proof late_limit_le. lia.
  Qed.

  Lemma rPropPToState_safe : forall imu c n tt,
    rsinv imu c n -> exists c', rPropPToState O R c tt = Ok c' /\ rsinv imu c' n.
  Proof.
    intros imu c n tt Hinv. unfold rPropPToState.
    destruct (PropPToState_safe O imu (base c) n tt Hinv) as (b & -> & Hb & _). cbn [bind].
    eexists. split; [reflexivity|exact Hb].
  Qed.

  Lemma rAddMeasurement_safe : forall imu c n tm m,
    rsinv imu c n -> n - late_limit <= tm ->
    exists c' ev, rAddMeasurement O R d c tm m = Ok (c', ev) /\ rsinv imu c' n.
  Proof.
    intros imu c n tm m Hinv Hlate. unfold rAddMeasurement.
    destruct (_ || _); [eauto|].
    rewrite (top_last _ _ (si_sorted _ _ _ _ Hinv) (si_top _ _ _ _ Hinv)).
    destruct (tm >? n) eqn:Eg.
    { eexists _, _. split; [reflexivity|]. destruct Hinv. constructor; assumption. }
    destruct (tm <? _); [eauto|]. cbn [Insert].
    set (ms := insert_list tm m (meas (base c))).
    assert (time_sorted ms) as Hms by (apply insert_list_sorted; apply (si_msorted _ _ _ _ Hinv)).
    assert (rsinv imu (mkr (set_meas O (base c) ms) (trs c)) n) as Hinv0.
    { destruct Hinv. constructor; cbn; auto. intros k Hk.
      apply insert_occupied_iff in Hk as [->|Hk]; [lia|auto|assumption]. }
    assert (occupied ms tm) as Hom by (apply insert_occupied_iff; [apply (si_msorted _ _ _ _ Hinv)|auto]).
    destruct (rmeas_loop_safe (skipn (find_pos tm ms) ms) imu _ n false Hinv0)
      as (c1 & ap & Hl & Hinv1).
    { apply skipn_sorted. exact Hms. }
    { intros e He. pose proof He as He'.
      apply skipn_In_nth in He as [j [Hj1 Hj2]]. split.
      - cbn. apply in_fst_occupied. eapply nth_error_In; eauto.
      - apply occupied_find in Hom. destruct (find_pos_occupied ms tm Hom) as [x Hx].
        pose proof (sorted_nth_le _ _ _ _ _ Hms Hx Hj2) as Hq. cbn in Hq. lia. }
    rewrite Hl. cbn [bind]. destruct (negb ap); [eauto|].
    destruct (rPropPToState_safe imu c1 n (otime (GetLast (states (base c1)))) Hinv1) as (c2 & -> & Hinv2).
    cbn [bind].
    destruct (GetLast_newest (states (base c2)) (si_sorted _ _ _ _ Hinv2)
                (top_ne _ _ (si_top _ _ _ _ Hinv2)))
      as [[t s] [-> _]]. eauto.
  Qed.

  Lemma rHandle_safe : forall imu c n,
    rsinv imu c n -> (forall e, In e (queue (base c)) -> n - late_limit <= fst e) ->
    exists c' ev, rHandlePending O R d c = Ok (c', ev) /\ rsinv imu c' n /\
                  predictionMade (base c') = predictionMade (base c).
  Proof.
    intros imu c n Hinv Hq. unfold rHandlePending.
    destruct (queue (base c)) as [|[tm m] q] eqn:Eq; [eauto|].
    destruct (rAddMeasurement_safe imu (mkr (set_queue O (base c) q) (trs c)) n tm m)
      as (c' & ev & E & H).
    - destruct Hinv. constructor; assumption.
    - exact (Hq (tm, m) (or_introl eq_refl)).
    - exists c', ev. split; [exact E|]. split; [exact H|].
      apply rAddMeasurement_pm in E. exact E.
  Qed.

  Lemma rPropagatePOneStep_safe : forall imu c n,
    rsinv imu c n -> exists c', rPropagatePOneStep O R c = Ok c' /\ rsinv imu c' n /\
      queue (base c') = queue (base c) /\
      (initialized (base c') = false \/ predictionMade (base c') = predictionMade (base c)) /\
      meas (base c') = meas (base c).
  Proof.
    intros imu c n Hinv. unfold rPropagatePOneStep.
    destruct (PropagatePOneStep_safe O d Hd imu (base c) n Hinv) as (b & -> & Hb & _ & H1 & H2 & H3).
    cbn [bind]. eexists. split; [reflexivity|]. auto.
  Qed.

  Definition rsafe (imu : bool) (c : rcore) : Prop := safe O imu (base c).

  Lemma rimu_step_safe : forall c a g t,
    rsafe true c -> admissible O true (base c) (CImu a g t) ->
    exists c' ev, rProcessIMU O R d c a g t = Ok (c', ev) /\ rsafe true c'.
  Proof.
    intros c a g t Hsafe Hadm. unfold rProcessIMU. destruct Hadm as [_ Hadm]. cbv zeta.
    destruct (initialized (base c)) eqn:Hi; cbn [negb];
      [|eexists _, _; split; [reflexivity|unfold rsafe, safe; congruence]].
    destruct (Hsafe Hi) as (Hs & Hms & Hne & Hpm & Hinv).
    destruct (Hinv (or_introl eq_refl)) as [n Hn].
    pose proof Hn as [_ _ Ht Hm HP Hit].
    destruct (Hadm eq_refl n Ht) as (Hgap & Hback & Hq).
    destruct (Hit eq_refl) as (k & Hk1 & [s Hks] & Hk3).
    unfold deref_last. rewrite Hk1. cbn [bind].
    assert (GetValueAt (states (base c)) k = Some (k, s)) as Hv by (apply GetValueAt_spec; auto).
    rewrite Hv. cbn [bind].
    assert (set_it O (base c) (ItAt k) = base c) as Hset
      by (clear - Hk1; destruct (base c); cbn in *; subst; reflexivity).
    rewrite Hset.
    destruct (k =? INVALID_TIME). { eexists _, _; split; [reflexivity|exact Hsafe]. }
    destruct ((t - k <? - thr_out_of_order) && predictionMade (base c)).
    { eexists _, _. split; [reflexivity|]. intros H. discriminate H. }
    set (b1 := if acc_spike O a then base c else set_last_am O (base c) (s_acc s)).
    assert (sinv O true b1 n /\ predictionMade b1 = predictionMade (base c) /\ queue b1 = queue (base c) /\
            meas b1 = meas (base c) /\ states b1 = states (base c))
      as (Hn1 & Hp1 & Hq1 & Hm1 & Hs1).
    { unfold b1. destruct (acc_spike O a); [auto|]. destruct Hn. split; [constructor; assumption|auto]. }
    clearbody b1. rewrite Hp1.
    replace (negb (predictionMade (base c)) && (Z.abs (t - k) >? thr_gap_imu)) with false.
    2:{ destruct (predictionMade (base c)); cbn [negb andb]; [reflexivity|].
        specialize (Hgap eq_refl k Hk1). lia. }
    set (new := prop_val O k s t _).
    cbn [Insert fst].
    set (c2 := mkr (set_it O (set_states O b1 (insert_list t new (states b1))) (ItAt t))
                   (fresh_tr O R b1 t (trs c))).
    assert (rsinv true c2 (Z.max n t)) as Hn2.
    { pose proof Hn1 as [A1 A2 A3 A4 A5 A6]. constructor; cbn.
      - apply insert_list_sorted. exact A1.
      - exact A2.
      - apply top_insert; assumption.
      - intros k' Hk'. specialize (A4 _ Hk'). lia.
      - lia.
      - intros _. exists t. repeat split; [apply insert_occupied_iff; auto|].
        unfold buffer_age, second in *. lia. }
    destruct (rPropagatePOneStep_safe true c2 (Z.max n t) Hn2)
      as (c3 & -> & Hn3 & Hq3 & Hp3 & Hm3).
    cbn [bind].
    set (c4 := if (3 <? Size (states (base c3)))%nat
               then mkr (set_flags O (base c3) (initialized (base c3)) true) (trs c3) else c3).
    assert (rsinv true c4 (Z.max n t) /\ queue (base c4) = queue (base c) /\ meas (base c4) = meas (base c))
      as (Hn4 & Hq4 & Hm4).
    { unfold c4. destruct (3 <? Size (states (base c3)))%nat.
      - destruct Hn3. split; [constructor; assumption|]. cbn. rewrite Hq3, Hm3. cbn. auto.
      - split; [exact Hn3|]. rewrite Hq3, Hm3. cbn. auto. }
    destruct (predictionMade (base c4)) eqn:Hp4.
    - destruct (rHandle_safe true c4 (Z.max n t) Hn4) as (c5 & ev & E5 & Hn5 & Hp5).
      { intros e He. apply Hq. rewrite <- Hq4. exact He. }
      rewrite E5. cbn [bind]. eexists _, _. split; [reflexivity|].
      eapply sinv_to_safe; [exact Hn5|]. congruence.
    - cbn [bind]. eexists _, _. split; [reflexivity|]. eapply sinv_to_safe; [exact Hn4|].
      intros Hi4 _. rewrite Hm4. apply Hpm.
      unfold c4 in Hi4, Hp4. destruct (3 <? Size (states (base c3)))%nat; [discriminate Hp4|].
      destruct Hp3 as [Hp3|Hp3]; [congruence|]. cbn in Hp3. congruence.
  Qed.

  Lemma rext_step_safe : forall c a g x b t,
    rsafe false c -> admissible O false (base c) (CExt a g x b t) ->
    exists c' ev, rProcessExt O R d c a g x b t = Ok (c', ev) /\ rsafe false c'.
  Proof.
    intros c a g x b t Hsafe Hadm. unfold rProcessExt.
    destruct Hadm as [_ Hadm]. cbv zeta.
    destruct (initialized (base c)) eqn:Hi; cbn [negb];
      [|eexists _, _; split; [reflexivity|unfold rsafe, safe; congruence]].
    destruct (Hsafe Hi) as (Hs & Hms & Hne & Hpm & Hinv).
    destruct (GetLast_newest (states (base c)) Hs Hne) as [[tl sl] [-> [Hlin Hlmax]]].
    destruct (tl =? INVALID_TIME). { eexists _, _; split; [reflexivity|exact Hsafe]. }
    set (c1 := if acc_spike O a then base c else set_last_am_ext O (base c) a).
    assert (initialized c1 = true /\ predictionMade c1 = predictionMade (base c) /\
            queue c1 = queue (base c) /\ meas c1 = meas (base c) /\ states c1 = states (base c) /\
            time_P c1 = time_P (base c))
      as (Hi1 & Hp1 & Hq1 & Hm1 & Hs1 & HP1).
    { unfold c1. destruct (acc_spike O a); cbn; auto 6. }
    clearbody c1. rewrite Hp1.
    destruct (negb (predictionMade (base c)) && (Z.abs (t - tl) >? thr_gap_ext)) eqn:Eg.
    { eexists _, _. split; [reflexivity|]. intros _. cbn. rewrite Hs1, Hm1.
      apply andb_prop in Eg as [Eg _]. rewrite Hp1.
      repeat split; auto.
      - apply UpdateTime_sorted. exact Hs.
      - unfold UpdateTime.
        destruct (nth_error (states (base c)) (find_pos tl (states (base c)))) as [[k y]|]; [|exact Hne].
        cbn. intros E0.
        assert (occupied (insert_list t y (erase_key tl (states (base c)))) t) as [z Hz].
        { apply insert_occupied_iff; [apply erase_key_sorted; exact Hs|auto]. }
        rewrite E0 in Hz. destruct Hz.
      - intros [H|H]; [discriminate|]. rewrite H in Eg. discriminate. }
    match goal with |- context [Insert (states ?w) t ?nn] => set (new' := nn); set (c2 := w) end.
    assert (exists n, rsinv false (mkr (set_states O c2 (fst (Insert (states c2) t new')))
                                       (fresh_tr O R c2 t (trs c))) n /\
              (forall e, In e (queue c2) -> n - late_limit <= fst e)) as (n & Hn & Hq).
    { unfold c2, rsinv. cbn [base]. clearbody new'. destruct (predictionMade (base c)) eqn:Hp.
      - destruct (Hinv (or_intror eq_refl)) as [n0 [A1 A2 A3 A4 A5 A6]].
        exists (Z.max n0 t). split.
        + constructor; cbn; rewrite ?Hs1, ?Hm1, ?HP1.
          * apply insert_list_sorted. exact A1.
          * exact A2.
          * apply top_insert; assumption.
          * intros k Hk. specialize (A4 _ Hk). lia.
          * lia.
          * discriminate.
        + rewrite Hq1. apply Hadm; auto.
      - exists t. split.
        + constructor; cbn.
          * apply sorted_cons; [constructor|intros ? ? []].
          * constructor.
          * split; [exists new'; left; reflexivity|]. intros e [<-|[]]. cbn. lia.
          * intros k [y []].
          * lia.
          * discriminate.
        + intros e []. }
    destruct (rPropagatePOneStep_safe false _ n Hn) as (c4 & -> & Hn4 & Hq4 & _).
    cbn [bind].
    destruct (rHandle_safe false (mkr (set_flags O (base c4) (initialized (base c4)) true) (trs c4)) n)
      as (c5 & ev & E5 & Hn5 & Hp5).
    { destruct Hn4. constructor; assumption. }
    { intros e He. apply Hq. cbn in He. rewrite Hq4 in He. exact He. }
    rewrite E5. cbn [bind]. eexists _, _. split; [reflexivity|].
    eapply sinv_to_safe; [exact Hn5|]. intros _. cbn in Hp5. congruence.
  Qed.

  Lemma rstep_safe : forall imu c k,
    rsafe imu c -> admissible O imu (base c) k ->
    exists c' ev, rstep O R d c k = Ok (c', ev) /\ rsafe imu c'.
  Proof.
    intros imu c k Hsafe Hadm. destruct k as [t s|a g t|a g x b t|t m].
    - destruct (step_safe O d Hd imu (base c) (CInit t s) Hsafe Hadm) as (b & ev & E & Hb).
      cbn in E |- *. destruct (Init O (base c) t s) as [b'| |]; try discriminate E.
      cbn [bind] in *. injection E as <- <-. eexists _, _. split; [reflexivity|exact Hb].
    - destruct imu; [|destruct Hadm; discriminate]. apply rimu_step_safe; assumption.
    - destruct imu; [destruct Hadm; discriminate|]. apply rext_step_safe; assumption.
    - cbn in Hadm |- *.
      destruct (initialized (base c)) eqn:Hi; [destruct (predictionMade (base c)) eqn:Hp|].
      + destruct (Hsafe Hi) as (Hs & Hms & Hne & Hpm & Hinv).
        destruct (Hinv (or_intror Hp)) as [n Hn].
        destruct (rAddMeasurement_safe imu c n t m Hn) as (c' & ev & E & Hn').
        { apply Hadm; auto. apply (si_top _ _ _ _ Hn). }
        eexists _, _. split; [exact E|]. eapply sinv_to_safe; [exact Hn'|].
        apply rAddMeasurement_pm in E. congruence.
      + unfold rAddMeasurement. rewrite Hi, Hp. eexists _, _. split; [reflexivity|exact Hsafe].
      + unfold rAddMeasurement. rewrite Hi. eexists _, _. split; [reflexivity|exact Hsafe].
  Qed.

  (** Executions all of whose calls are admissible when they are made. *)
  Fixpoint radmissible_run (imu : bool) (c : rcore) (l : list (call O)) : Prop :=
    match l with
    | [] => True
    | k :: r => admissible O imu (base c) k /\
                forall c' ev, rstep O R d c k = Ok (c', ev) -> radmissible_run imu c' r
    end.

  Lemma rrun_safe : forall l imu c,
    rsafe imu c -> radmissible_run imu c l ->
    exists c' ev, rrun O R d c l = Ok (c', ev) /\ rsafe imu c'.
  Proof.
    induction l as [|k r IH]; intros imu c Hs Ha; cbn [rrun]; [eauto|].
    destruct Ha as [Hk Hr]. destruct (rstep_safe imu c k Hs Hk) as (c1 & e1 & E1 & Hs1).
    rewrite E1. cbn [bind]. destruct (IH imu c1 Hs1 (Hr _ _ E1)) as (c2 & e2 & E2 & Hs2).
    rewrite E2. cbn [bind]. eauto.
  Qed.

  Lemma rcore_new_safe : forall imu g, rsafe imu (rcore_new O R g).
  Proof. intros imu g H. discriminate H. Qed.

  (** ** What a relative update is given *)
  Lemma acc_loop_value : forall f rest i e F, (i <= e)%nat -> (e <= i + length rest)%nat ->
    acc_loop O R f rest i e F = Ok (fold_left (tr_mul R) (map f (keys (firstn (e - i) rest))) F).
  Proof.
    intros f. induction rest as [|[k s] r IH]; intros i e F H1 H2; cbn [acc_loop].
    - cbn in H2. replace (i =? e)%nat with true by lia. replace (e - i)%nat with 0%nat by lia. reflexivity.
    - destruct (i =? e)%nat eqn:E.
      + replace (e - i)%nat with 0%nat by lia. reflexivity.
      + cbn in H2. rewrite IH by lia. replace (e - i)%nat with (S (e - S i))%nat by lia. reflexivity.
  Qed.

  Lemma between_keys : forall {A} (c : cont A) a b, time_sorted c -> a <= b ->
    keys (firstn (lower_bound b c - lower_bound a c) (skipn (lower_bound a c) c)) =
    filter (fun k => (a <=? k) && (k <? b)) (keys c).
  Proof.
    intros A c a b Hs Hab. induction c as [|[k x] r IH]; cbn; [reflexivity|].
    apply sorted_cons_inv in Hs as [Hs Hf].
    specialize (IH Hs).
    destruct (k <? a) eqn:Ea; destruct (k <? b) eqn:Eb; try lia.
    - replace (a <=? k) with false by lia. cbn. exact IH.
    - replace (a <=? k) with true by lia. cbn. f_equal.
      assert (lower_bound a r = 0%nat) as H0.
      { destruct r as [|[k' x'] r']; [reflexivity|]. cbn.
        assert (k < k') by (eapply Hf; left; reflexivity).
        replace (k' <? a) with false by lia. reflexivity. }
      rewrite H0 in IH. cbn in IH. rewrite Nat.sub_0_r in IH. exact IH.
    - replace (a <=? k) with true by lia. cbn.
      assert (forall k', In k' (keys r) -> (a <=? k') && (k' <? b) = false) as Hno.
      { intros k' Hk'. apply in_keys_occupied in Hk' as [x' Hx']. apply Hf in Hx'. lia. }
      fold (keys r). clear - Hno. induction (keys r) as [|k' l IHl]; [reflexivity|]. cbn.
      rewrite Hno by (left; reflexivity). apply IHl. intros k'' H. apply Hno. right. exact H.
  Qed.

  Lemma GetAccumulated_value : forall c told tnew, time_sorted (states (base c)) -> told <= tnew ->
    GetAccumulated O R c told tnew =
    Ok (fold_left (tr_mul R)
          (map (trs c) (filter (fun k => (told <=? k) && (k <? tnew)) (keys (states (base c)))))
          (tr_id R)).
  Proof.
    intros c told tnew Hs Hle. unfold GetAccumulated.
    rewrite !AtValue_lower by exact Hs. rewrite acc_loop_value.
    - rewrite between_keys by assumption. reflexivity.
    - apply lower_bound_mono. exact Hle.
    - rewrite skipn_length. pose proof (lower_bound_le (states (base c)) tnew).
      pose proof (lower_bound_le (states (base c)) told). lia.
  Qed.

  Lemma GetClosestState_sorted : forall c t c' os,
    time_sorted (states c) -> GetClosestState O d c t = Ok (c', os) -> time_sorted (states c').
  Proof.
    intros c t c' os Hs H. unfold GetClosestState in H. inv_bind H. inv_bind H.
    destruct (_ || _); [injection H as <- <-; exact Hs|].
    destruct (interpolate O c t (fst a0)) as [c1 tc] eqn:Ei.
    assert (time_sorted (states c1)) as Hs1.
    { apply interpolate_frame in Ei as
        [[-> _]|(_ & _ & tl & sl & tn & sn & _ & _ & _ & _ & _ & _ & _ & ->)]; [exact Hs|].
      cbn. apply insert_list_sorted. exact Hs. }
    inv_bind H. rename a1 into c2. apply PropPToState_frame in E1 as [_ Hk2].
    assert (time_sorted (states c2)) as Hs2 by (eapply sorted_same_keys; [exact Hk2|exact Hs1]).
    destruct (GetValueAt (states c2) tc) as [[ks s]|]; [|discriminate].
    destruct (negb _); [injection H as <- <-; exact Hs2|].
    inv_bind H. injection H as <- <-.
    destruct (janitor c2 >? janitor_limit).
    - inv_bind E1. injection E1 as <-. cbn.
      apply CleanUpBuffers_frame in E2 as (Hc & _ & _).
      eapply ClearOlderThan_sorted; eauto.
    - injection E1 as <-. exact Hs2.
  Qed.

  Lemma GetClosestState_close : forall c t c' ts s,
    GetClosestState O d c t = Ok (c', Some (ts, s)) -> Z.abs (ts - t) <= thr_closest.
  Proof.
    intros c t c' ts s H. unfold GetClosestState in H. inv_bind H. inv_bind H.
    destruct (_ || _) eqn:Ec; [discriminate|]. apply orb_false_elim in Ec as [_ Ec].
    destruct (interpolate O c t (fst a0)) as [c1 tc] eqn:Ei.
    apply interpolate_flags in Ei as [Htc _].
    inv_bind H. destruct (GetValueAt (states a1) tc) as [[ks s']|]; [|discriminate].
    destruct (negb _); [discriminate|].
    inv_bind H. injection H as <- <- <-. rewrite Htc.
    destruct (_ && _); [unfold thr_closest, second; lia|lia].
  Qed.

  (** The second query of a relative measurement and its inputs. *)
  Lemma rapply_inputs : forall c tm m c1 ts s c2,
    time_sorted (states (base c)) -> states (base c) <> [] ->
    rGetClosestState O R d c tm = Ok (c1, Some (ts, s)) ->
    time_sorted (meas (base c1)) -> occupied (meas (base c1)) tm -> occupied (states (base c1)) ts ->
    r_relative R m = true -> rapply O R d c1 tm m ts s = Ok c2 ->
    (exists r, GetPreviousMeasurement (r_sid R) d (meas (base c1)) tm (r_sid R m) = Ok r /\
       match r with
       | None => c2 = c1
       | Some (tp, mp) =>
           In (tp, mp) (meas (base c1)) /\ tp < tm /\ r_sid R mp = r_sid R m /\
           (forall e, In e (meas (base c1)) -> fst e < tm -> r_sid R (snd e) = r_sid R m -> fst e <= tp) /\
           if (tp =? INVALID_TIME) || negb (r_pose R mp) then c2 = c1
           else exists c1' os, rGetClosestState O R d c1 tp = Ok (c1', os) /\
             match os with
             | None => c2 = c1'
             | Some (told, sold) =>
                 if told =? INVALID_TIME then c2 = c1' else
                 Z.abs (told - tp) <= thr_closest /\ told <= ts /\
                 exists snew,
                 (forall s', In (ts, s') (states (base c1')) -> s' = snew) /\
                 match apply_rel R mp m (glob (base c1')) (s_val sold) (s_cov sold)
                    (fold_left (tr_mul R) (map (trs c1') (filter (fun k => (told <=? k) && (k <? ts))
                                             (keys (states (base c1'))))) (tr_id R))
                    (s_val snew) (s_cov snew) with
                 | (reached, v, P, g) =>
                    states (base c2) = upd_key O ts (mkst (s_acc snew) (s_gyr snew) v P) (states (base c1')) /\
                    glob (base c2) = g /\
                    time_P (base c2) = if reached then ts else time_P (base c1')
                 end
             end
       end).
  Proof.
    intros c tm m c1 ts s c2 Hs Hne Hq Hms Hom Hots Hrel H.
    pose proof (rGetClosestState_forget O R d c tm) as Hb. unfold forget in Hb. rewrite Hq in Hb.
    cbn [bind] in Hb. symmetry in Hb.
    pose proof (GetClosestState_sorted _ _ _ _ Hs Hb) as Hs1.
    assert (states (base c1) <> []) as Hne1
      by (destruct Hots as [x Hx]; intros E; rewrite E in Hx; destruct Hx).
    unfold rapply in H. rewrite Hrel in H. cbn [negb] in H.
    assert (meas (base c1) <> []) as Hmne by (destruct Hom as [x Hx]; intros E; rewrite E in Hx; destruct Hx).
    destruct Hom as [mm Hmm].
    destruct (previous_found (r_sid R) d (meas (base c1)) tm (r_sid R m) mm Hms Hmm (d_ne d Hd _ Hmne))
      as (om & Hpm & Hspec). cbv zeta in Hspec.
    exists om. split; [exact Hpm|]. rewrite Hpm in H. cbn [bind] in H.
    destruct om as [[tp mp]|]; [|injection H as <-; reflexivity].
    destruct Hspec as (j & _ & Hj & Htp & Hid & Hmax). cbn [fst snd] in *.
    split; [eapply nth_error_In; exact Hj|]. split; [exact Htp|]. split; [exact Hid|].
    split; [exact Hmax|].
    destruct (_ || _); [injection H as <-; reflexivity|].
    inv_bind H. destruct a as [c1' os]. exists c1', os. split; [reflexivity|].
    destruct (negb _); [discriminate|].
    destruct os as [[told sold]|]; [|injection H as <-; reflexivity].
    destruct (told =? INVALID_TIME); [injection H as <-; reflexivity|].
    pose proof (rGetClosestState_forget O R d c1 tp) as Hb'. unfold forget in Hb'. rewrite E in Hb'.
    cbn [bind] in Hb'. symmetry in Hb'.
    pose proof (GetClosestState_sorted _ _ _ _ Hs1 Hb') as Hs1'.
    destruct (GetClosestState_picks (base c) tm (base c1) ts s Hs Hne Hb) as (new & Hpk & Hsk).
    destruct (GetClosestState_picks (base c1) tp (base c1') told sold Hs1 Hne1 Hb') as (new' & Hpk' & _).
    assert (Z.abs (told - tp) <= thr_closest) as Hcl.
    { apply GetClosestState_close in Hb'. exact Hb'. }
    split; [exact Hcl|].
    assert (told <= ts) as Hle.
    { eapply (picks_order d Hd (flags (base c)) (flags (base c1))); try eassumption.
      - eapply sorted_same_keys; [apply vmap_keys|]. exact Hs.
      - unfold flags. intros E'. apply Hne. apply (f_equal (@length _)) in E'. rewrite vmap_length in E'.
        destruct (states (base c)); [reflexivity|discriminate E'].
      - eapply sorted_same_keys; [apply vmap_keys|]. exact Hs1.
      - unfold flags. intros E'. apply Hne1. apply (f_equal (@length _)) in E'. rewrite vmap_length in E'.
        destruct (states (base c1)); [reflexivity|discriminate E'].
      - apply vmap_occupied. exact Hots. }
    split; [exact Hle|].
    cbv zeta in H. rewrite (GetAccumulated_value c1' told ts Hs1' Hle) in H. cbn [bind] in H.
    set (snew := match GetValueAt (states (base c1')) ts with Some (_, s') => s' | None => s end) in *.
    exists snew. split.
    { intros s' Hs'. unfold snew.
      assert (GetValueAt (states (base c1')) ts = Some (ts, s')) as -> by (apply GetValueAt_spec; auto).
      reflexivity. }
    destruct (apply_rel R _ _ _ _ _ _ _ _) as [[[b v] P] g]. injection H as <-.
    destruct b; auto.
  Qed.
End Safety.
