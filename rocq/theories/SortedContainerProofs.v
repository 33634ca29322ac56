(** Lemmas about the buffer model. *)

From Coq Require Import ZArith List Sorting.Sorted Lia ZifyBool ZifyNat Bool.
From Verif Require Import Outcome SortedContainer SortedContainerSpec.
Import ListNotations.
Open Scope Z_scope.

Section Proofs.
  Context {A : Type}.
  Implicit Types (c : list (Z * A)) (t k : Z) (a x : A).

  Lemma sorted_cons_inv : forall k x c,
    time_sorted ((k, x) :: c) ->
    time_sorted c /\ forall k' x', In (k', x') c -> k < k'.
  Proof.
    intros k x c H. inversion H as [|? ? Hs Hf]; subst. split; [exact Hs|].
    intros k' x' Hin. rewrite Forall_forall in Hf.
    specialize (Hf (k', x') Hin). exact Hf.
  Qed.

  Lemma sorted_cons : forall k x c,
    time_sorted c -> (forall k' x', In (k', x') c -> k < k') ->
    time_sorted ((k, x) :: c).
  Proof.
    intros k x c Hs Hf. constructor; [exact Hs|].
    apply Forall_forall. intros [k' x'] Hin. cbn. eapply Hf; eauto.
  Qed.

  Lemma sorted_nil : time_sorted (@nil (Z * A)).
  Proof. constructor. Qed.

  Lemma sorted_nth_lt : forall c i j e e',
    time_sorted c -> nth_error c i = Some e -> nth_error c j = Some e' ->
    (i < j)%nat -> fst e < fst e'.
  Proof.
    induction c as [|[k x] r IH]; intros i j e e' Hs Hi Hj Hij.
    - destruct i; discriminate.
    - apply sorted_cons_inv in Hs as [Hs Hf].
      destruct j as [|j]; [lia|].
      destruct i as [|i]; cbn in Hi, Hj.
      + injection Hi as <-. destruct e' as [k' x']. cbn.
        apply nth_error_In in Hj. eapply Hf; eauto.
      + eapply IH; eauto. lia.
  Qed.

  Lemma sorted_nth_inj : forall c i j e e',
    time_sorted c -> nth_error c i = Some e -> nth_error c j = Some e' ->
    fst e = fst e' -> i = j.
  Proof.
    intros c i j e e' Hs Hi Hj He.
    destruct (lt_eq_lt_dec i j) as [[H|H]|H]; [|exact H|].
    - pose proof (sorted_nth_lt _ _ _ _ _ Hs Hi Hj H); lia.
    - pose proof (sorted_nth_lt _ _ _ _ _ Hs Hj Hi H); lia.
  Qed.

  Lemma sorted_nth_le : forall c i j e e',
    time_sorted c -> nth_error c i = Some e -> nth_error c j = Some e' ->
    (fst e <= fst e' <-> (i <= j)%nat).
  Proof.
    intros c i j e e' Hs Hi Hj. split; intros H.
    - destruct (le_lt_dec i j) as [?|Hlt]; [assumption|].
      pose proof (sorted_nth_lt _ _ _ _ _ Hs Hj Hi Hlt); lia.
    - destruct (Nat.eq_dec i j) as [->|Hn].
      + rewrite Hi in Hj. injection Hj as ->. lia.
      + assert (i < j)%nat as Hlt by lia.
        pose proof (sorted_nth_lt _ _ _ _ _ Hs Hi Hj Hlt); lia.
  Qed.

  Lemma sorted_unique : forall c t a a',
    time_sorted c -> In (t, a) c -> In (t, a') c -> a = a'.
  Proof.
    intros c t a a' Hs H1 H2.
    apply In_nth_error in H1 as [i Hi]. apply In_nth_error in H2 as [j Hj].
    assert (i = j) by (eapply sorted_nth_inj; eauto). subst.
    rewrite Hi in Hj. congruence.
  Qed.

  (** *** Positions *)

  Lemma lower_bound_le : forall c t, (lower_bound t c <= length c)%nat.
  Proof.
    induction c as [|[k x] r IH]; intros t; cbn; [lia|].
    destruct (k <? t); [specialize (IH t)|]; lia.
  Qed.

  Lemma upper_bound_le : forall c t, (upper_bound t c <= length c)%nat.
  Proof.
    induction c as [|[k x] r IH]; intros t; cbn; [lia|].
    destruct (k <=? t); [specialize (IH t)|]; lia.
  Qed.

  Lemma find_pos_le : forall c t, (find_pos t c <= length c)%nat.
  Proof.
    induction c as [|[k x] r IH]; intros t; cbn; [lia|].
    destruct (k =? t); [|specialize (IH t)]; lia.
  Qed.

  Lemma lower_bound_spec : forall c t i e,
    time_sorted c -> nth_error c i = Some e ->
    ((i < lower_bound t c)%nat <-> fst e < t).
  Proof.
    induction c as [|[k x] r IH]; intros t i e Hs Hi.
    - destruct i; discriminate.
    - apply sorted_cons_inv in Hs as [Hs Hf]. cbn.
      destruct i as [|i]; cbn in Hi.
      + injection Hi as <-. cbn. destruct (k <? t) eqn:E; lia.
      + specialize (IH t i e Hs Hi).
        assert (k < fst e) as Hk.
        { destruct e as [k' x']. apply nth_error_In in Hi. eapply Hf; eauto. }
        destruct (k <? t) eqn:E; lia.
  Qed.

  Lemma upper_bound_spec : forall c t i e,
    time_sorted c -> nth_error c i = Some e ->
    ((i < upper_bound t c)%nat <-> fst e <= t).
  Proof.
    induction c as [|[k x] r IH]; intros t i e Hs Hi.
    - destruct i; discriminate.
    - apply sorted_cons_inv in Hs as [Hs Hf]. cbn.
      destruct i as [|i]; cbn in Hi.
      + injection Hi as <-. cbn. destruct (k <=? t) eqn:E; lia.
      + specialize (IH t i e Hs Hi).
        assert (k < fst e) as Hk.
        { destruct e as [k' x']. apply nth_error_In in Hi. eapply Hf; eauto. }
        destruct (k <=? t) eqn:E; lia.
  Qed.

  Lemma nth_error_lt_some : forall c i,
    (i < length c)%nat -> exists e, nth_error c i = Some e.
  Proof.
    intros c i Hi. destruct (nth_error c i) as [e|] eqn:E; [eauto|].
    apply nth_error_None in E. lia.
  Qed.

  Lemma nth_error_some_lt : forall c i e,
    nth_error c i = Some e -> (i < length c)%nat.
  Proof.
    intros c i e H. apply nth_error_Some. congruence.
  Qed.

  Lemma find_pos_occupied : forall c t,
    (find_pos t c < length c)%nat ->
    exists a, nth_error c (find_pos t c) = Some (t, a).
  Proof.
    induction c as [|[k x] r IH]; intros t H; cbn in *; [lia|].
    destruct (k =? t) eqn:E.
    - exists x. cbn. f_equal. f_equal. lia.
    - cbn. apply IH. lia.
  Qed.

  Lemma find_pos_free : forall c t a,
    find_pos t c = length c -> ~ In (t, a) c.
  Proof.
    induction c as [|[k x] r IH]; intros t a H; cbn in *; [tauto|].
    destruct (k =? t) eqn:E; [discriminate|].
    intros [Heq|Hin].
    - injection Heq as -> ->. lia.
    - eapply IH; [|exact Hin]. lia.
  Qed.

  Lemma find_pos_In : forall c t a,
    In (t, a) c -> (find_pos t c < length c)%nat.
  Proof.
    intros c t a Hin. pose proof (find_pos_le c t) as Hle.
    destruct (Nat.eq_dec (find_pos t c) (length c)) as [He|]; [|lia].
    exfalso. eapply find_pos_free; eauto.
  Qed.

  Lemma find_pos_nth : forall c t a,
    time_sorted c -> In (t, a) c -> nth_error c (find_pos t c) = Some (t, a).
  Proof.
    intros c t a Hs Hin.
    destruct (find_pos_occupied c t (find_pos_In _ _ _ Hin)) as [a' Ha'].
    rewrite Ha'. do 2 f_equal. eapply sorted_unique; eauto.
    eapply nth_error_In; eauto.
  Qed.

  Lemma find_pos_at : forall c i t a,
    time_sorted c -> nth_error c i = Some (t, a) -> find_pos t c = i.
  Proof.
    intros c i t a Hs Hi.
    assert (In (t, a) c) as Hin by (eapply nth_error_In; eauto).
    pose proof (find_pos_nth _ _ _ Hs Hin) as Hf.
    eapply sorted_nth_inj; eauto.
  Qed.

  Lemma lower_bound_at : forall c i t a,
    time_sorted c -> nth_error c i = Some (t, a) -> lower_bound t c = i.
  Proof.
    intros c i t a Hs Hi.
    pose proof (lower_bound_spec c t i (t, a) Hs Hi) as H1. cbn in H1.
    pose proof (lower_bound_le c t) as Hle.
    pose proof (nth_error_some_lt _ _ _ Hi) as Hlt.
    destruct (Nat.eq_dec (lower_bound t c) i) as [|Hne]; [assumption|].
    assert (lower_bound t c < i)%nat as Hl by lia.
    destruct (nth_error_lt_some c (lower_bound t c)) as [e He]; [lia|].
    pose proof (lower_bound_spec c t _ _ Hs He) as H2.
    pose proof (sorted_nth_lt _ _ _ _ _ Hs He Hi Hl) as H3. cbn in H3. lia.
  Qed.

  Lemma upper_bound_at : forall c i t a,
    time_sorted c -> nth_error c i = Some (t, a) -> upper_bound t c = S i.
  Proof.
    intros c i t a Hs Hi.
    pose proof (upper_bound_spec c t i (t, a) Hs Hi) as H1. cbn in H1.
    pose proof (upper_bound_le c t) as Hle.
    destruct (Nat.eq_dec (upper_bound t c) (S i)) as [|Hne]; [assumption|].
    assert (S i < upper_bound t c)%nat as Hl by lia.
    destruct (nth_error_lt_some c (S i)) as [e He]; [lia|].
    pose proof (upper_bound_spec c t _ _ Hs He) as H2.
    assert (i < S i)%nat as Hlt by lia.
    pose proof (sorted_nth_lt _ _ _ _ _ Hs Hi He Hlt) as H3. cbn in H3. lia.
  Qed.

  Lemma bounds_free : forall c t,
    time_sorted c -> find_pos t c = length c -> lower_bound t c = upper_bound t c.
  Proof.
    intros c t Hs Hf.
    pose proof (lower_bound_le c t) as Hl. pose proof (upper_bound_le c t) as Hu.
    destruct (lt_eq_lt_dec (lower_bound t c) (upper_bound t c)) as [[H|H]|H]; [|exact H|].
    - destruct (nth_error_lt_some c (lower_bound t c)) as [[k x] He]; [lia|].
      pose proof (lower_bound_spec c t _ _ Hs He) as H1.
      pose proof (upper_bound_spec c t _ _ Hs He) as H2. cbn in *.
      assert (k = t) by lia. subst k.
      exfalso. eapply find_pos_free; [exact Hf|]. eapply nth_error_In; eauto.
    - destruct (nth_error_lt_some c (upper_bound t c)) as [[k x] He]; [lia|].
      pose proof (lower_bound_spec c t _ _ Hs He) as H1.
      pose proof (upper_bound_spec c t _ _ Hs He) as H2. cbn in *. lia.
  Qed.

  (** *** Insert *)

  Lemma insert_list_free : forall c t a e,
    ~ occupied c t ->
    (In e (insert_list t a c) <-> e = (t, a) \/ In e c).
  Proof.
    induction c as [|[k x] r IH]; intros t a e Hfree; cbn.
    - intuition congruence.
    - assert (~ occupied r t) as Hr.
      { intros [y Hy]. apply Hfree. exists y. right; exact Hy. }
      destruct (k <? t) eqn:E1.
      + cbn. rewrite (IH t a e Hr). intuition.
      + destruct (k =? t) eqn:E2.
        * exfalso. apply Hfree. exists x. left. f_equal. lia.
        * cbn. intuition congruence.
  Qed.

  Lemma insert_list_sorted : forall c t a,
    time_sorted c -> time_sorted (insert_list t a c).
  Proof.
    induction c as [|[k x] r IH]; intros t a Hs; cbn.
    - apply sorted_cons; [apply sorted_nil|]. intros k' x' [].
    - pose proof Hs as Hs0.
      apply sorted_cons_inv in Hs as [Hs Hf].
      destruct (k <? t) eqn:E1.
      + apply sorted_cons; [apply IH; exact Hs|].
        intros k' x' Hin.
        destruct (in_dec Z.eq_dec t (map fst r)) as [Ht|Ht].
        * assert (insert_list t a r = r) as Hsame.
          { clear -Hs Ht. induction r as [|[k x] r IH]; [destruct Ht|].
            cbn. apply sorted_cons_inv in Hs as [Hs Hf].
            cbn in Ht. destruct (k <? t) eqn:E.
            - f_equal. apply IH; [exact Hs|]. destruct Ht as [Ht|Ht]; [lia|exact Ht].
            - destruct (k =? t) eqn:E'; [reflexivity|].
              destruct Ht as [Ht|Ht]; [lia|].
              apply in_map_iff in Ht as [[k' x'] [Hk Hin]]. cbn in Hk. subst.
              specialize (Hf _ _ Hin). lia. }
          rewrite Hsame in Hin. eapply Hf; eauto.
        * apply insert_list_free in Hin as [Heq|Hin].
          -- injection Heq as -> ->. lia.
          -- eapply Hf; eauto.
          -- intros [y Hy]. apply Ht. apply in_map_iff. exists (t, y). auto.
      + destruct (k =? t) eqn:E2; [exact Hs0|].
        apply sorted_cons; [exact Hs0|].
        intros k' x' [Heq|Hin].
        * injection Heq as -> ->. lia.
        * specialize (Hf _ _ Hin). lia.
  Qed.

  Lemma insert_list_occupied : forall c t a,
    time_sorted c -> occupied c t -> insert_list t a c = c.
  Proof.
    induction c as [|[k x] r IH]; intros t a Hs [y Hy]; [destruct Hy|].
    apply sorted_cons_inv in Hs as [Hs Hf]. cbn.
    destruct (k <? t) eqn:E1.
    - f_equal. apply IH; [exact Hs|]. exists y.
      destruct Hy as [Hy|Hy]; [injection Hy as -> ->; lia|exact Hy].
    - destruct (k =? t) eqn:E2; [reflexivity|].
      destruct Hy as [Hy|Hy]; [injection Hy as -> ->; lia|].
      specialize (Hf _ _ Hy). lia.
  Qed.

  Lemma occupied_dec : forall c t, {occupied c t} + {~ occupied c t}.
  Proof.
    intros c t. destruct (Nat.eq_dec (find_pos t c) (length c)) as [He|He].
    - right. intros [a Ha]. eapply find_pos_free; eauto.
    - left. pose proof (find_pos_le c t).
      destruct (find_pos t c <? length c)%nat eqn:E; [|exfalso; lia].
      assert (find_pos t c < length c)%nat as Hlt by lia.
      destruct (nth_error c (find_pos t c)) as [[k x]|] eqn:Hn.
      + exists x. destruct (find_pos_occupied c t Hlt) as [a' Ha'].
        rewrite Hn in Ha'. injection Ha' as -> ->. eapply nth_error_In; eauto.
      + apply nth_error_None in Hn. exfalso. lia.
  Qed.

  Lemma occupied_find : forall c t,
    occupied c t <-> (find_pos t c < length c)%nat.
  Proof.
    intros c t. split.
    - intros [a Ha]. eapply find_pos_In; eauto.
    - intros H. destruct (find_pos_occupied c t H) as [a Ha]. exists a.
      eapply nth_error_In; eauto.
  Qed.

  Lemma free_find : forall c t,
    ~ occupied c t <-> find_pos t c = length c.
  Proof.
    intros c t. rewrite occupied_find. pose proof (find_pos_le c t). lia.
  Qed.

  Lemma Insert_sorted : forall c t a,
    time_sorted c -> time_sorted (fst (Insert c t a)).
  Proof. intros. cbn. apply insert_list_sorted; assumption. Qed.

  Lemma Insert_free : forall c t a,
    time_sorted c -> ~ occupied c t ->
    (forall e, In e (fst (Insert c t a)) <-> e = (t, a) \/ In e c) /\
    nth_error (fst (Insert c t a)) (snd (Insert c t a)) = Some (t, a).
  Proof.
    intros c t a Hs Hfree. split.
    - intros e. cbn. apply insert_list_free; assumption.
    - cbn. apply find_pos_nth; [apply insert_list_sorted; assumption|].
      apply insert_list_free; auto.
  Qed.

  Lemma Insert_occupied : forall c t a b,
    time_sorted c -> In (t, b) c ->
    fst (Insert c t a) = c /\
    nth_error (fst (Insert c t a)) (snd (Insert c t a)) = Some (t, b).
  Proof.
    intros c t a b Hs Hin. cbn.
    rewrite insert_list_occupied by (try assumption; exists b; exact Hin).
    split; [reflexivity|]. apply find_pos_nth; assumption.
  Qed.

  (** *** Erase, UpdateTime *)

  Lemma erase_key_In : forall c t e,
    time_sorted c -> (In e (erase_key t c) <-> In e c /\ fst e <> t).
  Proof.
    induction c as [|[k x] r IH]; intros t e Hs; cbn; [tauto|].
    apply sorted_cons_inv in Hs as [Hs Hf].
    destruct (k =? t) eqn:E.
    - assert (k = t) by lia. subst k. split.
      + intros Hin. split; [auto|]. destruct e as [k' x']. cbn.
        specialize (Hf _ _ Hin). lia.
      + intros [[Heq|Hin] Hne]; [subst e; cbn in Hne; lia|exact Hin].
    - cbn. rewrite (IH t e Hs). split.
      + intros [Heq|[Hin Hne]]; [|tauto]. subst e. cbn. split; [auto|lia].
      + tauto.
  Qed.

  Lemma erase_key_sorted : forall c t, time_sorted c -> time_sorted (erase_key t c).
  Proof.
    induction c as [|[k x] r IH]; intros t Hs; cbn; [exact Hs|].
    pose proof Hs as Hs0. apply sorted_cons_inv in Hs as [Hs Hf].
    destruct (k =? t); [exact Hs|].
    apply sorted_cons; [apply IH; exact Hs|].
    intros k' x' Hin. apply erase_key_In in Hin as [Hin _]; [|exact Hs].
    eapply Hf; eauto.
  Qed.

  Lemma UpdateTime_sorted : forall c t t',
    time_sorted c -> time_sorted (fst (UpdateTime c t t')).
  Proof.
    intros c t t' Hs. unfold UpdateTime.
    destruct (nth_error c (find_pos t c)) as [[k a]|]; [|exact Hs].
    cbn. apply insert_list_sorted, erase_key_sorted, Hs.
  Qed.

  Lemma UpdateTime_missing : forall c t t',
    ~ occupied c t -> UpdateTime c t t' = (c, GetClosest c t).
  Proof.
    intros c t t' Hfree. unfold UpdateTime.
    apply free_find in Hfree. rewrite Hfree.
    destruct (nth_error c (length c)) eqn:E; [|reflexivity].
    apply nth_error_some_lt in E. lia.
  Qed.

  Lemma UpdateTime_moves : forall c t t' a,
    time_sorted c -> In (t, a) c -> (t' = t \/ ~ occupied c t') ->
    (forall e, In e (fst (UpdateTime c t t')) <->
               e = (t', a) \/ (In e c /\ fst e <> t)) /\
    snd (UpdateTime c t t') = Some (t', a).
  Proof.
    intros c t t' a Hs Hin Hfree. unfold UpdateTime.
    rewrite (find_pos_nth _ _ _ Hs Hin).
    assert (~ occupied (erase_key t c) t') as Hfree'.
    { intros [y Hy]. apply erase_key_In in Hy as [Hy Hne]; [|exact Hs].
      cbn in Hne. destruct Hfree as [->|Hfree]; [lia|]. apply Hfree. exists y; exact Hy. }
    destruct (Insert_free (erase_key t c) t' a (erase_key_sorted _ _ Hs) Hfree') as [H1 H2].
    cbn in H1, H2 |- *. split.
    - intros e. rewrite H1. rewrite erase_key_In by exact Hs. tauto.
    - exact H2.
  Qed.

  Lemma UpdateTime_collides : forall c t t' a b,
    time_sorted c -> In (t, a) c -> t' <> t -> In (t', b) c ->
    (forall e, In e (fst (UpdateTime c t t')) <-> In e c /\ fst e <> t) /\
    snd (UpdateTime c t t') = Some (t', b).
  Proof.
    intros c t t' a b Hs Hin Hne Hb. unfold UpdateTime.
    rewrite (find_pos_nth _ _ _ Hs Hin).
    assert (In (t', b) (erase_key t c)) as Hb'.
    { apply erase_key_In; [exact Hs|]. cbn. auto. }
    destruct (Insert_occupied (erase_key t c) t' a b (erase_key_sorted _ _ Hs) Hb') as [H1 H2].
    destruct (Insert (erase_key t c) t' a) as [c' p] eqn:EI. cbn in H1, H2 |- *.
    subst c'. split; [|exact H2].
    intros e. apply erase_key_In; exact Hs.
  Qed.

  (** *** Closest queries *)

  Lemma nearest_exact : forall c t a, time_sorted c -> In (t, a) c -> nearest c t (t, a).
  Proof.
    intros c t a Hs Hin. split; [exact Hin|]. intros [k x] Hk. cbn. lia.
  Qed.

  (** Characterisation by neighbouring positions. *)
  Lemma nearest_between : forall c t i em ep,
    time_sorted c -> find_pos t c = length c ->
    lower_bound t c = S i ->
    nth_error c i = Some em -> nth_error c (S i) = Some ep ->
    nearest c t (if Z.abs (fst ep - t) <? Z.abs (fst em - t) then ep else em).
  Proof.
    intros c t i em ep Hs Hf Hlb Hm Hp.
    pose proof (lower_bound_spec c t _ _ Hs Hm) as Hm1.
    pose proof (lower_bound_spec c t _ _ Hs Hp) as Hp1.
    assert (fst em < t) as Hmt by lia.
    assert (t <= fst ep) as Hpt by lia.
    assert (forall e', In e' c -> fst e' <= fst em \/ fst ep <= fst e') as Hdich.
    { intros e' He'. apply In_nth_error in He' as [j Hj].
      pose proof (sorted_nth_le _ _ _ _ _ Hs Hj Hm).
      pose proof (sorted_nth_le _ _ _ _ _ Hs Hp Hj). lia. }
    destruct (Z.abs (fst ep - t) <? Z.abs (fst em - t)) eqn:E; split;
      try (eapply nth_error_In; eassumption).
    - intros e' He'. specialize (Hdich e' He'). lia.
    - intros e' He'. specialize (Hdich e' He'). lia.
  Qed.

  Lemma nearest_before_all : forall c t e,
    time_sorted c -> find_pos t c = length c ->
    lower_bound t c = 0%nat -> nth_error c 0 = Some e -> nearest c t e.
  Proof.
    intros c t e Hs Hf Hlb He. split; [eapply nth_error_In; eauto|].
    intros e' He'. apply In_nth_error in He' as [j Hj].
    pose proof (lower_bound_spec c t _ _ Hs He) as H1.
    pose proof (lower_bound_spec c t _ _ Hs Hj) as H2.
    pose proof (sorted_nth_le _ _ _ _ _ Hs He Hj). lia.
  Qed.

  Lemma nearest_after_all : forall c t i e,
    time_sorted c -> lower_bound t c = length c -> length c = S i ->
    nth_error c i = Some e -> nearest c t e.
  Proof.
    intros c t i e Hs Hlb Hlen He. split; [eapply nth_error_In; eauto|].
    intros e' He'. apply In_nth_error in He' as [j Hj].
    pose proof (nth_error_some_lt _ _ _ Hj) as Hlt.
    pose proof (lower_bound_spec c t _ _ Hs He) as H1.
    pose proof (lower_bound_spec c t _ _ Hs Hj) as H2.
    pose proof (sorted_nth_le _ _ _ _ _ Hs Hj He). lia.
  Qed.

  Lemma GetIteratorClosest_exact : forall d c t,
    occupied c t -> GetIteratorClosest d c t = Ok (find_pos t c).
  Proof.
    intros d c t Ho. apply occupied_find in Ho. unfold GetIteratorClosest, pos_end.
    replace (find_pos t c =? length c)%nat with false by lia. reflexivity.
  Qed.

  (** The iterator query, on every platform where decrementing [begin] is not a
      crash and does not land on [begin] while there is a second element. *)
  Lemma GetIteratorClosest_nearest : forall d c t,
    time_sorted c -> c <> [] ->
    (d (length c) = DecEnd \/ (d (length c) = DecBegin /\ length c = 1%nat)) ->
    exists p e, GetIteratorClosest d c t = Ok p /\ nth_error c p = Some e /\
                nearest c t e.
  Proof.
    intros d c t Hs Hne Hd.
    destruct (occupied_dec c t) as [Ho|Hfree].
    - rewrite (GetIteratorClosest_exact d c t Ho).
      destruct Ho as [a Ha]. exists (find_pos t c), (t, a).
      split; [reflexivity|]. split; [apply find_pos_nth; assumption|].
      apply nearest_exact; assumption.
    - apply free_find in Hfree.
      assert (0 < length c)%nat as Hpos by (destruct c; [congruence|cbn; lia]).
      destruct (nth_error_lt_some c 0 Hpos) as [e0 He0].
      pose proof (bounds_free c t Hs Hfree) as Hb.
      pose proof (lower_bound_le c t) as Hl.
      unfold GetIteratorClosest, pos_end. rewrite Hfree, Nat.eqb_refl. cbn [negb].
      unfold GetIteratorClosestBefore, GetIteratorClosestAfter,
        GetIteratorBeforeBegin, pos_begin, pos_end.
      destruct (lower_bound t c) as [|i] eqn:Elb.
      + (* before everything *)
        cbn [it_dec].
        assert (exists q, match d (length c) with
                          | DecUB => UB | DecEnd => Ok (pos_end c)
                          | DecBegin => Ok (pos_begin c) end = Ok q) as [q Hq].
        { destruct Hd as [-> | [-> _]]; eauto. }
        rewrite Hq. cbn [bind]. rewrite Nat.eqb_refl.
        exists 0%nat, e0. split; [reflexivity|]. split; [exact He0|].
        apply nearest_before_all; assumption.
      + cbn [it_dec bind]. rewrite <- Hb.
        destruct (nth_error_lt_some c i) as [em Hem]; [lia|].
        assert (Hwrap: (exists q, match d (length c) with
                          | DecUB => UB | DecEnd => Ok (pos_end c)
                          | DecBegin => Ok (pos_begin c) end = Ok q /\
                         (i <> q \/ (i = 0%nat /\ q = 0%nat /\ length c = 1%nat)))).
        { unfold pos_end, pos_begin. destruct Hd as [-> | [-> H1]].
          - exists (length c). split; [reflexivity|]. lia.
          - exists 0%nat. split; [reflexivity|]. lia. }
        destruct Hwrap as [q [Hq Hcase]]. rewrite Hq. cbn [bind].
        destruct (i =? q)%nat eqn:Eiq.
        * destruct Hcase as [Hcase|[Hi0 [_ H1]]]; [lia|].
          exists 0%nat, e0. split; [reflexivity|]. split; [exact He0|].
          subst i. eapply nearest_after_all; eauto; lia.
        * replace (i =? length c)%nat with false by lia.
          destruct (S i =? length c)%nat eqn:Eend.
          -- exists i, em. split; [reflexivity|]. split; [exact Hem|].
             eapply nearest_after_all; eauto; lia.
          -- destruct (nth_error_lt_some c (S i)) as [ep Hep]; [lia|].
             unfold it_deref. rewrite Hep, Hem. cbn [bind].
             pose proof (nearest_between c t i em ep Hs Hfree Elb Hem Hep) as Hn.
             destruct (Z.abs (fst ep - t) <? Z.abs (fst em - t)); eauto.
  Qed.

  (** Exactly when the iterator query is defined. *)
  Lemma GetIteratorClosest_defined : forall d c t,
    time_sorted c ->
    ((exists p, GetIteratorClosest d c t = Ok p) <->
     (occupied c t \/ d (length c) <> DecUB)).
  Proof.
    intros d c t Hs. destruct (occupied_dec c t) as [Ho|Hfree].
    - rewrite (GetIteratorClosest_exact d c t Ho). split; eauto.
    - pose proof Hfree as Hfree0. apply free_find in Hfree.
      split.
      + intros [p Hp]. right. intros Hd.
        unfold GetIteratorClosest, pos_end in Hp. rewrite Hfree, Nat.eqb_refl in Hp.
        cbn [negb] in Hp.
        unfold GetIteratorClosestBefore, GetIteratorBeforeBegin, pos_begin in Hp.
        destruct (lower_bound t c); cbn [it_dec] in Hp; rewrite ?Hd in Hp; discriminate.
      + intros [Ho|Hd]; [contradiction|].
        unfold GetIteratorClosest, pos_end. rewrite Hfree, Nat.eqb_refl. cbn [negb].
        unfold GetIteratorClosestBefore, GetIteratorBeforeBegin, pos_begin,
          GetIteratorClosestAfter.
        pose proof (bounds_free c t Hs Hfree) as Hb.
        pose proof (lower_bound_le c t) as Hl.
        assert (exists q, match d (length c) with
                          | DecUB => UB | DecEnd => Ok (pos_end c)
                          | DecBegin => Ok (pos_begin c) end = Ok q) as [q Hq].
        { destruct (d (length c)); [congruence| |]; eauto. }
        destruct (lower_bound t c) as [|i] eqn:Elb; cbn [it_dec].
        * rewrite Hq. cbn [bind]. rewrite Nat.eqb_refl. eauto.
        * cbn [bind]. rewrite Hq. cbn [bind]. rewrite <- Hb.
          destruct (i =? q)%nat; [eauto|].
          destruct (i =? length c)%nat eqn:E1; [eauto|].
          destruct (S i =? length c)%nat eqn:E2; [eauto|].
          destruct (nth_error_lt_some c i) as [em Hem]; [lia|].
          destruct (nth_error_lt_some c (S i)) as [ep Hep]; [lia|].
          unfold it_deref. rewrite Hem, Hep. cbn [bind].
          destruct (Z.abs _ <? Z.abs _); eauto.
  Qed.

  Lemma GetClosest_nearest : forall c t,
    time_sorted c -> c <> [] -> ~ occupied c INVALID_TIME ->
    exists e, GetClosest c t = Some e /\ nearest c t e.
  Proof.
    intros c t Hs Hne Hinv. unfold GetClosest, GetValueAt.
    destruct (occupied_dec c t) as [Ho|Hfree].
    - destruct Ho as [a Ha]. rewrite (find_pos_nth _ _ _ Hs Ha).
      exists (t, a). split; [reflexivity|]. apply nearest_exact; assumption.
    - apply free_find in Hfree.
      assert (nth_error c (find_pos t c) = None) as ->.
      { rewrite Hfree. apply nth_error_None. lia. }
      assert (0 < length c)%nat as Hpos by (destruct c; [congruence|cbn; lia]).
      destruct (nth_error_lt_some c 0 Hpos) as [e0 He0].
      pose proof (bounds_free c t Hs Hfree) as Hb.
      pose proof (lower_bound_le c t) as Hl.
      assert (Hno: forall i e, nth_error c i = Some e -> (otime (Some e) =? INVALID_TIME) = false).
      { intros i [k x] He. cbn. apply Z.eqb_neq. intros ->. apply Hinv. exists x.
        eapply nth_error_In; eauto. }
      unfold GetClosestBefore, GetClosestAfter. rewrite <- Hb.
      assert (forall X (y : X) z, match c with [] => y | _ :: _ => z end = z) as Hc
        by (intros; destruct c; [congruence|reflexivity]).
      rewrite !Hc.
      destruct (lower_bound t c) as [|i] eqn:Elb.
      + rewrite He0. rewrite (Hno _ _ He0).
        rewrite Z.ltb_irrefl. exists e0. split; [reflexivity|].
        apply nearest_before_all; assumption.
      + destruct (nth_error_lt_some c i) as [em Hem]; [lia|].
        rewrite Hem. rewrite (Hno _ _ Hem).
        destruct (nth_error c (S i)) as [ep|] eqn:Hep.
        * rewrite (Hno _ _ Hep).
          pose proof (nearest_between c t i em ep Hs Hfree Elb Hem Hep) as Hn.
          destruct em as [km xm], ep as [kp xp]. cbn [otime fst] in *.
          destruct (Z.abs (kp - t) <? Z.abs (km - t)); eauto.
        * cbn [otime]. rewrite Z.eqb_refl. exists em. split; [reflexivity|].
          apply nth_error_None in Hep.
          eapply nearest_after_all; eauto; lia.
  Qed.

  Lemma nearest_unique : forall c t e e',
    time_sorted c -> nearest c t e -> nearest c t e' -> e = e'.
  Proof.
    intros c t [k x] [k' x'] Hs [H1 H2] [H3 H4].
    pose proof (H2 _ H3) as H5. pose proof (H4 _ H1) as H6. cbn in *.
    assert (k = k') by lia. subst. f_equal. eapply sorted_unique; eauto.
  Qed.

  (** *** Before / after *)

  Lemma GetClosestAfter_some : forall c t e,
    time_sorted c -> GetClosestAfter c t = Some e -> earliest_after c t e.
  Proof.
    intros c t e Hs He. unfold GetClosestAfter in He.
    pose proof (upper_bound_spec c t _ _ Hs He) as H1.
    repeat split; [eapply nth_error_In; eauto|lia|].
    intros e' He' Ht. apply In_nth_error in He' as [j Hj].
    pose proof (upper_bound_spec c t _ _ Hs Hj) as H2.
    apply (sorted_nth_le _ _ _ _ _ Hs He Hj). lia.
  Qed.

  Lemma GetClosestAfter_none : forall c t,
    time_sorted c ->
    (GetClosestAfter c t = None <-> forall e, In e c -> fst e <= t).
  Proof.
    intros c t Hs. unfold GetClosestAfter. split.
    - intros Hn e He. apply nth_error_None in Hn.
      apply In_nth_error in He as [j Hj].
      apply (upper_bound_spec c t _ _ Hs Hj).
      apply nth_error_some_lt in Hj. lia.
    - intros H. destruct (nth_error c (upper_bound t c)) as [e|] eqn:E; [|reflexivity].
      pose proof (upper_bound_spec c t _ _ Hs E) as H1.
      pose proof (H e (nth_error_In _ _ E)). lia.
  Qed.

  Lemma GetClosestBefore_spec : forall c t,
    time_sorted c -> (exists e, In e c /\ fst e < t) ->
    exists e, GetClosestBefore c t = Some e /\ latest_before c t e.
  Proof.
    intros c t Hs [e0 [Hin Hlt]]. apply In_nth_error in Hin as [j Hj].
    pose proof (lower_bound_spec c t _ _ Hs Hj) as H0.
    pose proof (lower_bound_le c t) as Hl.
    unfold GetClosestBefore.
    assert (c <> []) as Hne by (destruct c; [destruct j; discriminate|congruence]).
    assert (forall X (y : X) z, match c with [] => y | _ :: _ => z end = z) as Hc
        by (intros; destruct c; [congruence|reflexivity]).
    rewrite Hc.
    destruct (lower_bound t c) as [|i] eqn:Elb; [lia|].
    destruct (nth_error_lt_some c i) as [em Hem]; [lia|].
    exists em. split; [exact Hem|].
    pose proof (lower_bound_spec c t _ _ Hs Hem) as H1.
    repeat split; [eapply nth_error_In; eauto|lia|].
    intros e' He' Ht. apply In_nth_error in He' as [j' Hj'].
    pose proof (lower_bound_spec c t _ _ Hs Hj') as H2.
    apply (sorted_nth_le _ _ _ _ _ Hs Hj' Hem). lia.
  Qed.

  (** What the code does when nothing is older: it returns the first object. *)
  Lemma GetClosestBefore_none_older : forall c t,
    time_sorted c -> (forall e, In e c -> t <= fst e) ->
    GetClosestBefore c t = GetFirst c.
  Proof.
    intros c t Hs H. unfold GetClosestBefore, GetFirst.
    destruct c as [|e r]; [reflexivity|].
    destruct (lower_bound t (e :: r)) as [|i] eqn:Elb; [reflexivity|].
    assert (nth_error (e :: r) 0 = Some e) as He by reflexivity.
    pose proof (lower_bound_spec _ t _ _ Hs He) as H1.
    pose proof (H e (or_introl eq_refl)). lia.
  Qed.

  Lemma GetLast_newest : forall c, time_sorted c -> c <> [] ->
    exists e, GetLast c = Some e /\ newest c e.
  Proof.
    intros c Hs Hne. unfold GetLast.
    destruct c as [|e0 r] eqn:Ec; [congruence|]. rewrite <- Ec in *.
    destruct (nth_error_lt_some c (pred (length c))) as [e He].
    { rewrite Ec. cbn. lia. }
    exists e. split; [exact He|]. split; [eapply nth_error_In; eauto|].
    intros e' He'. apply In_nth_error in He' as [j Hj].
    apply (sorted_nth_le _ _ _ _ _ Hs Hj He).
    apply nth_error_some_lt in Hj. lia.
  Qed.

  Lemma GetFirst_oldest : forall c, time_sorted c -> c <> [] ->
    exists e, GetFirst c = Some e /\ oldest c e.
  Proof.
    intros c Hs Hne. destruct c as [|[k x] r]; [congruence|].
    exists (k, x). split; [reflexivity|]. split; [left; reflexivity|].
    intros [k' x'] [Heq|Hin].
    - injection Heq as -> ->. lia.
    - apply sorted_cons_inv in Hs as [_ Hf]. specialize (Hf _ _ Hin). cbn. lia.
  Qed.

  Lemma GetValueAt_spec : forall c t e, time_sorted c ->
    (GetValueAt c t = Some e <-> In e c /\ fst e = t).
  Proof.
    intros c t [k x] Hs. unfold GetValueAt. split.
    - intros H. pose proof (nth_error_some_lt _ _ _ H) as Hlt.
      destruct (find_pos_occupied c t Hlt) as [a Ha]. rewrite H in Ha.
      injection Ha as -> ->. cbn. split; [eapply nth_error_In; eauto|reflexivity].
    - cbn. intros [Hin ->]. apply find_pos_nth; assumption.
  Qed.

  (** *** ClearOlderThan *)

  Lemma skipn_sorted : forall n c, time_sorted c -> time_sorted (skipn n c).
  Proof.
    induction n as [|n IH]; intros c Hs; cbn; [exact Hs|].
    destruct c as [|[k x] r]; [exact Hs|].
    apply sorted_cons_inv in Hs as [Hs _]. auto.
  Qed.

  Lemma nth_error_skipn : forall n c j,
    nth_error (skipn n c) j = nth_error c (n + j).
  Proof.
    induction n as [|n IH]; intros c j; cbn; [reflexivity|].
    destruct c as [|e r]; [destruct j; reflexivity|]. apply IH.
  Qed.

  Lemma skipn_In_nth : forall n c e,
    In e (skipn n c) <-> exists j, (n <= j)%nat /\ nth_error c j = Some e.
  Proof.
    intros n c e. split.
    - intros Hin. apply In_nth_error in Hin as [j Hj].
      rewrite nth_error_skipn in Hj. exists (n + j)%nat. split; [lia|exact Hj].
    - intros [j [Hle Hj]]. apply nth_error_In with (n := (j - n)%nat).
      rewrite nth_error_skipn. replace (n + (j - n))%nat with j by lia. exact Hj.
  Qed.

  Lemma ClearOlderThan_sorted : forall d c age c',
    time_sorted c -> ClearOlderThan d c age = Ok c' -> time_sorted c'.
  Proof.
    intros d c age c' Hs H. unfold ClearOlderThan in H.
    destruct (_ <? age); [injection H as <-; exact Hs|].
    destruct (GetIteratorClosest d c _) as [p| |]; cbn [bind] in H; try discriminate.
    destruct (it_deref c p) as [e| |]; cbn [bind] in H; try discriminate.
    destruct (it_deref c _) as [b| |]; cbn [bind] in H; try discriminate.
    destruct (fst b <? fst e); injection H as <-; [apply skipn_sorted|]; exact Hs.
  Qed.

  (** Where the iterator query can end up when only definedness is known: the
      position is at, or one before, the first element not older than [t], or it is [begin]. *)
  Lemma GetIteratorClosest_pos : forall d c t p,
    time_sorted c -> c <> [] -> GetIteratorClosest d c t = Ok p ->
    (p = lower_bound t c \/ S p = lower_bound t c \/
     (p = 0%nat /\ d (length c) = DecBegin)) .
  Proof.
    intros d c t p Hs Hne Hp.
    destruct (occupied_dec c t) as [Ho|Hfree].
    - rewrite (GetIteratorClosest_exact d c t Ho) in Hp. injection Hp as <-.
      destruct Ho as [a Ha]. left. symmetry.
      eapply lower_bound_at; eauto. apply find_pos_nth; eassumption.
    - apply free_find in Hfree.
      pose proof (bounds_free c t Hs Hfree) as Hb.
      unfold GetIteratorClosest, pos_end in Hp. rewrite Hfree, Nat.eqb_refl in Hp.
      cbn [negb] in Hp.
      unfold GetIteratorClosestBefore, GetIteratorClosestAfter,
        GetIteratorBeforeBegin, pos_begin in Hp.
      destruct (lower_bound t c) as [|i] eqn:Elb; cbn [it_dec bind] in Hp.
      + destruct (match d (length c) with
                  | DecUB => UB | DecEnd => Ok (pos_end c) | DecBegin => Ok (pos_begin c) end)
          as [q| |]; cbn [bind] in Hp; try discriminate.
        rewrite Nat.eqb_refl in Hp. injection Hp as <-. auto.
      + destruct (d (length c)) eqn:Ed; cbn [bind] in Hp; try discriminate;
          unfold pos_end, pos_begin in Hp.
        * destruct (i =? length c)%nat eqn:E1.
          { pose proof (lower_bound_le c t) as Hl. lia. }
          destruct (upper_bound t c =? length c)%nat eqn:E2; [injection Hp as <-; auto|].
          destruct (it_deref c (upper_bound t c)); cbn [bind] in Hp; try discriminate.
          destruct (it_deref c i); cbn [bind] in Hp; try discriminate.
          destruct (Z.abs _ <? Z.abs _) in Hp; injection Hp as <-; [left; lia|auto].
        * destruct (i =? 0)%nat eqn:E0; [injection Hp as <-; auto|].
          destruct (i =? length c)%nat eqn:E1.
          { pose proof (lower_bound_le c t) as Hl. lia. }
          destruct (upper_bound t c =? length c)%nat eqn:E2; [injection Hp as <-; auto|].
          destruct (it_deref c (upper_bound t c)); cbn [bind] in Hp; try discriminate.
          destruct (it_deref c i); cbn [bind] in Hp; try discriminate.
          destruct (Z.abs _ <? Z.abs _) in Hp; injection Hp as <-; [left; lia|auto].
  Qed.

  Lemma firstn_skipn_removed : forall n c e,
    In e c -> ~ In e (skipn n c) ->
    exists j, (j < n)%nat /\ nth_error c j = Some e.
  Proof.
    intros n c e Hin Hnot. apply In_nth_error in Hin as [j Hj].
    exists j. split; [|exact Hj].
    destruct (le_lt_dec n j) as [Hle|]; [|assumption].
    exfalso. apply Hnot. apply skipn_In_nth. eauto.
  Qed.

  Lemma ClearOlderThan_cases : forall d c age c' en,
    time_sorted c -> newest c en -> 0 <= age ->
    ClearOlderThan d c age = Ok c' ->
    exists p, c' = skipn p c /\
      (p <= lower_bound (fst en - age) c)%nat /\
      (fst (en) - otime (GetFirst c) < age -> p = 0%nat) /\
      (fst (en) - otime (GetFirst c) >= age ->
         (S p >= lower_bound (fst en - age) c)%nat \/ (d (length c) = DecBegin /\ p = 0%nat)).
  Proof.
    intros d c age c' en Hs Hn Hage H. unfold ClearOlderThan in H.
    assert (c <> []) as Hne by (destruct Hn as [Hin _]; destruct c; [destruct Hin|congruence]).
    destruct (GetLast_newest c Hs Hne) as [el [Hl Hln]].
    assert (fst el = fst en) as Hel.
    { destruct Hn as [H1 H2], Hln as [H3 H4]. specialize (H2 _ H3). specialize (H4 _ H1). lia. }
    rewrite Hl in H. destruct el as [kl xl]. cbn [otime] in H. cbn in Hel. subst kl.
    destruct (_ <? age) eqn:E.
    - injection H as <-. exists 0%nat. cbn. repeat split; try lia.
    - destruct (GetIteratorClosest d c (fst en - age)) as [p| |] eqn:Ep; cbn [bind] in H; try discriminate.
      pose proof (GetIteratorClosest_pos d c _ p Hs Hne Ep) as Hp.
      unfold it_deref in H.
      destruct (nth_error c p) as [e|] eqn:He; cbn [bind] in H; try discriminate.
      destruct (nth_error c (pos_begin c)) as [b|] eqn:Hbeg; cbn [bind] in H; try discriminate.
      destruct (fst b <? fst e) eqn:Eb.
      + injection H as <-. exists p. repeat split; try lia.
        intros _. destruct Hp as [Hp|[Hp|[Hp Hd]]]; [left; lia|left; lia|right; auto].
      + injection H as <-. exists 0%nat. repeat split; try lia.
        intros _. unfold pos_begin in Hbeg.
        pose proof (sorted_nth_le _ _ _ _ _ Hs He Hbeg) as Hq.
        destruct Hp as [Hp|[Hp|[Hp Hd]]]; [left; lia|left; lia|right; auto].
  Qed.

  Lemma ClearOlderThan_spec : forall d c age c' en,
    time_sorted c -> newest c en -> 0 <= age ->
    (d (length c) = DecBegin -> (length c <= 2)%nat) ->
    ClearOlderThan d c age = Ok c' ->
    newest c' en /\
    (forall e, In e c' -> In e c) /\
    (forall e, In e c -> ~ In e c' -> fst e < fst en - age) /\
    (forall e e', In e c' -> In e' c' ->
        fst e < fst en - age -> fst e' < fst en - age -> e = e') /\
    (forall e e', In e c' -> In e' c -> fst e <= fst e' -> In e' c') /\
    ((forall e, In e c -> fst en - fst e < age) -> c' = c).
  Proof.
    intros d c age c' en Hs Hn Hage Hd H.
    assert (c <> []) as Hne by (destruct Hn as [Hin _]; destruct c; [destruct Hin|congruence]).
    destruct (ClearOlderThan_cases d c age c' en Hs Hn Hage H)
      as (p & -> & Hp1 & Hp2 & Hp3).
    pose proof Hn as [Hnin Hnmax].
    apply In_nth_error in Hnin as [jn Hjn].
    pose proof (lower_bound_spec c (fst en - age) _ _ Hs Hjn) as Hlbn.
    assert (In en (skipn p c)) as Hkeep.
    { apply skipn_In_nth. exists jn. split; [lia|exact Hjn]. }
    assert (Hsub: forall e, In e (skipn p c) -> In e c).
    { intros e He. apply skipn_In_nth in He as [j [_ Hj]]. eapply nth_error_In; eauto. }
    destruct (GetFirst_oldest c Hs Hne) as [eo [Heo Hold]].
    repeat split.
    - exact Hkeep.
    - intros e' He'. apply Hnmax. auto.
    - exact Hsub.
    - intros e He Hnot. destruct (firstn_skipn_removed _ _ _ He Hnot) as [j [Hj1 Hj2]].
      apply (lower_bound_spec c _ _ _ Hs Hj2). lia.
    - intros e e' He He' Hlt Hlt'.
      apply skipn_In_nth in He as [j [Hj1 Hj2]].
      apply skipn_In_nth in He' as [j' [Hj1' Hj2']].
      pose proof (lower_bound_spec c (fst en - age) _ _ Hs Hj2) as Hb1.
      pose proof (lower_bound_spec c (fst en - age) _ _ Hs Hj2') as Hb2.
      assert (j = j') as ->; [|congruence].
      destruct (Z_lt_ge_dec (fst en - otime (GetFirst c)) age) as [Hlt0|Hge].
      + (* nothing is older than the cutoff *)
        rewrite Heo in Hlt0. destruct eo as [ko xo]. cbn in Hlt0.
        destruct Hold as [_ Hold].
        pose proof (Hold e (nth_error_In _ _ Hj2)) as Ho. cbn in Ho. lia.
      + destruct (Hp3 Hge) as [Hp|[Hdb ->]]; [lia|].
        specialize (Hd Hdb).
        pose proof (nth_error_some_lt _ _ _ Hjn).
        pose proof (nth_error_some_lt _ _ _ Hj2).
        pose proof (nth_error_some_lt _ _ _ Hj2'). lia.
    - intros e e' He He' Hle. apply skipn_In_nth in He as [j [Hj1 Hj2]].
      apply In_nth_error in He' as [j' Hj'].
      apply skipn_In_nth. exists j'. split; [|exact Hj'].
      pose proof (sorted_nth_le _ _ _ _ _ Hs Hj2 Hj'). lia.
    - intros Hall. rewrite Hp2; [reflexivity|].
      rewrite Heo. destruct eo as [ko xo]. cbn. destruct Hold as [Hin _].
      specialize (Hall _ Hin). cbn in Hall. lia.
  Qed.

  Lemma ClearOlderThan_defined : forall d c age,
    time_sorted c -> d (length c) <> DecUB -> (c <> [] \/ 0 < age) ->
    exists c', ClearOlderThan d c age = Ok c'.
  Proof.
    intros d c age Hs Hd Hne. unfold ClearOlderThan.
    destruct (_ <? age) eqn:E; [eauto|].
    destruct c as [|e0 r] eqn:Ec.
    { destruct Hne as [|Hage]; [congruence|]. cbn in E. lia. }
    rewrite <- Ec in *. assert (c <> []) as Hne' by (rewrite Ec; congruence).
    assert (exists p, GetIteratorClosest d c (otime (GetLast c) - age) = Ok p) as [p Hp].
    { apply GetIteratorClosest_defined; auto. }
    rewrite Hp. cbn [bind].
    pose proof (GetIteratorClosest_pos d c _ p Hs Hne' Hp) as Hpos.
    pose proof (lower_bound_le c (otime (GetLast c) - age)) as Hl.
    assert (it_deref c (pos_begin c) = Ok e0) as -> by (rewrite Ec; reflexivity).
    unfold it_deref.
    destruct (nth_error c p) as [e|] eqn:Hn; cbn [bind]; [destruct (fst e0 <? fst e); eauto|].
    (* p at end: only possible for a negative age *)
    exfalso. apply nth_error_None in Hn.
    assert (0 < length c)%nat by (rewrite Ec; cbn; lia).
    assert (p = length c) as -> by lia.
    clear -Hs Hp Hne'.
    destruct (occupied_dec c (otime (GetLast c) - age)) as [Ho|Hfree].
    - rewrite (GetIteratorClosest_exact d c _ Ho) in Hp. injection Hp as Hp.
      apply occupied_find in Ho. lia.
    - apply free_find in Hfree.
      set (t := otime (GetLast c) - age) in *. clearbody t.
      pose proof (bounds_free c t Hs Hfree) as Hb.
      pose proof (lower_bound_le c t) as Hl.
      unfold GetIteratorClosest, pos_end in Hp. rewrite Hfree, Nat.eqb_refl in Hp.
      cbn [negb] in Hp.
      unfold GetIteratorClosestBefore, GetIteratorClosestAfter,
        GetIteratorBeforeBegin, pos_begin in Hp.
      assert (0 < length c)%nat by (destruct c; [congruence|cbn; lia]).
      destruct (lower_bound t c) as [|i] eqn:Elb; cbn [it_dec bind] in Hp.
      + destruct (match d (length c) with
                  | DecUB => UB | DecEnd => Ok (pos_end c) | DecBegin => Ok (pos_begin c) end)
          as [q| |]; cbn [bind] in Hp; try discriminate.
        rewrite Nat.eqb_refl in Hp. injection Hp as Hp. lia.
      + destruct (match d (length c) with
                  | DecUB => UB | DecEnd => Ok (pos_end c) | DecBegin => Ok (pos_begin c) end)
          as [q| |]; cbn [bind] in Hp; try discriminate.
        destruct (i =? q)%nat; [injection Hp as Hp; lia|].
        destruct (i =? length c)%nat eqn:E1; [lia|].
        destruct (upper_bound t c =? length c)%nat eqn:E2; [injection Hp as Hp; lia|].
        destruct (it_deref c (upper_bound t c)); cbn [bind] in Hp; try discriminate.
        destruct (it_deref c i); cbn [bind] in Hp; try discriminate.
        destruct (_ <? _); injection Hp as Hp; lia.
  Qed.

  (** *** Histories *)

  Lemma run_op_sorted : forall d c o c',
    time_sorted c -> run_op d c o = Ok c' -> time_sorted c'.
  Proof.
    intros d c o c' Hs H. destruct o as [t a|t t'|age|]; cbn [run_op] in H.
    - injection H as <-. apply Insert_sorted; exact Hs.
    - injection H as <-. apply UpdateTime_sorted; exact Hs.
    - eapply ClearOlderThan_sorted; eauto.
    - injection H as <-. apply sorted_nil.
  Qed.

  Lemma run_ops_sorted : forall l c c',
    time_sorted c -> run_ops c l = Ok c' -> time_sorted c'.
  Proof.
    induction l as [|[d o] r IH]; intros c c' Hs H; cbn [run_ops] in H.
    - injection H as <-. exact Hs.
    - destruct (run_op d c o) as [c1| |] eqn:E; cbn [bind] in H; try discriminate.
      eapply IH; [|exact H]. eapply run_op_sorted; eauto.
  Qed.

  Lemma run_ops_from_empty_sorted : forall l c',
    run_ops [] l = Ok c' -> time_sorted c'.
  Proof. intros l c' H. eapply run_ops_sorted; [apply sorted_nil|exact H]. Qed.
End Proofs.
