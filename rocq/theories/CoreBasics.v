(** Basic lemmas about the core machine: keys, sortedness, frame conditions. *)

From Coq Require Import ZArith List Sorting.Sorted Lia ZifyBool ZifyNat Bool.
From Verif Require Import Outcome SortedContainer SortedContainerSpec SortedContainerProofs Core.
Import ListNotations.
Open Scope Z_scope.

Ltac inv_bind H :=
  match type of H with
  | bind ?r _ = Ok _ =>
      let E := fresh "E" in
      destruct r eqn:E; cbn [bind] in H; try discriminate H
  end.

Section Keys.
  Context {A : Type}.
  Implicit Types (c pre post : cont A) (a : A) (t : Z).

  Definition keys c : list Z := map fst c.

  Lemma sorted_keys : forall c, time_sorted c <-> StronglySorted Z.lt (keys c).
  Proof.
    induction c as [|[k x] r IH]; cbn; split; intros H.
    - constructor.
    - constructor.
    - inversion H as [|? ? Hs Hf]; subst. constructor; [apply IH; exact Hs|].
      apply Forall_forall. intros z Hz. apply in_map_iff in Hz as [[k' x'] [<- Hin]].
      rewrite Forall_forall in Hf. exact (Hf _ Hin).
    - inversion H as [|? ? Hs Hf]; subst. constructor; [apply IH; exact Hs|].
      apply Forall_forall. intros [k' x'] Hin. cbn.
      rewrite Forall_forall in Hf. apply Hf. apply in_map_iff. exists (k', x'). auto.
  Qed.

  Lemma sorted_same_keys : forall {B : Type} c (c' : cont B),
    map fst c' = keys c -> time_sorted c -> time_sorted c'.
  Proof.
    intros B c c' Hk Hs. apply sorted_keys in Hs. rewrite <- Hk in Hs.
    clear -Hs. induction c' as [|[k x] r IH]; [constructor|]. unfold time_sorted in *.
    cbn in Hs. inversion Hs as [|? ? H1 H2]; subst. constructor; [apply IH; exact H1|].
    apply Forall_forall. intros [k' x'] Hin. cbn.
    rewrite Forall_forall in H2. apply H2. apply in_map_iff. exists (k', x'). auto.
  Qed.

  Lemma keys_app : forall c1 c2, keys (c1 ++ c2) = keys c1 ++ keys c2.
  Proof. intros. apply map_app. Qed.

  Lemma keys_length : forall c, length (keys c) = length c.
  Proof. intros. apply map_length. Qed.

  Lemma in_keys_occupied : forall c t, In t (keys c) <-> occupied c t.
  Proof.
    intros c t. unfold keys, occupied. rewrite in_map_iff. split.
    - intros [[k x] [<- Hin]]. exists x. exact Hin.
    - intros [a Ha]. exists (t, a). auto.
  Qed.

  (** Position functions depend on the keys only. *)
  Lemma find_pos_keys : forall {B} c (c' : cont B) t,
    map fst c' = keys c -> find_pos t c' = find_pos t c.
  Proof.
    intros B c. induction c as [|[k x] r IH]; intros [|[k' x'] r'] t H; try discriminate; [reflexivity|].
    cbn in H. injection H as -> H. cbn. rewrite (IH r' t H). reflexivity.
  Qed.

  Lemma lower_bound_keys : forall {B} c (c' : cont B) t,
    map fst c' = keys c -> lower_bound t c' = lower_bound t c.
  Proof.
    intros B c. induction c as [|[k x] r IH]; intros [|[k' x'] r'] t H; try discriminate; [reflexivity|].
    cbn in H. injection H as -> H. cbn. rewrite (IH r' t H). reflexivity.
  Qed.

  Lemma upper_bound_keys : forall {B} c (c' : cont B) t,
    map fst c' = keys c -> upper_bound t c' = upper_bound t c.
  Proof.
    intros B c. induction c as [|[k x] r IH]; intros [|[k' x'] r'] t H; try discriminate; [reflexivity|].
    cbn in H. injection H as -> H. cbn. rewrite (IH r' t H). reflexivity.
  Qed.

  Lemma same_keys_length : forall {B} c (c' : cont B),
    map fst c' = keys c -> length c' = length c.
  Proof. intros B c c' H. rewrite <- (map_length fst c'), H. apply map_length. Qed.

  Lemma AtValue_keys : forall {B} c (c' : cont B) t,
    map fst c' = keys c -> GetIteratorAtValue c' t = GetIteratorAtValue c t.
  Proof.
    intros B c c' t H. unfold GetIteratorAtValue, pos_end.
    rewrite (find_pos_keys c c' t H), (lower_bound_keys c c' t H), (same_keys_length c c' H).
    reflexivity.
  Qed.

  Lemma has_key_true : forall k c, has_key k c = true <-> occupied c k.
  Proof.
    intros k c. unfold has_key. rewrite occupied_find. lia.
  Qed.

  Lemma has_key_keys : forall {B} c (c' : cont B) t,
    map fst c' = keys c -> has_key t c' = has_key t c.
  Proof.
    intros B c c' t H. unfold has_key.
    rewrite (find_pos_keys c c' t H), (same_keys_length c c' H). reflexivity.
  Qed.

  (** Splits. *)
  Lemma split_at_key : forall c t a, In (t, a) c -> exists pre post, c = pre ++ (t, a) :: post.
  Proof. intros c t a H. apply in_split in H. exact H. Qed.

  Lemma nth_error_split_at : forall c p (e : Z * A),
    nth_error c p = Some e -> skipn p c = e :: skipn (S p) c.
  Proof.
    intros c p. revert c. induction p as [|p IH]; intros [|e0 r] e H; try discriminate.
    - cbn in H. injection H as ->. reflexivity.
    - cbn in H. apply IH in H. cbn [skipn] in *. rewrite H. destruct r; reflexivity.
  Qed.

  Lemma sorted_app : forall c1 c2,
    time_sorted (c1 ++ c2) <->
    time_sorted c1 /\ time_sorted c2 /\
    (forall e1 e2, In e1 c1 -> In e2 c2 -> fst e1 < fst e2).
  Proof.
    induction c1 as [|[k x] r IH]; intros c2; cbn.
    - split; [intros H; split; [constructor|split; [exact H|intros ? ? []]]|tauto].
    - split.
      + intros H. apply sorted_cons_inv in H as [Hs Hf].
        apply IH in Hs as (H1 & H2 & H3). repeat split.
        * apply sorted_cons; [exact H1|]. intros k' x' Hin. apply (Hf k' x').
          apply in_or_app. auto.
        * exact H2.
        * intros e1 e2 [<-|Hin] Hin2.
          -- destruct e2 as [k2 x2]. cbn. apply (Hf k2 x2). apply in_or_app. auto.
          -- apply H3; assumption.
      + intros (H1 & H2 & H3). apply sorted_cons_inv in H1 as [Hs Hf].
        apply sorted_cons.
        * apply IH. repeat split; auto.
        * intros k' x' Hin. apply in_app_or in Hin as [Hin|Hin]; [eapply Hf; eauto|].
          apply (H3 (k, x) (k', x')); auto.
  Qed.

  Lemma sorted_mid : forall pre t a post,
    time_sorted (pre ++ (t, a) :: post) ->
    time_sorted pre /\ time_sorted post /\
    (forall e : Z * A, In e pre -> fst e < t) /\ (forall e : Z * A, In e post -> t < fst e).
  Proof.
    intros pre t a post H. apply sorted_app in H as (H1 & H2 & H3).
    apply sorted_cons_inv in H2 as [H2 Hf]. repeat split; try assumption.
    - intros e He. apply (H3 e (t, a)); [exact He|left; reflexivity].
    - intros [k x] He. eapply Hf; eauto.
  Qed.

  Lemma find_pos_mid : forall pre t a post,
    time_sorted (pre ++ (t, a) :: post) -> find_pos t (pre ++ (t, a) :: post) = length pre.
  Proof.
    intros pre t a post Hs. eapply find_pos_at; [exact Hs|].
    rewrite nth_error_app2 by lia. rewrite Nat.sub_diag. reflexivity.
  Qed.

  Lemma AtValue_mid : forall pre t a post,
    time_sorted (pre ++ (t, a) :: post) ->
    GetIteratorAtValue (pre ++ (t, a) :: post) t = length pre.
  Proof.
    intros pre t a post Hs. unfold GetIteratorAtValue, pos_end.
    rewrite find_pos_mid by exact Hs. rewrite app_length. cbn [length].
    replace (length pre =? length pre + S (length post))%nat with false by lia. reflexivity.
  Qed.

  Lemma GetValueAt_mid : forall pre t a post,
    time_sorted (pre ++ (t, a) :: post) ->
    GetValueAt (pre ++ (t, a) :: post) t = Some (t, a).
  Proof.
    intros pre t a post Hs. unfold GetValueAt. rewrite find_pos_mid by exact Hs.
    rewrite nth_error_app2 by lia. rewrite Nat.sub_diag. reflexivity.
  Qed.

  Lemma skipn_mid : forall pre (e : Z * A) post, skipn (length pre) (pre ++ e :: post) = e :: post.
  Proof. intros. rewrite skipn_app, skipn_all, Nat.sub_diag. reflexivity. Qed.

  Lemma firstn_mid : forall pre (e : Z * A) post, firstn (length pre) (pre ++ e :: post) = pre.
  Proof. intros. rewrite firstn_app, firstn_all, Nat.sub_diag. cbn. apply app_nil_r. Qed.

  Lemma GetLast_app : forall c (e : Z * A), GetLast (c ++ [e]) = Some e.
  Proof.
    intros c e. unfold GetLast. destruct (c ++ [e]) as [|e0 r] eqn:E.
    - destruct c; discriminate.
    - rewrite <- E. rewrite app_length. cbn [length].
      rewrite nth_error_app2 by lia.
      replace (pred (length c + 1) - length c)%nat with 0%nat by lia. reflexivity.
  Qed.

  Lemma insert_list_split : forall c t (a : A),
    time_sorted c -> ~ occupied c t ->
    exists pre post, c = pre ++ post /\ insert_list t a c = pre ++ (t, a) :: post /\
      (forall e : Z * A, In e pre -> fst e < t) /\ (forall e : Z * A, In e post -> t < fst e).
  Proof.
    induction c as [|[k x] r IH]; intros t a Hs Hfree.
    - exists [], []. cbn. repeat split; intros ? [].
    - apply sorted_cons_inv in Hs as [Hs Hf]. cbn.
      destruct (k <? t) eqn:E1.
      + destruct (IH t a Hs) as (pre & post & -> & Hi & H1 & H2).
        { intros [y Hy]. apply Hfree. exists y. right. exact Hy. }
        exists ((k, x) :: pre), post. rewrite Hi. repeat split; auto.
        intros e [<-|He]; [cbn; lia|auto].
      + destruct (k =? t) eqn:E2.
        { exfalso. apply Hfree. exists x. left. f_equal. lia. }
        exists [], ((k, x) :: r). repeat split; [intros ? []|].
        intros e [<-|He]; [cbn; lia|]. destruct e as [k' x']. specialize (Hf _ _ He). cbn. lia.
  Qed.
End Keys.

Section Frame.
  Variable O : ops.
  Variable d : nat -> dec_begin.
  Notation st := (st O).
  Notation core := (core O).

  Lemma upd_key_keys : forall k (s : st) c, keys (upd_key O k s c) = keys c.
  Proof.
    intros k s c. induction c as [|[k' s'] r IH]; [reflexivity|].
    cbn. destruct (k' =? k); cbn; [reflexivity|]. f_equal. exact IH.
  Qed.

  Lemma upd_key_sorted : forall k (s : st) c, time_sorted c -> time_sorted (upd_key O k s c).
  Proof. intros k s c. apply sorted_same_keys. apply upd_key_keys. Qed.

  Lemma upd_key_mid : forall pre t (a s : st) post,
    time_sorted (pre ++ (t, a) :: post) ->
    upd_key O t s (pre ++ (t, a) :: post) = pre ++ (t, s) :: post.
  Proof.
    induction pre as [|[k x] r IH]; intros t a s post Hs; cbn.
    - rewrite Z.eqb_refl. reflexivity.
    - cbn in Hs. apply sorted_cons_inv in Hs as [Hs Hf].
      assert (k < t) as Hlt by (apply (Hf t a); apply in_or_app; right; left; reflexivity).
      replace (k =? t) with false by lia. rewrite IH by exact Hs. reflexivity.
  Qed.

  Lemma upd_key_absent : forall k (s : st) c, ~ occupied c k -> upd_key O k s c = c.
  Proof.
    intros k s c. induction c as [|[k' s'] r IH]; intros H; [reflexivity|].
    cbn. destruct (k' =? k) eqn:E.
    - exfalso. apply H. exists s'. left. f_equal. lia.
    - rewrite IH; [reflexivity|]. intros [y Hy]. apply H. exists y. right; exact Hy.
  Qed.

  Lemma upd_key_In : forall k (s : st) c e,
    In e (upd_key O k s c) -> In e c \/ e = (k, s).
  Proof.
    intros k s c e. induction c as [|[k' s'] r IH]; cbn; [tauto|].
    destruct (k' =? k) eqn:E; cbn.
    - intros [H|H]; [right|auto]. subst e. f_equal. lia.
    - intros [H|H]; [auto|]. destruct (IH H); auto.
  Qed.

  Lemma propP_loop_keys : forall rest told sold tt tP,
    keys (fst (propP_loop O told sold rest tt tP)) = keys rest.
  Proof.
    induction rest as [|[t s] r IH]; intros told sold tt tP; cbn; [reflexivity|].
    destruct (t <=? tt); [|reflexivity].
    destruct (pred_cov O told sold t s tP) as [s' tP'] eqn:E.
    specialize (IH t s' tt tP').
    destruct (propP_loop O t s' r tt tP') as [r' tP''] eqn:E2. cbn in *.
    f_equal. exact IH.
  Qed.

  Lemma propP_split : forall c told sold tt tP p,
    skipn p c = (told, sold) :: tl (skipn p c) ->
    keys (firstn p c ++ (told, sold) :: fst (propP_loop O told sold (tl (skipn p c)) tt tP)) = keys c.
  Proof.
    intros c told sold tt tP p H. rewrite keys_app. cbn [keys map fst].
    fold (keys (fst (propP_loop O told sold (tl (skipn p c)) tt tP))).
    rewrite propP_loop_keys.
    rewrite <- (firstn_skipn p c) at 3. rewrite keys_app. rewrite H at 2. reflexivity.
  Qed.

  Lemma reprop_keys : forall rest i pe told sold rest',
    reprop O i pe told sold rest = Ok rest' -> keys rest' = keys rest.
  Proof.
    induction rest as [|[t s] r IH]; intros i pe told sold rest' H; cbn [reprop] in H.
    - destruct (_ || _); [injection H as <-; reflexivity|].
      destruct (told =? INVALID_TIME); [injection H as <-; reflexivity|discriminate].
    - destruct (_ || _); [injection H as <-; reflexivity|].
      destruct (told =? INVALID_TIME); [injection H as <-; reflexivity|].
      destruct (t =? INVALID_TIME); [injection H as <-; reflexivity|].
      inv_bind H. injection H as <-. cbn. f_equal. exact (IH _ _ _ _ _ E).
  Qed.

  (** What PropPToState changes. *)
  Lemma PropPToState_frame : forall c tt c',
    PropPToState O c tt = Ok c' ->
    c' = set_time_P O (set_states O c (states c')) (time_P c') /\
    keys (states c') = keys (states c).
  Proof.
    intros c tt c' H. unfold PropPToState in H. inv_bind H.
    destruct (skipn _ (states c)) as [|[told sold] rest] eqn:Es; [discriminate|].
    destruct (propP_loop O told sold rest tt (time_P c)) as [rest' tP] eqn:El.
    injection H as <-. split; [reflexivity|]. cbn.
    pose proof (propP_split (states c) told sold tt (time_P c)
                  (GetIteratorAtValue (states c) (time_P c))) as Hk.
    rewrite Es in Hk. cbn [tl] in Hk. rewrite El in Hk. cbn in Hk. auto.
  Qed.

  Lemma PropagatePOneStep_frame : forall c c',
    PropagatePOneStep O c = Ok c' ->
    (exists i p, c' = set_flags O (set_time_P O (set_states O c (states c')) (time_P c')) i p /\
       ((i = initialized c /\ p = predictionMade c) \/ (i = false /\ p = false))) /\
    keys (states c') = keys (states c).
  Proof.
    intros c c' H. unfold PropagatePOneStep in H. inv_bind H.
    destruct (_ =? pos_end (states c))%nat.
    - injection H as <-. split; [|reflexivity].
      exists (initialized c), (predictionMade c). split; [destruct c; reflexivity|auto].
    - inv_bind H. inv_bind H.
      destruct (pred_cov O _ _ _ _ _) as [sn tP].
      destruct (numeric_p O (s_val sn)); injection H as <-; cbn; (split; [|apply upd_key_keys]).
      + exists (initialized c), (predictionMade c). auto.
      + exists false, false. auto.
  Qed.

  Lemma CleanUpBuffers_frame : forall c c',
    CleanUpBuffers O d c = Ok c' ->
    ClearOlderThan d (states c) buffer_age = Ok (states c') /\
    ClearOlderThan d (meas c) buffer_age = Ok (meas c') /\
    c' = set_it O (set_meas O (set_states O c (states c')) (meas c'))
                (it_after_erase O (it_last c) (states c')).
  Proof.
    intros c c' H. unfold CleanUpBuffers in H. inv_bind H. inv_bind H.
    injection H as <-. cbn. repeat split; assumption.
  Qed.

  Lemma interpolate_frame : forall c t tc c1 ts,
    interpolate O c t tc = (c1, ts) ->
    (c1 = c /\ ts = tc) \/
    (ts = t /\ Z.abs (tc - t) > thr_interp /\
     exists tl sl tn sn,
       GetClosestBefore (states c) t = Some (tl, sl) /\
       GetClosestAfter (states c) t = Some (tn, sn) /\
       tl <> INVALID_TIME /\ tn <> INVALID_TIME /\ tl <> tn /\
       numeric O (s_val sl) = true /\ numeric O (s_val sn) = true /\
       c1 = set_time_P O
             (set_states O c
                (insert_list t
                   (prop_val O tl sl t
                      (mkst (lerp_acc O (s_acc sl) (s_acc sn) (tn - tl) (t - tl))
                            (lerp_gyr O (s_gyr sl) (s_gyr sn) (tn - tl) (t - tl))
                            (s_val sl) (cov_zero O))) (states c)))
             (Z.min (time_P c) tl)).
  Proof.
    intros c t tc c1 ts H. unfold interpolate in H.
    destruct (Z.abs (tc - t) >? thr_interp) eqn:E1; [|injection H as <- <-; auto].
    destruct (GetClosestBefore (states c) t) as [[tl sl]|] eqn:Eb;
      [|injection H as <- <-; auto].
    destruct (GetClosestAfter (states c) t) as [[tn sn]|] eqn:Ea;
      [|injection H as <- <-; auto].
    destruct (_ && _) eqn:E2 in H; [|injection H as <- <-; auto].
    apply andb_prop in E2 as [E2 E7]. apply andb_prop in E2 as [E2 E6].
    apply andb_prop in E2 as [E2 E5]. apply andb_prop in E2 as [E3 E4].
    injection H as <- <-. right. repeat split; [lia|].
    exists tl, sl, tn, sn. repeat split; try assumption; try lia.
    cbn [Insert fst].
    destruct (time_P c >? tl) eqn:E8.
    - unfold set_time_P, set_states. cbn. f_equal. lia.
    - unfold set_time_P, set_states. cbn. f_equal. lia.
  Qed.

  (** Everything GetClosestState may change. *)
  Lemma GetClosestState_frame : forall c t c' os,
    GetClosestState O d c t = Ok (c', os) ->
    initialized c' = initialized c /\ predictionMade c' = predictionMade c /\
    queue c' = queue c /\ last_am c' = last_am c /\ last_am_ext c' = last_am_ext c /\
    glob c' = glob c.
  Proof.
    intros c t c' os H. unfold GetClosestState in H. inv_bind H. inv_bind H.
    destruct (_ || _); [injection H as <- <-; repeat split; reflexivity|].
    destruct (interpolate O c t (fst a0)) as [c1 tc] eqn:Ei.
    assert (initialized c1 = initialized c /\ predictionMade c1 = predictionMade c /\
            queue c1 = queue c /\ last_am c1 = last_am c /\ last_am_ext c1 = last_am_ext c /\
            glob c1 = glob c) as H1.
    { apply interpolate_frame in Ei as [[-> _]|(_ & _ & tl & sl & tn & sn & _ & _ & _ & _ & _ & _ & _ & ->)];
        repeat split; reflexivity. }
    inv_bind H. apply PropPToState_frame in E1 as [E1 _]. rename a1 into c2.
    assert (initialized c2 = initialized c /\ predictionMade c2 = predictionMade c /\
            queue c2 = queue c /\ last_am c2 = last_am c /\ last_am_ext c2 = last_am_ext c /\
            glob c2 = glob c) as H2 by (rewrite E1; cbn; exact H1).
    clear E1 H1.
    destruct (GetValueAt (states c2) tc) as [[ks s]|]; [|discriminate].
    destruct (negb _); [injection H as <- <-; exact H2|].
    inv_bind H. injection H as <- <-.
    destruct (janitor c2 >? janitor_limit).
    - inv_bind E1. injection E1 as <-. apply CleanUpBuffers_frame in E2 as (_ & _ & ->).
      cbn. exact H2.
    - injection E1 as <-. cbn. exact H2.
  Qed.
End Frame.

Lemma run_app : forall O d l1 l2 c,
  run O d c (l1 ++ l2) =
  let* (c1, e1) := run O d c l1 in
  let* (c2, e2) := run O d c1 l2 in Ok (c2, e1 ++ e2).
Proof.
  induction l1 as [|k r IH]; intros l2 c; cbn [app run].
  - cbn [bind]. destruct (run O d c l2) as [[c' e']| |]; reflexivity.
  - destruct (step O d c k) as [[c1 e1]| |]; cbn [bind]; try reflexivity.
    rewrite IH. destruct (run O d c1 r) as [[c2 e2]| |]; cbn [bind]; try reflexivity.
    destruct (run O d c2 l2) as [[c3 e3]| |]; cbn [bind]; try reflexivity.
    rewrite app_assoc. reflexivity.
Qed.
