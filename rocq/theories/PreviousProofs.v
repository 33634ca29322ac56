(** Lemmas for C63: the previous measurement of a sensor. *)

From Coq Require Import ZArith List Bool Lia ZifyBool ZifyNat.
From Verif Require Import Outcome SortedContainer SortedContainerSpec SortedContainerProofs
     CoreBasics CoreSafety Previous.
Import ListNotations.
Open Scope Z_scope.

Section Proofs.
  Context {A : Type}.
  Variable sid : A -> Z.
  Variable d : nat -> dec_begin.
  Implicit Types (c : cont A) (e : Z * A).

  (** The search from position [p] down to [lo]. *)
  Lemma prev_loop_spec : forall c t id i a lo,
    time_sorted c -> nth_error c i = Some (t, a) ->
    (lo = 0%nat /\ d (length c) = DecEnd \/ lo = 1%nat /\ d (length c) = DecBegin) ->
    forall p, (p < i)%nat ->
    let bb := match lo with O => length c | _ => 0%nat end in
    (exists e j, prev_loop sid d c t id bb p = Ok (Some e) /\ (lo <= j <= p)%nat /\
       nth_error c j = Some e /\ sid (snd e) = id /\
       forall j' e', (j < j' <= p)%nat -> nth_error c j' = Some e' -> sid (snd e') <> id) \/
    (prev_loop sid d c t id bb p = Ok None /\
       forall j' e', (lo <= j' <= p)%nat -> nth_error c j' = Some e' -> sid (snd e') <> id).
  Proof.
    intros c t id i a lo Hs Hi Hlo p. pose proof (nth_error_some_lt _ _ _ Hi) as Hlen.
    induction p as [|p IH]; intros Hp bb.
    - destruct Hlo as [[-> Hd]|[-> Hd]]; subst bb.
      + cbn [prev_loop]. replace (0 =? length c)%nat with false by lia.
        destruct (nth_error_lt_some c 0) as [e He]; [lia|].
        unfold it_deref. rewrite He. cbn [bind].
        pose proof (sorted_nth_lt _ _ _ _ _ Hs He Hi ltac:(lia)) as Hlt. cbn in Hlt.
        replace (fst e =? t) with false by lia. cbn [negb andb].
        destruct (sid (snd e) =? id) eqn:E; cbn [negb].
        * left. exists e, 0%nat. repeat split; auto; try lia.
        * right. cbn [it_dec]. rewrite Hd. unfold pos_end. cbn [bind]. rewrite Nat.eqb_refl.
          split; [reflexivity|]. intros j' e' Hj He'. assert (j' = 0%nat) as -> by lia.
          rewrite He in He'. injection He' as <-. lia.
      + right. cbn [prev_loop]. split; [reflexivity|]. intros; lia.
    - assert (prev_loop sid d c t id bb (S p) =
              let* e := it_deref c (S p) in
              if negb (fst e =? t) && negb (sid (snd e) =? id) then prev_loop sid d c t id bb p
              else Ok (Some e)) as Heq.
      { cbn [prev_loop]. replace (S p =? bb)%nat with false; [reflexivity|].
        destruct Hlo as [[-> _]|[-> _]]; subst bb; lia. }
      rewrite Heq. destruct (nth_error_lt_some c (S p)) as [e He]; [lia|].
      unfold it_deref. rewrite He. cbn [bind].
      pose proof (sorted_nth_lt _ _ _ _ _ Hs He Hi Hp) as Hlt. cbn in Hlt.
      replace (fst e =? t) with false by lia. cbn [negb andb].
      destruct (sid (snd e) =? id) eqn:E; cbn [negb].
      + left. exists e, (S p). repeat split; auto; try lia.
      + assert (p < i)%nat as Hp' by lia.
        destruct (IH Hp') as [(e1 & j & H1 & H2 & H3 & H4 & H5)|[H1 H2]].
        * left. exists e1, j. repeat split; auto; try lia.
          intros j' e' Hj He'. destruct (Nat.eq_dec j' (S p)) as [->|].
          -- rewrite He in He'. injection He' as <-. lia.
          -- apply (H5 j'); [lia|exact He'].
        * right. split; [exact H1|]. intros j' e' Hj He'.
          destruct (Nat.eq_dec j' (S p)) as [->|].
          -- rewrite He in He'. injection He' as <-. lia.
          -- apply (H2 j'); [lia|exact He'].
  Qed.

  (** What a call for a buffered time finds: [lo] is 1 if the first buffered
      object counts as the position before the first. *)
  Lemma previous_found : forall c t id a,
    time_sorted c -> In (t, a) c -> d (length c) <> DecUB ->
    let first := match d (length c) with DecBegin => 1%nat | _ => 0%nat end in
    exists r, GetPreviousMeasurement sid d c t id = Ok r /\
    match r with
    | Some e => exists j, (first <= j)%nat /\ nth_error c j = Some e /\
        fst e < t /\ sid (snd e) = id /\
        forall e', In e' c -> fst e' < t -> sid (snd e') = id -> fst e' <= fst e
    | None => forall j e', (first <= j)%nat -> nth_error c j = Some e' ->
        fst e' < t -> sid (snd e') <> id
    end.
  Proof.
    intros c t id a Hs Hin Hd first.
    pose proof (find_pos_nth c t a Hs Hin) as Hn. pose proof (nth_error_some_lt _ _ _ Hn) as Hlt.
    unfold GetPreviousMeasurement. rewrite AtValue_occ by (exists a; exact Hin).
    unfold it_deref at 1. rewrite Hn. cbn [bind fst]. rewrite Z.eqb_refl. cbn [negb].
    assert (forall j e', nth_error c j = Some e' -> fst e' < t -> (j < find_pos t c)%nat) as Hbelow.
    { intros j e' Hj Hl. pose proof (sorted_nth_le _ _ _ _ _ Hs Hn Hj) as H. cbn in H.
      destruct (le_lt_dec (find_pos t c) j) as [Hle|]; [|assumption]. apply H in Hle. lia. }
    destruct (find_pos t c) as [|p] eqn:Ep.
    - exists None. split.
      + cbn [it_dec]. unfold GetIteratorBeforeBegin, pos_begin, it_dec.
        destruct (d (length c)) eqn:Ed; [congruence| |]; cbn [bind].
        * unfold pos_end. destruct c; [destruct Hin|]. cbn [length prev_loop].
          rewrite Nat.eqb_refl. reflexivity.
        * reflexivity.
      + intros j e' _ Hj Hl. specialize (Hbelow _ _ Hj Hl). lia.
    - cbn [it_dec bind].
      assert (exists lo, (lo = 0%nat /\ d (length c) = DecEnd \/ lo = 1%nat /\ d (length c) = DecBegin) /\
                first = lo /\
                GetIteratorBeforeBegin d c = Ok (match lo with O => length c | _ => 0%nat end)) as (lo & Hlo & Hfirst & Hbb).
      { unfold GetIteratorBeforeBegin, pos_begin, it_dec. subst first. destruct (d (length c)) eqn:Ed; [congruence| |].
        - exists 0%nat. auto.
        - exists 1%nat. auto. }
      rewrite Hbb. cbn [bind].
      destruct (prev_loop_spec c t id (S p) a lo Hs Hn Hlo p ltac:(lia))
        as [(e & j & H1 & H2 & H3 & H4 & H5)|[H1 H2]]; rewrite H1; eexists; (split; [reflexivity|]).
      + exists j. split; [lia|]. split; [exact H3|].
        pose proof (sorted_nth_lt _ _ _ _ _ Hs H3 Hn ltac:(lia)) as Hl. cbn in Hl.
        split; [exact Hl|]. split; [exact H4|].
        intros e' He' Hl' Hid. apply In_nth_error in He' as [j' Hj'].
        pose proof (Hbelow _ _ Hj' Hl') as Hb.
        destruct (le_lt_dec j' j) as [Hle|Hgt].
        * pose proof (sorted_nth_le _ _ _ _ _ Hs Hj' H3) as Hq. apply Hq. exact Hle.
        * exfalso. apply (H5 j' e'); [lia|exact Hj'|exact Hid].
      + intros j e' Hj He' Hl. apply (H2 j); [|exact He']. specialize (Hbelow _ _ He' Hl). lia.
  Qed.

  (** A time that is not buffered. *)
  Lemma previous_absent : forall c t id,
    time_sorted c -> ~ occupied c t ->
    ((exists e, In e c /\ t < fst e) -> GetPreviousMeasurement sid d c t id = Ok None) /\
    ((forall e, In e c -> fst e < t) -> GetPreviousMeasurement sid d c t id = UB).
  Proof.
    intros c t id Hs Hf. unfold GetPreviousMeasurement, GetIteratorAtValue, pos_end.
    rewrite (proj1 (free_find c t) Hf), Nat.eqb_refl. split.
    - intros ([k x] & Hin & Hlt). cbn in Hlt. apply In_nth_error in Hin as [j Hj].
      pose proof (lower_bound_spec c t _ _ Hs Hj) as Hb. cbn in Hb.
      pose proof (nth_error_some_lt _ _ _ Hj) as Hjl.
      destruct (nth_error_lt_some c (lower_bound t c)) as [[k' x'] He]; [lia|].
      unfold it_deref. rewrite He. cbn [bind fst].
      destruct (k' =? t) eqn:E; [|reflexivity]. exfalso. apply Hf. exists x'.
      replace t with k' by lia. eapply nth_error_In; eauto.
    - intros Hall.
      assert (lower_bound t c = length c) as ->.
      { clear Hf Hs. induction c as [|[k x] r IH]; [reflexivity|]. cbn.
        replace (k <? t) with true by (specialize (Hall (k, x) (or_introl eq_refl)); cbn in Hall; lia).
        rewrite IH; [reflexivity|]. intros e He. apply Hall. right. exact He. }
      unfold it_deref. replace (nth_error c (length c)) with (@None (Z * A)); [reflexivity|].
      symmetry. apply nth_error_None. lia.
  Qed.
End Proofs.
