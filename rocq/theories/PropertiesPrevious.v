(** C63: the previous measurement of a sensor. *)

From Coq Require Import ZArith List Bool Lia ZifyBool ZifyNat.
From Verif Require Import Outcome SortedContainer SortedContainerSpec SortedContainerProofs
     Previous PreviousProofs.
Import ListNotations.
Open Scope Z_scope.

(** The latest measurement of sensor [id] strictly before [t]. *)
Definition previous_of {A : Type} (sid : A -> Z) (c : list (Z * A)) (t id : Z) (e : Z * A) : Prop :=
  In e c /\ fst e < t /\ sid (snd e) = id /\
  forall e', In e' c -> fst e' < t -> sid (snd e') = id -> fst e' <= fst e.

(** Whatever a call for a buffered time returns is the right measurement, and the
    call is defined with libstdc++. *)
Theorem C63_sound : forall (A : Type) (sid : A -> Z) (d : nat -> dec_begin) (c : list (Z * A)) t id,
  libstdcxx d -> time_sorted c -> occupied c t ->
  exists r, GetPreviousMeasurement sid d c t id = Ok r /\
            forall e, r = Some e -> previous_of sid c t id e.
Proof.
  intros A sid d c t id (H0 & H1 & H2 & H3) Hs [a Ha].
  assert (d (length c) <> DecUB) as Hd.
  { destruct (length c) as [|[|[|n]]] eqn:E; try congruence.
    - destruct c; [destruct Ha|discriminate].
    - rewrite H3 by lia. discriminate. }
  destruct (previous_found sid d c t id a Hs Ha Hd) as (r & Hr & Hspec).
  exists r. split; [exact Hr|]. intros e ->. destruct Hspec as (j & _ & Hj & Hl & Hid & Hmax).
  repeat split; auto. eapply nth_error_In; eauto.
Qed.
Print Assumptions C63_sound.

(** Nothing is missed, except possibly with exactly two measurements buffered. *)
Theorem C63_complete_partial :
  forall (A : Type) (sid : A -> Z) (d : nat -> dec_begin) (c : list (Z * A)) t id,
  libstdcxx d -> time_sorted c -> occupied c t ->
  (length c = 2%nat -> d 2%nat = DecEnd) ->
  exists r, GetPreviousMeasurement sid d c t id = Ok r /\
            forall e, r = Some e <-> previous_of sid c t id e.
Proof.
  intros A sid d c t id (H0 & H1 & H2 & H3) Hs [a Ha] Htwo.
  assert (d (length c) = DecEnd \/ length c = 1%nat /\ d (length c) = DecBegin) as Hd.
  { destruct (length c) as [|[|[|n]]] eqn:E.
    - destruct c; [destruct Ha|discriminate].
    - auto.
    - left. auto.
    - left. apply H3. lia. }
  assert (d (length c) <> DecUB) as Hd' by (destruct Hd as [->|[_ ->]]; discriminate).
  destruct (previous_found sid d c t id a Hs Ha Hd') as (r & Hr & Hspec).
  exists r. split; [exact Hr|]. destruct r as [e|].
  - destruct Hspec as (j & _ & Hj & Hl & Hid & Hmax). pose proof (nth_error_In _ _ Hj) as Hin.
    intros e'. split.
    + intros E. injection E as <-. repeat split; auto.
    + intros (Hin' & Hl' & Hid' & Hmax'). f_equal.
      specialize (Hmax _ Hin' Hl' Hid'). specialize (Hmax' _ Hin Hl Hid).
      destruct e as [k x], e' as [k' x']. cbn in *. assert (k = k') as -> by lia.
      f_equal. eapply sorted_unique; eauto.
  - intros e'. split; [discriminate|]. intros (Hin & Hl & Hid & _). exfalso.
    apply In_nth_error in Hin as [j Hj].
    destruct Hd as [Hd|[Hlen Hd]]; rewrite Hd in Hspec.
    + apply (Hspec j e'); auto. lia.
    + (* one measurement: it is the one asked about *)
      assert (j = 0%nat) as -> by (apply nth_error_some_lt in Hj; lia).
      apply In_nth_error in Ha as [i Hi].
      assert (i = 0%nat) as -> by (apply nth_error_some_lt in Hi; lia).
      rewrite Hj in Hi. injection Hi as ->. cbn in Hl. lia.
Qed.
Print Assumptions C63_complete_partial.

(** With two measurements the first is taken for the position before the first
    whenever it is the root of the tree, i.e. when it was inserted first: the second
    measurement of a filter never finds its predecessor. *)
Theorem C63_two_refuted :
  (forall (A : Type) (sid : A -> Z) (d : nat -> dec_begin) t1 a1 t2 a2 id,
     d 2%nat = DecBegin -> t1 < t2 ->
     GetPreviousMeasurement sid d [(t1, a1); (t2, a2)] t2 id = Ok None) /\
  exists d, libstdcxx d /\
    previous_of (fun x : Z => x) [(1, 7); (2, 7)] 2 7 (1, 7) /\
    GetPreviousMeasurement (fun x => x) d [(1, 7); (2, 7)] 2 7 = Ok None.
Proof.
  split.
  - intros A sid d t1 a1 t2 a2 id Hd Hlt. unfold GetPreviousMeasurement, GetIteratorAtValue, pos_end.
    cbn [find_pos length]. replace (t1 =? t2) with false by lia. rewrite Z.eqb_refl.
    cbn [Nat.eqb]. unfold it_deref. cbn [nth_error bind fst]. rewrite Z.eqb_refl.
    cbn [negb it_dec bind]. unfold GetIteratorBeforeBegin, pos_begin. cbn [it_dec length].
    rewrite Hd. reflexivity.
  - exists (fun n => match n with 0%nat => DecUB | 1%nat | 2%nat => DecBegin | _ => DecEnd end).
    split; [|split].
    + repeat split; try discriminate. intros [|[|[|n]]] H; try lia. reflexivity.
    + repeat split; [left; reflexivity|]. cbn. intros e' [<-|[<-|[]]]; cbn; lia.
    + reflexivity.
Qed.
Print Assumptions C63_two_refuted.

(** A time that is not buffered: the invalid measurement, or undefined behaviour if
    all buffered measurements are older. *)
Theorem C63_absent : forall (A : Type) (sid : A -> Z) (d : nat -> dec_begin) (c : list (Z * A)) t id,
  time_sorted c -> ~ occupied c t ->
  ((exists e, In e c /\ t < fst e) <-> GetPreviousMeasurement sid d c t id = Ok None) /\
  ((forall e, In e c -> fst e < t) <-> GetPreviousMeasurement sid d c t id = UB).
Proof.
  intros A sid d c t id Hs Hf.
  destruct (previous_absent sid d c t id Hs Hf) as [H1 H2].
  assert ((exists e, In e c /\ t < fst e) \/ (forall e, In e c -> fst e < t)) as Hc.
  { clear H1 H2 Hs. induction c as [|[k x] r IH]; [right; intros ? []|].
    destruct (Z_lt_le_dec t k) as [Hlt|Hle]; [left; exists (k, x); split; [left; reflexivity|exact Hlt]|].
    assert (k <> t) as Hne by (intros ->; apply Hf; exists x; left; reflexivity).
    destruct IH as [(e & He & Hlt)|Hall].
    - intros [y Hy]. apply Hf. exists y. right. exact Hy.
    - left. exists e. split; [right; exact He|exact Hlt].
    - right. intros e [<-|He]; [cbn; lia|auto]. }
  split; split; auto.
  - intros H. destruct Hc as [Hc|Hc]; [exact Hc|]. rewrite (H2 Hc) in H. discriminate.
  - intros H. destruct Hc as [Hc|Hc]; [|exact Hc]. rewrite (H1 Hc) in H. discriminate.
Qed.
Print Assumptions C63_absent.

(** By the letter of the C++ standard no call for a buffered time is defined. *)
Theorem C63_standard_refuted : forall (A : Type) (sid : A -> Z) (c : list (Z * A)) t id,
  time_sorted c -> occupied c t -> GetPreviousMeasurement sid strict_cxx c t id = UB.
Proof.
  intros A sid c t id Hs [a Ha]. pose proof (find_pos_nth c t a Hs Ha) as Hn.
  pose proof (nth_error_some_lt _ _ _ Hn) as Hlt.
  unfold GetPreviousMeasurement, GetIteratorAtValue, pos_end.
  replace (find_pos t c =? length c)%nat with false by lia.
  unfold it_deref. rewrite Hn. cbn [bind fst]. rewrite Z.eqb_refl. cbn [negb].
  destruct (find_pos t c); reflexivity.
Qed.
Print Assumptions C63_standard_refuted.

(** Five measurements of two sensors: the last of sensor 1 finds the one two
    places back, the second of sensor 2 finds the first, the first finds none. *)
Definition ex_meas : list (Z * Z) := [(10, 2); (20, 1); (30, 2); (35, 2); (40, 1)].
Definition ex_lib (n : nat) : dec_begin :=
  match n with 0%nat => DecUB | 1%nat | 2%nat => DecBegin | _ => DecEnd end.
Example C63_ex :
  libstdcxx ex_lib /\ time_sorted ex_meas /\ occupied ex_meas 40 /\
  GetPreviousMeasurement (fun x => x) ex_lib ex_meas 40 1 = Ok (Some (20, 1)) /\
  GetPreviousMeasurement (fun x => x) ex_lib ex_meas 30 2 = Ok (Some (10, 2)) /\
  GetPreviousMeasurement (fun x => x) ex_lib ex_meas 20 1 = Ok None /\
  GetPreviousMeasurement (fun x => x) ex_lib ex_meas 10 2 = Ok None /\
  previous_of (fun x : Z => x) ex_meas 40 1 (20, 1).
Proof.
  split; [|split; [|split; [|split; [reflexivity|split; [reflexivity|split; [reflexivity|split; [reflexivity|]]]]]]].
  - repeat split; try discriminate. intros [|[|[|n]]] H; try lia. reflexivity.
  - repeat constructor; cbn; lia.
  - exists 1. cbn. auto 10.
  - repeat split; [cbn; auto|]. cbn. intros e' H.
    repeat (destruct H as [<-|H]; [cbn; lia|]). destruct H.
Qed.
