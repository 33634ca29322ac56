(** C01-C06: the time-sorted buffer. *)

From Coq Require Import ZArith List Sorting.Sorted Lia.
From Verif Require Import Outcome SortedContainer SortedContainerSpec SortedContainerProofs.
Import ListNotations.
Open Scope Z_scope.

(** Sample data used by the non-vacuity examples. *)
Definition ex_buf : cont nat := [(10, 1%nat); (20, 2%nat); (35, 3%nat)].

Example ex_buf_sorted : time_sorted ex_buf.
Proof. repeat constructor. Qed.

Definition ex_dec : nat -> dec_begin :=
  fun n => match n with 0%nat => DecUB | 1%nat => DecBegin | 2%nat => DecBegin | _ => DecEnd end.

Example ex_dec_libstdcxx : libstdcxx ex_dec.
Proof.
  unfold libstdcxx, ex_dec. repeat split; try discriminate.
  intros [|[|[|n]]] H; try lia; reflexivity.
Qed.

(** ** C01 *)

Theorem C01_sorted_unique : forall (A : Type) (l : list ((nat -> dec_begin) * op A)) c,
  run_ops [] l = Ok c ->
  time_sorted c /\ forall t a b, In (t, a) c -> In (t, b) c -> a = b.
Proof. exact (fun A l c H => conj (run_ops_from_empty_sorted l c H)
         (fun t a b => sorted_unique c t a b (run_ops_from_empty_sorted l c H))). Qed.
Print Assumptions C01_sorted_unique.

Example C01_sorted_unique_ex : exists c,
  run_ops [] [(ex_dec, OpInsert 20 2%nat); (ex_dec, OpInsert 10 1%nat);
              (ex_dec, OpInsert 20 7%nat); (ex_dec, OpInsert 50 3%nat);
              (ex_dec, OpUpdateTime 50 30); (ex_dec, OpClearOlderThan 12)] = Ok c
  /\ c = [(20, 2%nat); (30, 3%nat)].
Proof. eexists. split; vm_compute; reflexivity. Qed.

Theorem C01_insert_free : forall (A : Type) (c : cont A) t a,
  time_sorted c -> ~ occupied c t ->
  (forall e, In e (fst (Insert c t a)) <-> e = (t, a) \/ In e c) /\
  nth_error (fst (Insert c t a)) (snd (Insert c t a)) = Some (t, a).
Proof. exact @Insert_free. Qed.
Print Assumptions C01_insert_free.

Example C01_insert_free_ex : ~ occupied ex_buf 25 /\
  Insert ex_buf 25 9%nat = ([(10, 1%nat); (20, 2%nat); (25, 9%nat); (35, 3%nat)], 2%nat).
Proof.
  split; [|vm_compute; reflexivity].
  intros [a H]. cbn in H. intuition congruence.
Qed.

Theorem C01_insert_occupied : forall (A : Type) (c : cont A) t a b,
  time_sorted c -> In (t, b) c ->
  fst (Insert c t a) = c /\
  nth_error (fst (Insert c t a)) (snd (Insert c t a)) = Some (t, b).
Proof. exact @Insert_occupied. Qed.
Print Assumptions C01_insert_occupied.

Example C01_insert_occupied_ex :
  In (20, 2%nat) ex_buf /\ Insert ex_buf 20 9%nat = (ex_buf, 1%nat).
Proof. split; vm_compute; auto. Qed.

(** The listing for debugging: every stored time once, in increasing order. *)
Theorem C01_echo : forall (A : Type) (l : list ((nat -> dec_begin) * op A)) c, run_ops [] l = Ok c ->
  StronglySorted Z.lt (EchoBufferContentTimes c) /\
  forall t, In t (EchoBufferContentTimes c) <-> occupied c t.
Proof.
  intros A l c H. apply run_ops_from_empty_sorted in H. split.
  - unfold EchoBufferContentTimes. induction H as [|e c Hc IH He]; [constructor|]. cbn. constructor; [exact IH|].
    rewrite Forall_map. exact He.
  - intros t. unfold EchoBufferContentTimes. rewrite in_map_iff. split.
    + intros ([t' a] & E & Hi). cbn in E. subst t'. exists a. exact Hi.
    + intros [a Hi]. exists (t, a). auto.
Qed.
Print Assumptions C01_echo.

Example C01_echo_ex : EchoBufferContentTimes ex_buf = [10; 20; 35].
Proof. reflexivity. Qed.

(** ** C02 *)

(** In full: *)
Definition C02_full (d : nat -> dec_begin) : Prop := forall (A : Type) (c : cont A) t,
  time_sorted c -> c <> [] ->
  (exists e, GetClosest c t = Some e /\ nearest c t e) /\
  (exists p e, GetIteratorClosest d c t = Ok p /\ nth_error c p = Some e /\ nearest c t e).
(** Missing: an object stored under the time that marks invalid objects. *)
Theorem C02_closest_value_partial : forall (A : Type) (c : cont A) t,
  time_sorted c -> c <> [] -> ~ occupied c INVALID_TIME ->
  exists e, GetClosest c t = Some e /\ nearest c t e.
Proof. exact @GetClosest_nearest. Qed.
Print Assumptions C02_closest_value_partial.

Example C02_closest_value_ex : ~ occupied ex_buf INVALID_TIME /\
  GetClosest ex_buf 15 = Some (10, 1%nat) /\ GetClosest ex_buf 28 = Some (35, 3%nat)
  /\ GetClosest ex_buf 3 = Some (10, 1%nat) /\ GetClosest ex_buf 99 = Some (35, 3%nat).
Proof.
  split; [|repeat split; vm_compute; reflexivity].
  intros [a H]. cbn in H. unfold INVALID_TIME, second in H. intuition congruence.
Qed.

(** The value query is wrong if a real object carries the sentinel time. *)
Theorem C02_closest_value_sentinel_refuted :
  exists (c : cont nat) t e,
    time_sorted c /\ c <> [] /\ GetClosest c t = Some e /\ ~ nearest c t e.
Proof.
  exists [(INVALID_TIME, 1%nat); (5 * second, 2%nat)], 0, (5 * second, 2%nat).
  repeat split; [repeat constructor|discriminate|].
  intros [_ H]. specialize (H (INVALID_TIME, 1%nat) (or_introl eq_refl)).
  unfold INVALID_TIME, second in H. cbn in H. lia.
Qed.
Print Assumptions C02_closest_value_sentinel_refuted.

(** The iterator query, with libstdc++, for every size but two. *)
(** Missing: buffers of two objects (and iterators that fail before the first object). *)
Theorem C02_closest_iterator_partial : forall (A : Type) d (c : cont A) t,
  libstdcxx d -> time_sorted c -> c <> [] -> length c <> 2%nat ->
  exists p e, GetIteratorClosest d c t = Ok p /\ nth_error c p = Some e /\ nearest c t e.
Proof.
  intros A d c t (H0 & H1 & H2 & H3) Hs Hne Hlen.
  apply GetIteratorClosest_nearest; [exact Hs|exact Hne|].
  destruct c as [|e0 [|e1 [|e2 r]]]; [congruence| |cbn in Hlen; congruence|].
  - right. auto.
  - left. apply H3. cbn. lia.
Qed.
Print Assumptions C02_closest_iterator_partial.

Example C02_closest_iterator_ex :
  length ex_buf <> 2%nat /\ GetIteratorClosest ex_dec ex_buf 28 = Ok 2%nat
  /\ GetIteratorClosest ex_dec ex_buf 15 = Ok 0%nat /\ GetIteratorClosest ex_dec ex_buf 3 = Ok 0%nat.
Proof. repeat split; vm_compute; congruence. Qed.

(** With two elements the before-begin position may coincide with [begin()], and
    the query answers [begin()] although the other element is nearer. *)
Theorem C02_closest_iterator_two_refuted :
  exists d (c : cont nat) t p e,
    libstdcxx d /\ time_sorted c /\
    GetIteratorClosest d c t = Ok p /\ nth_error c p = Some e /\ ~ nearest c t e.
Proof.
  exists ex_dec, [(10, 1%nat); (20, 2%nat)], 19, 0%nat, (10, 1%nat).
  repeat split; try discriminate; try apply ex_dec_libstdcxx; try repeat constructor.
  intros [_ H]. specialize (H (20, 2%nat) (or_intror (or_introl eq_refl))). cbn in H. lia.
Qed.
Print Assumptions C02_closest_iterator_two_refuted.

(** Missing: as for the two queries. *)
Theorem C02_queries_agree_partial : forall (A : Type) d (c : cont A) t,
  libstdcxx d -> time_sorted c -> c <> [] -> length c <> 2%nat ->
  ~ occupied c INVALID_TIME ->
  exists p, GetIteratorClosest d c t = Ok p /\ nth_error c p = GetClosest c t.
Proof.
  intros A d c t Hd Hs Hne Hlen Hinv.
  destruct (C02_closest_iterator_partial A d c t Hd Hs Hne Hlen) as (p & e & Hp & He & Hn).
  destruct (C02_closest_value_partial A c t Hs Hne Hinv) as (e' & He' & Hn').
  exists p. split; [exact Hp|]. rewrite He, He'. f_equal.
  exact (nearest_unique c t e e' Hs Hn Hn').
Qed.
Print Assumptions C02_queries_agree_partial.

Theorem C02_nearest_unique : forall (A : Type) (c : cont A) t e e',
  time_sorted c -> nearest c t e -> nearest c t e' -> e = e'.
Proof. exact @nearest_unique. Qed.
Print Assumptions C02_nearest_unique.

(** ** C03 *)

Theorem C03_after : forall (A : Type) (c : cont A) t,
  time_sorted c ->
  (forall e, GetClosestAfter c t = Some e -> earliest_after c t e) /\
  (GetClosestAfter c t = None <-> forall e, In e c -> fst e <= t).
Proof. exact (fun A c t Hs => conj (fun e => GetClosestAfter_some c t e Hs)
                                   (GetClosestAfter_none c t Hs)). Qed.
Print Assumptions C03_after.

Example C03_after_ex : GetClosestAfter ex_buf 20 = Some (35, 3%nat)
  /\ GetClosestAfter ex_buf 35 = None.
Proof. split; vm_compute; reflexivity. Qed.

(** In full, for the query before a time: *)
Definition C03_before_full : Prop := forall (A : Type) (c : cont A) t, time_sorted c ->
  (forall e, GetClosestBefore c t = Some e -> latest_before c t e) /\
  (GetClosestBefore c t = None <-> forall e, In e c -> t <= fst e).
(** Missing: what is returned when nothing is older; see below. *)
Theorem C03_before_partial : forall (A : Type) (c : cont A) t,
  time_sorted c -> (exists e, In e c /\ fst e < t) ->
  exists e, GetClosestBefore c t = Some e /\ latest_before c t e.
Proof. exact @GetClosestBefore_spec. Qed.
Print Assumptions C03_before_partial.

Example C03_before_ex : (exists e, In e ex_buf /\ fst e < 20) /\
  GetClosestBefore ex_buf 20 = Some (10, 1%nat).
Proof. split; [exists (10, 1%nat); split; [cbn; auto|cbn; lia]|vm_compute; reflexivity]. Qed.

(** When nothing is older the code returns the first object, which is on the
    wrong side: the caller cannot tell. *)
Theorem C03_before_none_older : forall (A : Type) (c : cont A) t,
  time_sorted c -> (forall e, In e c -> t <= fst e) -> GetClosestBefore c t = GetFirst c.
Proof. exact @GetClosestBefore_none_older. Qed.
Print Assumptions C03_before_none_older.

Theorem C03_before_refuted : exists (c : cont nat) t e,
  time_sorted c /\ GetClosestBefore c t = Some e /\ ~ fst e < t.
Proof. exists ex_buf, 5, (10, 1%nat). repeat split; [apply ex_buf_sorted|cbn; lia]. Qed.
Print Assumptions C03_before_refuted.

Theorem C03_first_last_at : forall (A : Type) (c : cont A),
  time_sorted c ->
  (c <> [] -> (exists e, GetFirst c = Some e /\ oldest c e) /\
              (exists e, GetLast c = Some e /\ newest c e)) /\
  (forall t e, GetValueAt c t = Some e <-> In e c /\ fst e = t).
Proof. exact (fun A c Hs => conj (fun Hne => conj (GetFirst_oldest c Hs Hne) (GetLast_newest c Hs Hne))
                                 (fun t e => GetValueAt_spec c t e Hs)). Qed.
Print Assumptions C03_first_last_at.

(** ** C04 *)

Theorem C04_clear_older_than : forall (A : Type) d (c : cont A) age c' en,
  time_sorted c -> newest c en -> 0 <= age ->
  (d (length c) = DecBegin -> (length c <= 2)%nat) ->
  ClearOlderThan d c age = Ok c' ->
  newest c' en /\
  (forall e, In e c' -> In e c) /\
  (forall e, In e c -> ~ In e c' -> fst e < fst en - age) /\
  (forall e e', In e c' -> In e' c' ->
      fst e < fst en - age -> fst e' < fst en - age -> e = e') /\
  (forall e e', In e c' -> In e' c -> fst e <= fst e' -> In e' c') /\
  ((forall e, In e c -> fst en - fst e < age) -> c' = c).
Proof. exact @ClearOlderThan_spec. Qed.
Print Assumptions C04_clear_older_than.

Theorem C04_clear_defined : forall (A : Type) d (c : cont A) age,
  time_sorted c -> d (length c) <> DecUB -> (c <> [] \/ 0 < age) ->
  exists c', ClearOlderThan d c age = Ok c'.
Proof. exact @ClearOlderThan_defined. Qed.
Print Assumptions C04_clear_defined.

Example C04_ex : newest ex_buf (35, 3%nat) /\
  ClearOlderThan ex_dec ex_buf 20 = Ok [(10, 1%nat); (20, 2%nat); (35, 3%nat)] /\
  ClearOlderThan ex_dec ex_buf 12 = Ok [(20, 2%nat); (35, 3%nat)].
Proof.
  split; [|split; vm_compute; reflexivity].
  split; [cbn; auto|]. intros e' H. cbn in H. destruct H as [<-|[<-|[<-|[]]]]; cbn; lia.
Qed.

(** ** C05 *)

Theorem C05_move : forall (A : Type) (c : cont A) t t' a,
  time_sorted c -> In (t, a) c -> (t' = t \/ ~ occupied c t') ->
  (forall e, In e (fst (UpdateTime c t t')) <-> e = (t', a) \/ (In e c /\ fst e <> t)) /\
  snd (UpdateTime c t t') = Some (t', a).
Proof. exact @UpdateTime_moves. Qed.
Print Assumptions C05_move.

Theorem C05_missing : forall (A : Type) (c : cont A) t t',
  ~ occupied c t -> UpdateTime c t t' = (c, GetClosest c t).
Proof. exact @UpdateTime_missing. Qed.
Print Assumptions C05_missing.

Theorem C05_collision : forall (A : Type) (c : cont A) t t' a b,
  time_sorted c -> In (t, a) c -> t' <> t -> In (t', b) c ->
  (forall e, In e (fst (UpdateTime c t t')) <-> In e c /\ fst e <> t) /\
  snd (UpdateTime c t t') = Some (t', b).
Proof. exact @UpdateTime_collides. Qed.
Print Assumptions C05_collision.

Example C05_ex :
  UpdateTime ex_buf 20 50 = ([(10, 1%nat); (35, 3%nat); (50, 2%nat)], Some (50, 2%nat)) /\
  UpdateTime ex_buf 20 35 = ([(10, 1%nat); (35, 3%nat)], Some (35, 3%nat)) /\
  UpdateTime ex_buf 21 50 = (ex_buf, Some (20, 2%nat)).
Proof. repeat split; vm_compute; reflexivity. Qed.

(** ** C06 *)

(** Exactly when the closest-iterator query is defined. *)
(** In full: *)
Definition C06_full (d : nat -> dec_begin) : Prop := forall (A : Type) (c : cont A) t,
  time_sorted c -> exists p, GetIteratorClosest d c t = Ok p.
Theorem C06_closest_iterator_defined : forall (A : Type) d (c : cont A) t,
  time_sorted c ->
  ((exists p, GetIteratorClosest d c t = Ok p) <-> (occupied c t \/ d (length c) <> DecUB)).
Proof. exact @GetIteratorClosest_defined. Qed.
Print Assumptions C06_closest_iterator_defined.

(** Under the C++ standard every inexact query is undefined. *)
Theorem C06_strict_refuted : exists (c : cont nat) t,
  time_sorted c /\ c <> [] /\ GetIteratorClosest strict_cxx c t = UB.
Proof. exists ex_buf, 15. repeat split; [apply ex_buf_sorted|discriminate]. Qed.
Print Assumptions C06_strict_refuted.

(** With libstdc++ the only undefined query is on an empty buffer. *)
Theorem C06_libstdcxx_defined_partial : forall (A : Type) d (c : cont A) t,
  libstdcxx d -> time_sorted c ->
  ((exists p, GetIteratorClosest d c t = Ok p) <-> c <> []).
Proof.
  intros A d c t (H0 & H1 & H2 & H3) Hs.
  rewrite (GetIteratorClosest_defined d c t Hs).
  destruct c as [|e0 [|e1 [|e2 r]]]; cbn [length].
  - split; [|congruence]. intros [[a []]|Hd]; congruence.
  - rewrite H1. split; [discriminate|]. right. discriminate.
  - split; [discriminate|]. auto.
  - rewrite H3 by lia. split; [discriminate|]. right. discriminate.
Qed.
Print Assumptions C06_libstdcxx_defined_partial.
