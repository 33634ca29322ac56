(** C75: what the logging macros print. *)

From Coq Require Import ZArith List Bool Lia.
From Verif Require Import Logging.
Import ListNotations.
Open Scope Z_scope.

(** ** Specification *)
(** the use [u] is number [i] of the run *)
Definition at_ (us : list use) (i : nat) (u : use) : Prop := nth_error us i = Some u.
Definition printed (us : list use) (i : nat) : Prop := nth_error (run initial us) i = Some true.
Definition throttled (u : use) : Prop := exists r, what u = Throttle r.
(** [i] is the last throttled use of the place that printed before [j] *)
Definition printed_last (us : list use) (n i j : nat) : Prop :=
  (i < j)%nat /\ (exists u, at_ us i u /\ place u = n /\ throttled u /\ printed us i) /\
  forall k v, (i < k < j)%nat -> at_ us k v -> place v = n -> throttled v -> ~ printed us k.
Definition none_printed (us : list use) (n j : nat) : Prop :=
  forall k v, (k < j)%nat -> at_ us k v -> place v = n -> throttled v -> ~ printed us k.

(** ** The run *)
Lemma run_nth us : forall s i, nth_error (run s us) i =
  option_map (prints (fold_left after (firstn i us) s)) (nth_error us i).
Proof. induction us as [|u us IH]; intros s [|i]; cbn; auto. Qed.
Lemma firstn_last {A} (l : list A) i x : nth_error l i = Some x -> firstn (S i) l = firstn i l ++ [x].
Proof.
  revert i; induction l as [|a l IH]; intros [|i] E; try discriminate E; cbn in *; [congruence|].
  now rewrite <- (IH i E).
Qed.
Lemma run_length us : forall s, length (run s us) = length us.
Proof. induction us as [|u us IH]; intros s; cbn; auto. Qed.

Definition before (us : list use) (i : nat) : statics := fold_left after (firstn i us) initial.
Lemma before_S us i u : at_ us i u -> before us (S i) = after (before us i) u.
Proof. intros E; unfold before; now rewrite (firstn_last us i u E), fold_left_app. Qed.
Lemma printed_iff us i u : at_ us i u -> (printed us i <-> prints (before us i) u = true).
Proof. intros E; unfold printed; rewrite run_nth, E; cbn; fold (before us i); split; congruence. Qed.
Lemma below us i : (i < length us)%nat -> exists u, at_ us i u.
Proof. intros H; destruct (nth_error us i) as [u|] eqn:E; [now exists u|apply nth_error_None in E; lia]. Qed.

Lemma set_at {A} (f : nat -> A) n x m : set f n x m = if Nat.eqb m n then x else f m.
Proof. reflexivity. Qed.

Lemma hit_spec us n : forall i, (i <= length us)%nat ->
  (hit (before us i) n = true <-> exists k u, (k < i)%nat /\ at_ us k u /\ place u = n /\ what u = Once).
Proof.
  induction i as [|i IH]; intros Hi; [split; [discriminate|intros (k & u & H & _); lia]|].
  destruct (below us i Hi) as [u E]; specialize (IH ltac:(lia)); rewrite (before_S us i u E).
  assert (P : (exists k v, (k < S i)%nat /\ at_ us k v /\ place v = n /\ what v = Once) <->
    (exists k v, (k < i)%nat /\ at_ us k v /\ place v = n /\ what v = Once) \/ (place u = n /\ what u = Once)).
  { split.
    - intros (k & v & H & F & rest); destruct (Nat.eq_dec k i) as [->|D]; [|left; exists k, v; split; [lia|auto]].
      unfold at_ in *; rewrite E in F; injection F as <-; now right.
    - intros [(k & v & H & rest)|rest]; [exists k, v; split; [lia|auto]|exists i, u; split; [lia|auto]]. }
  rewrite P, <- IH; unfold after, prints; destruct (what u) as [|r|c] eqn:W.
  - destruct (hit (before us i) (place u)) eqn:H; cbn [negb hit].
    + split; [now left|intros [G|[<- _]]; auto].
    + rewrite set_at; destruct (Nat.eqb_spec n (place u)) as [->|D]; [tauto|].
      split; [now left|intros [G|[<- _]]; [auto|now destruct D]].
  - destruct (_ <=? _); cbn [hit]; (split; [now left|intros [G|[_ D]]; [auto|discriminate D]]).
  - destruct c; (split; [now left|intros [G|[_ D]]; [auto|discriminate D]]).
Qed.

Lemma last_spec us n : forall j, (j <= length us)%nat ->
  (none_printed us n j /\ last_hit (before us j) n = 0) \/
  (exists i u, printed_last us n i j /\ at_ us i u /\ last_hit (before us j) n = count (now u)).
Proof.
  induction j as [|j IH]; intros Hj; [left; split; [intros k v H; lia|reflexivity]|].
  destruct (below us j Hj) as [u E]; specialize (IH ltac:(lia)); rewrite (before_S us j u E).
  assert (same : (~ (place u = n /\ throttled u /\ printed us j)) -> last_hit (after (before us j) u) n = last_hit (before us j) n ->
    (none_printed us n (S j) /\ last_hit (after (before us j) u) n = 0) \/
    (exists i v, printed_last us n i (S j) /\ at_ us i v /\ last_hit (after (before us j) u) n = count (now v))).
  { intros N ->.
    assert (Q : forall v, at_ us j v -> place v = n -> throttled v -> ~ printed us j).
    { intros v F; unfold at_ in *; rewrite E in F; injection F as <-; tauto. }
    destruct IH as [[A B]|(i & v & (L & X & M) & F & B)]; [left|right].
    - split; [|exact B]; intros k w H; destruct (Nat.eq_dec k j) as [->|D]; [apply Q|apply A; lia].
    - exists i, v; split; [|auto]; split; [lia|]; split; [exact X|].
      intros k w H; destruct (Nat.eq_dec k j) as [->|D]; [apply Q|apply M; lia]. }
  destruct (what u) as [|r|c] eqn:W.
  - apply same; [intros (_ & (r & D) & _); congruence|].
    unfold after; rewrite W; destruct (prints _ _); reflexivity.
  - destruct (prints (before us j) u) eqn:P.
    + destruct (Nat.eq_dec n (place u)) as [->|D].
      * right; exists j, u; split; [|split; [exact E|]].
        { split; [lia|]; split; [|intros k v H; lia].
          exists u; split; [exact E|]; split; [reflexivity|]; split; [now exists r|]. now apply (printed_iff us j u E). }
        unfold after; rewrite P, W; cbn; rewrite set_at, Nat.eqb_refl; reflexivity.
      * apply same; [intros (F & _); congruence|]; unfold after; rewrite P, W; cbn; rewrite set_at.
        destruct (Nat.eqb_spec n (place u)); [contradiction|reflexivity].
    + apply same; [intros (_ & _ & F); apply (printed_iff us j u E) in F; congruence|].
      unfold after; rewrite P; reflexivity.
  - apply same; [intros (_ & (r & D) & _); congruence|].
    unfold after; rewrite W; destruct (prints _ _); reflexivity.
Qed.

(** ** Once: of the uses at a place exactly the first prints. *)
Theorem C75_once : forall us i u, at_ us i u -> what u = Once ->
  (printed us i <-> forall k v, (k < i)%nat -> at_ us k v -> what v = Once -> place v <> place u).
Proof.
  intros us i u E W; rewrite (printed_iff us i u E).
  assert (L : (i < length us)%nat) by (apply nth_error_Some; unfold at_ in E; congruence).
  assert (H := hit_spec us (place u) i ltac:(lia)).
  unfold prints; rewrite W, negb_true_iff; split.
  - intros F k v K A O P; assert (T : hit (before us i) (place u) = true) by (apply H; now exists k, v); congruence.
  - intros A; destruct (hit _ _) eqn:F; [|reflexivity].
    destruct (proj1 H eq_refl) as (k & v & K & B & P & O); now destruct (A k v K B O).
Qed.
Print Assumptions C75_once.

(** ** Cond: the condition decides. *)
Theorem C75_cond : forall us i u c, at_ us i u -> what u = Cond c -> (printed us i <-> c = true).
Proof. intros us i u c E W; rewrite (printed_iff us i u E); unfold prints; now rewrite W. Qed.
Print Assumptions C75_cond.

(** ** Throttle *)
(** Whole seconds since the epoch: the last whole second not after the time. *)
Definition whole (t s : Z) : Prop := s * second <= t < (s + 1) * second.
Lemma count_whole t : 0 <= t -> whole t (count t).
Proof.
  intros H; unfold whole, count; rewrite Z.quot_div_nonneg by (unfold second; lia).
  assert (A := Z.mul_div_le t second ltac:(unfold second; lia)).
  assert (B := Z.mul_succ_div_gt t second ltac:(unfold second; lia)). lia.
Qed.
Lemma whole_unique t s s' : whole t s -> whole t s' -> s = s'.
Proof. unfold whole, second; lia. Qed.

(** A use prints exactly if its whole second is the rate or more after the whole second of the
    last print of the place, or after the epoch if there was none. *)
Theorem C75_throttle : forall us j u r s, at_ us j u -> what u = Throttle r -> 0 <= now u -> whole (now u) s ->
  (none_printed us (place u) j -> (printed us j <-> r <= s * second)) /\
  (forall i v s', printed_last us (place u) i j -> at_ us i v -> 0 <= now v -> whole (now v) s' ->
     (printed us j <-> r <= (s - s') * second)).
Proof.
  intros us j u r s E W H0 Hs.
  assert (L : (j < length us)%nat) by (apply nth_error_Some; unfold at_ in E; congruence).
  assert (C := whole_unique _ _ _ (count_whole _ H0) Hs).
  assert (D := printed_iff us j u E); unfold prints in D; rewrite W, Z.leb_le, C in D.
  destruct (last_spec us (place u) j ltac:(lia)) as [[N Z0]|(i0 & v0 & Q & A & Z0)]; rewrite Z0 in D; split.
  - intros _; rewrite D; lia.
  - intros i v s' (Hij & (w & Aw & Pw & Tw & Pr) & _) _ _ _; destruct (N i w Hij Aw Pw Tw Pr).
  - intros N; destruct Q as (Hij & (w & Aw & Pw & Tw & Pr) & _); destruct (N i0 w Hij Aw Pw Tw Pr).
  - intros i v s' (Hij & (w & Aw & Pw & Tw & Pr) & M) Av H1 Hs'.
    destruct Q as (Hij' & (w' & Aw' & Pw' & Tw' & Pr') & M').
    assert (i = i0) as ->.
    { destruct (Nat.lt_trichotomy i i0) as [K|[K|K]]; [|exact K|].
      - destruct (M i0 w' (conj K Hij') Aw' Pw' Tw' Pr').
      - destruct (M' i w (conj K Hij) Aw Pw Tw Pr). }
    unfold at_ in *; rewrite Av in A; injection A as <-.
    rewrite D, (whole_unique _ _ _ (count_whole _ H1) Hs'); lia.
Qed.
Print Assumptions C75_throttle.

(** Two prints of a place after one another are more than the rate less a second apart. *)
Theorem C75_spacing : forall us i j u v r, at_ us j u -> what u = Throttle r -> printed us j ->
  printed_last us (place u) i j -> at_ us i v -> 0 <= now v -> 0 <= now u -> now u - now v > r - second.
Proof.
  intros us i j u v r E W P Q A Hv Hu.
  assert (T := proj2 (C75_throttle us j u r _ E W Hu (count_whole _ Hu)) i v _ Q A Hv (count_whole _ Hv)).
  apply T in P; destruct (count_whole _ Hu), (count_whole _ Hv); lia.
Qed.
Print Assumptions C75_spacing.

(** Nothing is lost: a use the rate or more after the last print prints, if the rate is a whole
    number of seconds; otherwise a second more is needed. *)
Theorem C75_no_loss : forall us i j u v r, at_ us j u -> what u = Throttle r ->
  printed_last us (place u) i j -> at_ us i v -> 0 <= now v -> 0 <= now u ->
  ((exists k, r = k * second) -> now u - now v >= r -> printed us j) /\
  (now u - now v >= r + second -> printed us j).
Proof.
  intros us i j u v r E W Q A Hv Hu.
  assert (T := proj2 (C75_throttle us j u r _ E W Hu (count_whole _ Hu)) i v _ Q A Hv (count_whole _ Hv)).
  destruct (count_whole _ Hu), (count_whole _ Hv); rewrite T; unfold second in *.
  split; [intros (k & ->) G; lia|intros G; lia].
Qed.
Print Assumptions C75_no_loss.

(** The rate does not bound the spacing: at one per second, two prints a nanosecond apart. *)
Theorem C75_spacing_refuted : exists us i j u v r, at_ us j u /\ what u = Throttle r /\ printed us j /\
  printed_last us (place u) i j /\ at_ us i v /\ r = second /\ now u - now v = 1.
Proof.
  exists [Use 0 (Throttle second) 1999999999; Use 0 (Throttle second) 2000000000], 0%nat, 1%nat,
    (Use 0 (Throttle second) 2000000000), (Use 0 (Throttle second) 1999999999), second.
  split; [reflexivity|]; split; [reflexivity|]; split; [reflexivity|]; split.
  - split; [lia|]; split; [|intros k w H; lia].
    eexists; split; [reflexivity|]; split; [reflexivity|]; split; [now eexists|reflexivity].
  - repeat split.
Qed.
Print Assumptions C75_spacing_refuted.

(** With a rate of half a second a use nearly a second after the last print is silent. *)
Theorem C75_no_loss_refuted : exists us i j u v r, at_ us j u /\ what u = Throttle r /\ ~ printed us j /\
  printed_last us (place u) i j /\ at_ us i v /\ 2 * r = second /\ now u - now v = 999999999.
Proof.
  exists [Use 0 (Throttle 500000000) 2000000000; Use 0 (Throttle 500000000) 2999999999], 0%nat, 1%nat,
    (Use 0 (Throttle 500000000) 2999999999), (Use 0 (Throttle 500000000) 2000000000), 500000000.
  split; [reflexivity|]; split; [reflexivity|]; split; [discriminate|]; split.
  - split; [lia|]; split; [|intros k w H; lia].
    eexists; split; [reflexivity|]; split; [reflexivity|]; split; [now eexists|reflexivity].
  - repeat split.
Qed.
Print Assumptions C75_no_loss_refuted.

(** The system clock set back silences a place until the old time is reached again. *)
Theorem C75_clock_back : forall us i j u v r, at_ us j u -> what u = Throttle r -> 0 < r ->
  printed_last us (place u) i j -> at_ us i v -> 0 <= now u <= now v -> ~ printed us j.
Proof.
  intros us i j u v r E W Hr Q A [Hu Hv] P.
  assert (T := proj2 (C75_throttle us j u r _ E W Hu (count_whole _ Hu)) i v _ Q A ltac:(lia) (count_whole (now v) ltac:(lia))).
  apply T in P; destruct (count_whole _ Hu), (count_whole (now v) ltac:(lia)); unfold second in *; lia.
Qed.
Print Assumptions C75_clock_back.

(** Two places with a minute and two seconds, one with once; the clock goes back by an hour. *)
Example C75_ex :
  run initial [Use 0 (Throttle (60 * second)) (1000 * second); Use 1 (Throttle (2 * second)) (1000 * second);
    Use 2 Once (1000 * second); Use 1 (Throttle (2 * second)) (1001 * second); Use 1 (Throttle (2 * second)) (1002 * second);
    Use 2 Once (1003 * second); Use 3 (Cond true) (1003 * second); Use 0 (Throttle (60 * second)) (1059 * second);
    Use 0 (Throttle (60 * second)) (1060 * second); Use 0 (Throttle (60 * second)) (160 * second)] =
  [true; true; true; false; true; false; true; false; true; false].
Proof. reflexivity. Qed.
Example C75_ex_hypotheses :
  let us := [Use 1 (Throttle (2 * second)) (1000 * second); Use 1 (Throttle (2 * second)) (1002 * second)] in
  printed_last us 1 0 1 /\ printed us 1 /\ none_printed us 1 0 /\ none_printed us 2 2.
Proof.
  intros us; split; [|split; [reflexivity|split; [intros k v H; lia|]]].
  - split; [lia|]; split; [|intros k w H; lia].
    eexists; split; [reflexivity|]; split; [reflexivity|]; split; [now eexists|reflexivity].
  - intros [|[|k]] v H E P; [injection E as <-; discriminate P|injection E as <-; discriminate P|lia].
Qed.
