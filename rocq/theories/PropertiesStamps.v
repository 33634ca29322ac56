(** C62: time stamps as doubles. *)

From Coq Require Import Reals ZArith Lra Lia.
From Flocq Require Import Core.
From Verif Require Import Stamps StampsProofs.
Local Open Scope R_scope.

(** A stamp of a message: seconds before the year 2038, and nanoseconds. *)
Definition stamp (s n : Z) : Prop := (0 <= s < 2 ^ 31 /\ 0 <= n < 1000000000)%Z.
Definition nanoseconds (s n : Z) : Z := (s * 1000000000 + n)%Z.

(** Converting never exchanges two stamps. *)
Theorem C62_monotone : forall s1 n1 s2 n2, stamp s1 n1 -> stamp s2 n2 ->
  (nanoseconds s1 n1 <= nanoseconds s2 n2)%Z -> to_sec s1 n1 <= to_sec s2 n2.
Proof. intros s1 n1 s2 n2 [H1 H2] [H3 H4] H. apply to_sec_mono; try lia. exact H. Qed.
Print Assumptions C62_monotone.

(** The double is within 120 nanoseconds of the stamp. *)
Theorem C62_error : forall s n, stamp s n ->
  Rabs (to_sec s n - IZR (nanoseconds s n) / 1000000000) <= 120 / 1000000000.
Proof.
  intros s n [H1 H2]. generalize (to_sec_near s n H1 H2). unfold exact, nanoseconds.
  rewrite plus_IZR, mult_IZR. intros H. 
  replace ((IZR s * 1000000000 + IZR n) / 1000000000) with (IZR s + IZR n / 1000000000) by field. lra.
Qed.
Print Assumptions C62_error.

(** Stamps that are equal or more than 240 nanoseconds apart compare as doubles as they do
    as numbers of nanoseconds. *)
Theorem C62_order : forall s1 n1 s2 n2, stamp s1 n1 -> stamp s2 n2 ->
  (nanoseconds s1 n1 = nanoseconds s2 n2 \/ 240 < Z.abs (nanoseconds s1 n1 - nanoseconds s2 n2))%Z ->
  (to_sec s1 n1 < to_sec s2 n2 <-> (nanoseconds s1 n1 < nanoseconds s2 n2)%Z) /\
  (to_sec s1 n1 = to_sec s2 n2 <-> nanoseconds s1 n1 = nanoseconds s2 n2).
Proof.
  assert (L : forall s1 n1 s2 n2, stamp s1 n1 -> stamp s2 n2 ->
    (nanoseconds s1 n1 + 240 < nanoseconds s2 n2)%Z -> to_sec s1 n1 < to_sec s2 n2).
  { intros s1 n1 s2 n2 H1 H2 H. assert (E1 := C62_error s1 n1 H1). assert (E2 := C62_error s2 n2 H2).
    apply Rabs_le_inv in E1. apply Rabs_le_inv in E2. apply IZR_lt in H. rewrite plus_IZR in H. lra. }
  intros s1 n1 s2 n2 H1 H2 H.
  destruct (Z.lt_trichotomy (nanoseconds s1 n1) (nanoseconds s2 n2)) as [K|[K|K]].
  - assert (A : to_sec s1 n1 < to_sec s2 n2) by (apply L; auto; lia).
    split; split; intros; try lia; try lra.
  - assert (s1 = s2 /\ n1 = n2) as [-> ->].
    { destruct H1 as [_ H1]. destruct H2 as [_ H2]. unfold nanoseconds in K. lia. }
    split; split; intros; try lia; try lra; try reflexivity.
  - assert (A : to_sec s2 n2 < to_sec s1 n1) by (apply L; auto; lia).
    split; split; intros; try lia; try lra.
Qed.
Print Assumptions C62_order.

(** "Different stamps stay different" is false. *)
Theorem C62_distinct_refuted : exists s1 n1 s2 n2, stamp s1 n1 /\ stamp s2 n2 /\
  (nanoseconds s2 n2 - nanoseconds s1 n1 = 100)%Z /\ to_sec s1 n1 = to_sec s2 n2.
Proof.
  exists 1700000000%Z, 0%Z, 1700000000%Z, 100%Z. unfold stamp, nanoseconds. repeat split; try lia.
  unfold to_sec. fold (frac 0) (frac 100).
  destruct (frac_near 0 ltac:(lia)) as [A0 B0]. destruct (frac_near 100 ltac:(lia)) as [A1 B1].
  apply Rabs_le_inv in A0. apply Rabs_le_inv in A1.
  rewrite !(rnd_near_up 1700000000) by (try lia; lra). reflexivity.
Qed.
Print Assumptions C62_distinct_refuted.

(** Between stamps of the years 2004 to 2038 the elapsed time is computed without a further
    rounding: it is within 240 nanoseconds of the elapsed time of the stamps. *)
Theorem C62_elapsed : forall s1 n1 s2 n2, stamp s1 n1 -> stamp s2 n2 -> (2 ^ 30 <= s1)%Z -> (2 ^ 30 <= s2)%Z ->
  elapsed (to_sec s2 n2) (to_sec s1 n1) = to_sec s2 n2 - to_sec s1 n1 /\
  Rabs (elapsed (to_sec s2 n2) (to_sec s1 n1) - IZR (nanoseconds s2 n2 - nanoseconds s1 n1) / 1000000000) <= 240 / 1000000000.
Proof.
  intros s1 n1 s2 n2 H1 H2 L1 L2.
  assert (B : forall s n, stamp s n -> (2 ^ 30 <= s)%Z -> 1073741824 <= to_sec s n <= 2147483648).
  { intros s n [[_ Hs] Hn] L. destruct (frac_near n Hn) as [_ F]. unfold to_sec. fold (frac n).
    apply IZR_le in L. assert (Hs' : (s <= 2147483647)%Z) by lia. apply IZR_le in Hs'.
    change (2 ^ 30)%Z with 1073741824%Z in L.
    rewrite <- (rnd_id 1073741824) by (apply double_int; lia).
    rewrite <- (rnd_id 2147483648) by (apply double_int; lia). split; apply rnd_le; lra. }
  assert (B1 := B _ _ H1 L1). assert (B2 := B _ _ H2 L2).
  assert (E : elapsed (to_sec s2 n2) (to_sec s1 n1) = to_sec s2 n2 - to_sec s1 n1).
  { apply elapsed_exact; try apply rnd_double. lra. }
  split; [exact E|]. rewrite E, minus_IZR.
  assert (E1 := C62_error s1 n1 H1). assert (E2 := C62_error s2 n2 H2).
  apply Rabs_le_inv in E1. apply Rabs_le_inv in E2. apply Rabs_le. lra.
Qed.
Print Assumptions C62_elapsed.

(** The comparisons of an elapsed time with a constant, in msf_core_inl.h lines 126, 165, 254, 758
    and 769: what the doubles decide is what the whole nanoseconds decide, unless the elapsed
    time is within 241 nanoseconds of the constant.  [h] is the constant in nanoseconds. *)
Lemma small_const h : (Z.abs h <= 100000000000)%Z ->
  Rabs (rnd (IZR h / 1000000000) - IZR h / 1000000000) <= / 100000000000.
Proof.
  assert (P : forall h, (0 <= h <= 100000000000)%Z ->
    Rabs (rnd (IZR h / 1000000000) - IZR h / 1000000000) <= / 100000000000).
  { intros k [K1 K2]. apply IZR_le in K1. apply IZR_le in K2.
    assert (Q := rnd_err (IZR k / 1000000000) 7 ltac:(lia)). change (bpow radix2 7) with 128 in Q.
    specialize (Q ltac:(lra)). change (bpow radix2 (7 - 54)) with (/ IZR (2 ^ 47)) in Q.
    change (2 ^ 47)%Z with 140737488355328%Z in Q. lra. }
  intros H. destruct (Z_le_gt_dec 0 h) as [K|K]; [apply P; lia|].
  assert (Q := P (- h)%Z ltac:(lia)). rewrite opp_IZR in Q.
  replace (- IZR h / 1000000000) with (- (IZR h / 1000000000)) in Q by field.
  unfold rnd in Q. rewrite round_NE_opp in Q. fold (rnd (IZR h / 1000000000)) in Q.
  rewrite <- Rabs_Ropp. replace (- (rnd (IZR h / 1000000000) - IZR h / 1000000000)) with
    (- rnd (IZR h / 1000000000) - - (IZR h / 1000000000)) by ring. exact Q.
Qed.

Theorem C62_threshold : forall s1 n1 s2 n2 h, stamp s1 n1 -> stamp s2 n2 -> (2 ^ 30 <= s1)%Z -> (2 ^ 30 <= s2)%Z ->
  (Z.abs h <= 100000000000)%Z ->
  let D := (nanoseconds s2 n2 - nanoseconds s1 n1)%Z in
  let e := elapsed (to_sec s2 n2) (to_sec s1 n1) in
  let y := rnd (IZR h / 1000000000) in
  ((241 <= Z.abs (D - h))%Z -> (e < y <-> (D < h)%Z) /\ (y < e <-> (h < D)%Z)) /\
  ((0 <= h)%Z -> (241 <= Z.abs (Z.abs D - h))%Z -> (y < Rabs e <-> (h < Z.abs D)%Z)).
Proof.
  intros s1 n1 s2 n2 h H1 H2 L1 L2 Hh D e y.
  destruct (C62_elapsed s1 n1 s2 n2 H1 H2 L1 L2) as [_ E]. fold D in E. fold e in E.
  assert (Y := small_const h Hh). fold y in Y. apply Rabs_le_inv in E. apply Rabs_le_inv in Y. clearbody D e y.
  split.
  - intros K. destruct (Z_lt_ge_dec D h) as [Q|Q].
    + assert (Q' : (D + 241 <= h)%Z) by lia. apply IZR_le in Q'. rewrite plus_IZR in Q'.
      split; split; intros J; try lia; lra.
    + assert (Q' : (h + 241 <= D)%Z) by lia. apply IZR_le in Q'. rewrite plus_IZR in Q'.
      split; split; intros J; try lia; lra.
  - intros P K. apply IZR_le in P. destruct (Z_lt_ge_dec (Z.abs D) h) as [Q|Q].
    + assert (Q1 : (D + 241 <= h)%Z) by lia. assert (Q2 : (- D + 241 <= h)%Z) by lia.
      apply IZR_le in Q1. apply IZR_le in Q2. rewrite plus_IZR in Q1, Q2. rewrite opp_IZR in Q2.
      split; intros J; [|lia]. exfalso. unfold Rabs in J. destruct (Rcase_abs e); lra.
    + split; intros J; [lia|]. destruct (Z_lt_ge_dec D 0) as [N|N].
      * assert (Q2 : (h + 241 <= - D)%Z) by lia. apply IZR_le in Q2. rewrite plus_IZR, opp_IZR in Q2.
        apply Rlt_le_trans with (- e); [lra|]. rewrite <- Rabs_Ropp. apply Rle_abs.
      * assert (Q2 : (h + 241 <= D)%Z) by lia. apply IZR_le in Q2. rewrite plus_IZR in Q2.
        apply Rlt_le_trans with e; [lra|]. apply Rle_abs.
Qed.
Print Assumptions C62_threshold.

(** Inside that band the two can differ: an elapsed time of exactly a tenth of a second, not
    above the limit of line 165, is above it as a double. *)
Theorem C62_threshold_refuted : exists s1 n1 s2 n2, stamp s1 n1 /\ stamp s2 n2 /\ (2 ^ 30 <= s1)%Z /\ (2 ^ 30 <= s2)%Z /\
  (nanoseconds s2 n2 - nanoseconds s1 n1 = 100000000)%Z /\
  rnd (IZR 100000000 / 1000000000) < Rabs (elapsed (to_sec s2 n2) (to_sec s1 n1)).
Proof.
  exists 1700000000%Z, 100%Z, 1700000000%Z, 100000100%Z. unfold stamp, nanoseconds.
  split; [lia|]; split; [lia|]; split; [lia|]; split; [lia|]; split; [lia|].
  assert (E : to_sec 1700000000 100 = 1700000000).
  { unfold to_sec. fold (frac 100). destruct (frac_near 100 ltac:(lia)) as [A1 B1]. apply Rabs_le_inv in A1.
    rewrite (rnd_near_up 1700000000) by (try lia; lra). reflexivity. }
  (* 419431 / 2^22 is the first multiple of 2^-22 above a tenth *)
  assert (F : to_sec 1700000000 100000100 = 7130316800419431 / 4194304).
  { unfold to_sec. fold (frac 100000100). destruct (frac_near 100000100 ltac:(lia)) as [A1 B1]. apply Rabs_le_inv in A1.
    apply rnd_grid; [lra|]. apply Rabs_def1; lra. }
  assert (X : elapsed (to_sec 1700000000 100000100) (to_sec 1700000000 100) = to_sec 1700000000 100000100 - to_sec 1700000000 100).
  { apply C62_elapsed; try (unfold stamp; lia); lia. }
  rewrite X, E, F. assert (Y := small_const 100000000 ltac:(lia)). apply Rabs_le_inv in Y.
  apply Rlt_le_trans with (2 := Rle_abs _). lra.
Qed.
Print Assumptions C62_threshold_refuted.

(** Which of two entries is nearer (msf_sortedContainer.h lines 215 and 290) is decided as on
    whole nanoseconds, unless the distances differ by no more than 480 of them. *)
Theorem C62_nearer : forall sp np sm nm s n, stamp sp np -> stamp sm nm -> stamp s n ->
  (2 ^ 30 <= sp)%Z -> (2 ^ 30 <= sm)%Z -> (2 ^ 30 <= s)%Z ->
  let dp := Z.abs (nanoseconds sp np - nanoseconds s n) in
  let dm := Z.abs (nanoseconds sm nm - nanoseconds s n) in
  (480 < Z.abs (dp - dm))%Z ->
  (Rabs (elapsed (to_sec sp np) (to_sec s n)) < Rabs (elapsed (to_sec sm nm) (to_sec s n)) <-> (dp < dm)%Z).
Proof.
  intros sp np sm nm s n Hp Hm H Lp Lm L dp dm K.
  assert (A : forall s' n', stamp s' n' -> (2 ^ 30 <= s')%Z ->
    Rabs (Rabs (elapsed (to_sec s' n') (to_sec s n)) - IZR (Z.abs (nanoseconds s' n' - nanoseconds s n)) / 1000000000)
    <= 240 / 1000000000).
  { intros s' n' H' L'. destruct (C62_elapsed s n s' n' H H' L L') as [_ E].
    rewrite abs_IZR. set (x := elapsed _ _) in *. set (z := IZR _) in *.
    replace (Rabs z / 1000000000) with (Rabs (z / 1000000000)).
    - apply Rle_trans with (2 := E). apply Rabs_triang_inv2.
    - unfold Rdiv. rewrite Rabs_mult. rewrite (Rabs_pos_eq (/ 1000000000)) by lra. reflexivity. }
  assert (Ap := A _ _ Hp Lp). assert (Am := A _ _ Hm Lm). fold dp in Ap. fold dm in Am.
  apply Rabs_le_inv in Ap. apply Rabs_le_inv in Am. clearbody dp dm.
  destruct (Z_lt_ge_dec dp dm) as [Q|Q].
  - assert (Q' : (dp + 481 <= dm)%Z) by lia. apply IZR_le in Q'. rewrite plus_IZR in Q'. split; intros J; [exact Q|lra].
  - assert (Q' : (dm + 481 <= dp)%Z) by lia. apply IZR_le in Q'. rewrite plus_IZR in Q'. split; intros J; [lra|lia].
Qed.
Print Assumptions C62_nearer.

(** A reading 20 milliseconds late and one 5 milliseconds late, against the limit of line 126. *)
Example C62_threshold_ex :
  elapsed (to_sec 1700000000 980000000) (to_sec 1700000001 0) < rnd (IZR (-10000000) / 1000000000) /\
  ~ elapsed (to_sec 1700000000 995000000) (to_sec 1700000001 0) < rnd (IZR (-10000000) / 1000000000).
Proof.
  split.
  - destruct (C62_threshold 1700000001 0 1700000000 980000000 (-10000000)) as [A _];
      try (unfold stamp; lia); try lia.
    apply A; unfold nanoseconds; lia.
  - destruct (C62_threshold 1700000001 0 1700000000 995000000 (-10000000)) as [A _];
      try (unfold stamp; lia); try lia.
    intros B. apply A in B; unfold nanoseconds in *; lia.
Qed.

(** A measurement with the stamp of an IMU reading and no delay gets the time of that
    reading exactly; with a delay, the time is off by at most 240 nanoseconds. *)
Theorem C62_delay : forall s n d, stamp s n ->
  measured_at s n 0 = to_sec s n /\
  (0 <= d <= to_sec s n ->
   Rabs (measured_at s n d - (IZR (nanoseconds s n) / 1000000000 - d)) <= 240 / 1000000000).
Proof.
  intros s n d H. split.
  - unfold measured_at. rewrite Rminus_0_r. apply rnd_id, rnd_double.
  - intros Hd. unfold measured_at. assert (E := C62_error s n H).
    assert (U : to_sec s n <= 2147483648).
    { destruct H as [Hs Hn]. destruct (frac_near n Hn) as [_ F]. unfold to_sec. fold (frac n).
      assert (Hs' : (s <= 2147483647)%Z) by lia. apply IZR_le in Hs'.
      rewrite <- (rnd_id 2147483648) by (apply double_int; lia). apply rnd_le; lra. }
    assert (E2 := rnd_err (to_sec s n - d) 31 ltac:(lia)).
    change (bpow radix2 31) with (IZR (2 ^ 31)) in E2. change (2 ^ 31)%Z with 2147483648%Z in E2.
    change (bpow radix2 (31 - 54)) with (/ IZR (2 ^ 23)) in E2. change (2 ^ 23)%Z with 8388608%Z in E2.
    specialize (E2 ltac:(lra)). apply Rabs_le_inv in E. apply Rabs_le_inv in E2. apply Rabs_le. lra.
Qed.
Print Assumptions C62_delay.

(** Throttling decides by the stamps, up to a microsecond around the minimum spacing less one
    millisecond; so poses that are exactly the minimum spacing apart are never dropped,
    whatever the rounding. *)
Theorem C62_throttle : forall s1 n1 s2 n2 dt, stamp s1 n1 -> stamp s2 n2 -> (2 ^ 30 <= s1)%Z -> (2 ^ 30 <= s2)%Z ->
  1 / 1000 <= dt <= 1000 ->
  let D := IZR (nanoseconds s2 n2 - nanoseconds s1 n1) / 1000000000 in
  (D < dt - 1 / 1000 - 1 / 1000000 -> dropped (to_sec s2 n2) (to_sec s1 n1) dt) /\
  (dt - 1 / 1000 + 1 / 1000000 < D -> ~ dropped (to_sec s2 n2) (to_sec s1 n1) dt) /\
  (D = dt -> ~ dropped (to_sec s2 n2) (to_sec s1 n1) dt).
Proof.
  intros s1 n1 s2 n2 dt H1 H2 L1 L2 Hdt D.
  destruct (C62_elapsed s1 n1 s2 n2 H1 H2 L1 L2) as [_ E]. fold D in E.
  change (elapsed (to_sec s2 n2) (to_sec s1 n1)) with (rnd (to_sec s2 n2 - to_sec s1 n1)) in E.
  unfold dropped. set (x := rnd (to_sec s2 n2 - to_sec s1 n1)) in *. clearbody x.
  assert (E1 := rnd_err (1 / 1000) 0 ltac:(lia)). change (bpow radix2 0) with 1 in E1.
  specialize (E1 ltac:(lra)). change (bpow radix2 (0 - 54)) with (/ IZR (2 ^ 54)) in E1.
  change (2 ^ 54)%Z with 18014398509481984%Z in E1. apply Rabs_le_inv in E1. apply Rabs_le_inv in E.
  set (e := rnd (1 / 1000)) in *. clearbody e.
  assert (E2 : Rabs (rnd (dt - e) - (dt - e)) <= / 1000000000).
  { destruct (Rle_dec 0 (dt - e)) as [P|P].
    - assert (Q := rnd_err (dt - e) 10 ltac:(lia)). change (bpow radix2 10) with 1024 in Q.
      specialize (Q ltac:(lra)). change (bpow radix2 (10 - 54)) with (/ IZR (2 ^ 44)) in Q.
      change (2 ^ 44)%Z with 17592186044416%Z in Q. lra.
    - assert (Q := rnd_err (- (dt - e)) 0 ltac:(lia)). change (bpow radix2 0) with 1 in Q.
      specialize (Q ltac:(lra)). change (bpow radix2 (0 - 54)) with (/ IZR (2 ^ 54)) in Q.
      change (2 ^ 54)%Z with 18014398509481984%Z in Q. 
      unfold rnd in Q. rewrite round_NE_opp in Q. fold (rnd (dt - e)) in Q.
      replace (- rnd (dt - e) - - (dt - e)) with (- (rnd (dt - e) - (dt - e))) in Q by ring.
      rewrite Rabs_Ropp in Q. lra. }
  apply Rabs_le_inv in E2. repeat split; intros K; lra.
Qed.
Print Assumptions C62_throttle.

(** A stamp that is published again differs from the one received by at most 120
    nanoseconds ... *)
Theorem C62_published : forall s n, stamp s n ->
  (Z.abs (from_sec (to_sec s n) - nanoseconds s n) <= 120)%Z.
Proof.
  intros s n H. apply int_close.
  assert (P : 0 <= to_sec s n).
  { destruct H as [Hs Hn]. destruct (frac_near n Hn) as [_ F]. unfold to_sec. fold (frac n).
    assert (Hs' : (0 <= s)%Z) by lia. apply IZR_le in Hs'.
    rewrite <- (rnd_id 0) by apply generic_format_0. apply rnd_le; lra. }
  assert (A := from_sec_near _ P). destruct H as [H1 H2].
  destruct (frac_near n H2) as [F1 F2]. apply Rabs_le_inv in F1.
  assert (S0 : 0 <= IZR s) by (apply IZR_le; lia). assert (S1 : IZR s <= 2147483647) by (apply IZR_le; lia).
  assert (E := rnd_err (IZR s + frac n) 31 ltac:(lia)).
  change (bpow radix2 31) with (IZR (2 ^ 31)) in E. change (2 ^ 31)%Z with 2147483648%Z in E.
  change (bpow radix2 (31 - 54)) with (/ IZR (2 ^ 23)) in E. change (2 ^ 23)%Z with 8388608%Z in E.
  specialize (E ltac:(lra)). change (rnd (IZR s + frac n)) with (to_sec s n) in E.
  apply Rabs_le_inv in E. apply Rabs_le_inv in A.
  unfold nanoseconds. rewrite plus_IZR, mult_IZR. apply Rabs_le. lra.
Qed.
Print Assumptions C62_published.

(** ... and can differ. *)
Theorem C62_published_refuted : exists s n, stamp s n /\ (from_sec (to_sec s n) = nanoseconds s n - 100)%Z.
Proof.
  exists 1700000000%Z, 100%Z. unfold stamp, nanoseconds. repeat split; try lia.
  assert (E : to_sec 1700000000 100 = 1700000000).
  { unfold to_sec. fold (frac 100). destruct (frac_near 100 ltac:(lia)) as [A1 B1]. apply Rabs_le_inv in A1.
    rewrite (rnd_near_up 1700000000) by (try lia; lra). reflexivity. }
  rewrite E. unfold from_sec. rewrite Zfloor_IZR. rewrite (Rminus_diag_eq 1700000000) by reflexivity.
  rewrite (rnd_id 0) by apply generic_format_0. rewrite Rmult_0_l, (rnd_id 0) by apply generic_format_0.
  rewrite (Znearest_imp (Z.leb 0) 0 0); [lia|]. rewrite Rminus_0_r, Rabs_R0. lra.
Qed.
Print Assumptions C62_published_refuted.

(** IMU readings at 200 Hz. *)
Example C62_ex : stamp 1700000000 995000000 /\ stamp 1700000001 0 /\
  (240 < Z.abs (nanoseconds 1700000000 995000000 - nanoseconds 1700000001 0))%Z /\
  to_sec 1700000000 995000000 < to_sec 1700000001 0.
Proof.
  assert (A : stamp 1700000000 995000000) by (unfold stamp; lia).
  assert (B : stamp 1700000001 0) by (unfold stamp; lia).
  repeat split; try (unfold stamp in *; lia); try (unfold nanoseconds; lia).
  apply (C62_order _ _ _ _ A B); unfold nanoseconds; lia.
Qed.
