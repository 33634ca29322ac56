(** Where the entries of the process noise come from, for any list of variables that begins
    with the core variables. *)

From Coq Require Import Reals ZArith List Bool Lia Lra.
From Verif Require Import Outcome Geom StateList Propagate QCore ProcNoise StateListProofs ProcNoiseProofs PropertiesState.
Import ListNotations.
Open Scope Z_scope.

(** The five core variables come first, with their shapes. *)
Definition core_first (l : list svar) : Prop :=
  map vkd (firstn 5 l) = [KVec 3; KVec 3; KQuat; KVec 3; KVec 3] /\
  (forall x, In x (firstn 5 l) -> ~ auxiliary x).

Lemma core_first_split : forall l, core_first l -> exists a b c d e r,
  l = a :: b :: c :: d :: e :: r /\ vkd a = KVec 3 /\ vkd b = KVec 3 /\ vkd c = KQuat /\ vkd d = KVec 3 /\ vkd e = KVec 3.
Proof.
  intros l [H _]. destruct l as [|a [|b [|c [|d [|e r]]]]]; try discriminate H.
  cbn in H. injection H as H1 H2 H3 H4 H5. exists a, b, c, d, e, r. auto 10.
Qed.

Lemma core_ix_std : forall l, compiles l -> enum_ok l -> core_first l ->
  core_ix_of l (Layout 0 1 2 3 4) = Ok std_ix.
Proof.
  intros l Hc Hn Hf. destruct (core_first_split l Hf) as (a & b & c & d & e & r & El & Ha & Hb & Hk & Hd & He).
  unfold core_ix_of, ix_of, enum_type.
  assert (G : forall k x, nth_error l k = Some x ->
     start_index corr_len l x = sum_len corr_len (firstn k l)).
  { intros k x Hx. apply start_index_at; assumption. }
  cbn [ip iv iq ibw iba]. subst l. cbn [nth_error bind].
  rewrite (G 0%nat a), (G 1%nat b), (G 2%nat c), (G 3%nat d), (G 4%nat e) by reflexivity.
  cbn [firstn sum_len corr_len]. cbn. rewrite ?Ha, ?Hb, ?Hk, ?Hd, ?He. reflexivity.
Qed.

Lemma own_start_late : forall s j i k, core_first (types s) -> auxiliary (itype i) -> owns s j i k -> 15 <= k.
Proof.
  intros s j i k Hf Ha [Hj Hk].
  destruct (Nat.lt_ge_cases j 5) as [L|G].
  - exfalso. destruct Hf as [_ Hx]. apply (Hx (itype i)); [|exact Ha].
    apply types_nth in Hj. revert Hj. generalize (types s). intros l Hj.
    destruct j as [|[|[|[|[|j]]]]]; try lia;
      destruct l as [|x0 [|x1 [|x2 [|x3 [|x4 l]]]]]; try discriminate Hj; injection Hj as ->; cbn; auto 10.
  - destruct (core_first_split _ Hf) as (a & b & c & d & e & r & El & Ka & Kb & Kk & Kd & Ke).
    enough (15 <= Z.of_nat (own_start s j)) by lia.
    rewrite own_start_sum, El. rewrite Z2Nat.id by apply sum_nonneg, pos_corr.
    destruct j as [|[|[|[|[|j]]]]]; try lia. cbn [firstn sum_len corr_len].
    cbn. rewrite Ka, Kb, Kk, Kd, Ke. pose proof (sum_nonneg corr_len (firstn j r) pos_corr). lia.
Qed.

(** Entry (r, c) lies in the block of one auxiliary variable. *)
Definition in_aux_block (s : state) (r c : Z) : Prop :=
  exists j i, owns s j i r /\ owns s j i c /\ auxiliary (itype i).

Lemma puts_other : forall w Q r c, (forall x, In x w -> fst x <> (r, c)) -> fold_left put w Q r c = Q r c.
Proof.
  induction w as [|[[r0 c0] v] w IH]; intros Q r c H; [reflexivity|]. cbn [fold_left].
  rewrite IH by (intros x Hx; apply H; right; exact Hx). unfold put.
  destruct ((r =? r0) && (c =? c0)) eqn:E; [|reflexivity].
  exfalso. apply (H (r0, c0, v) (or_introl eq_refl)). cbn.
  apply andb_true_iff in E as [E1 E2]. apply Z.eqb_eq in E1, E2. congruence.
Qed.

Lemma core_cells_map : forall dt q1 q2 q3 q4 e1 e2 e3 a1 a2 a3 na1 na2 na3 nb1 nb2 nb3 nw1 nw2 nw3 nc1 nc2 nc3,
  map fst (qd_writes dt q1 q2 q3 q4 e1 e2 e3 a1 a2 a3 na1 na2 na3 nb1 nb2 nb3 nw1 nw2 nw3 nc1 nc2 nc3 0 3 6 9 12) =
  core_cells.
Proof. intros. reflexivity. Qed.

Lemma core_cells_small : forallb (fun p => (fst p <? 15) && (snd p <? 15) && (0 <=? fst p) && (0 <=? snd p)) core_cells = true.
Proof. reflexivity. Qed.

Lemma core_other : forall dt q ew ea nz Q r c, is_core_cell r c = false ->
  calc_q_core std_ix dt q ew ea nz Q r c = Q r c.
Proof.
  intros dt q ew ea nz Q r c H. unfold calc_q_core. apply puts_other. intros x Hx E.
  apply (in_map fst) in Hx. cbn [xp xv xq xbw xba std_ix] in Hx. rewrite core_cells_map, E in Hx.
  enough (is_core_cell r c = true) by congruence. apply existsb_exists. exists (r, c).
  split; [exact Hx|]. cbn. rewrite !Z.eqb_refl. reflexivity.
Qed.

Lemma core_cell_small : forall r c, is_core_cell r c = true -> r < 15 /\ c < 15.
Proof.
  intros r c H. apply existsb_exists in H as ([a b] & Hx & E). pose proof core_cells_small as Hs.
  rewrite forallb_forall in Hs. specialize (Hs _ Hx). cbn in *. lia.
Qed.

Lemma in_block_dec : forall s r c, compiles (types s) -> enum_ok (types s) -> in_aux_block s r c \/ ~ in_aux_block s r c.
Proof.
  intros s r c Hc Hn.
  assert (D : forall m, (exists j i, (j < m)%nat /\ owns s j i r /\ owns s j i c /\ auxiliary (itype i)) \/
                        ~ (exists j i, (j < m)%nat /\ owns s j i r /\ owns s j i c /\ auxiliary (itype i))).
  { induction m as [|m [IH|IH]].
    - right. intros (j & i & H & _). lia.
    - left. destruct IH as (j & i & H & R). exists j, i. split; [lia|exact R].
    - destruct (nth_error s m) as [i|] eqn:E.
      + assert (Q : (owns s m i r /\ owns s m i c /\ auxiliary (itype i)) \/ ~ (owns s m i r /\ owns s m i c /\ auxiliary (itype i))).
        { assert (Dz : forall k, owns s m i k \/ ~ owns s m i k).
          { intros k. unfold owns.
            destruct (Z_le_dec (Z.of_nat (own_start s m)) k); destruct (Z_lt_dec k (Z.of_nat (own_start s m) + err_width (itype i)));
              try (left; split; [exact E|lia]); right; intros [_ Hk]; lia. }
          assert (Da : auxiliary (itype i) \/ ~ auxiliary (itype i)).
          { unfold auxiliary. destruct (vtype (itype i)); [right|right|left|left]; try (intros [X|X]; discriminate); auto. }
          destruct (Dz r), (Dz c), Da; tauto. }
        destruct Q as [Q|Q]; [left; exists m, i; split; [lia|exact Q]|].
        right. intros (j & i' & Hj & R1 & R2 & R3).
        destruct (Nat.eq_dec j m) as [->|].
        * assert (i' = i) by (destruct R1 as [X _]; congruence). subst. tauto.
        * apply IH. exists j, i'. split; [lia|auto].
      + right. intros (j & i' & Hj & R1 & R2 & R3).
        destruct (Nat.eq_dec j m) as [->|]; [destruct R1 as [X _]; congruence|].
        apply IH. exists j, i'. split; [lia|auto]. }
  destruct (D (length s)) as [(j & i & _ & R)|N]; [left; exists j, i; exact R|].
  right. intros (j & i & R1 & R). apply N. exists j, i. split; [|auto].
  apply nth_error_Some. destruct R1 as [X _]. congruence.
Qed.

(** Noise blocks of auxiliary variables are multiples of the identity, not negative. *)
Definition aux_noise_ok (s : state) : Prop :=
  forall i, In i s -> auxiliary (itype i) ->
    exists d, (0 <= d)%R /\ forall a b, iQ i a b = if Nat.eqb a b then d else 0%R.

(** What earlier predictions can have left in the matrix: nothing outside the entries that
    every prediction writes again. *)
Definition q_clean (s : state) (Q : zmat) : Prop :=
  forall r c, is_core_cell r c = false -> ~ in_aux_block s r c -> Q r c = 0%R.

Theorem qd_entries : forall s dt q ew ea nz Q0,
  compiles (types s) -> enum_ok (types s) -> core_first (types s) -> aux_noise_ok s -> q_clean s Q0 ->
  exists Qd, copy_q (types s) (calc_q_core std_ix dt q ew ea nz Q0) s = Ok Qd /\
    (forall r c, r < 15 -> c < 15 -> Qd r c = calc_q_core std_ix dt q ew ea nz Q0 r c) /\
    (forall r c, 15 <= r \/ 15 <= c -> r <> c -> Qd r c = 0%R) /\
    (forall r, 15 <= r -> (0 <= Qd r r)%R) /\
    q_clean s Qd.
Proof.
  intros s dt q ew ea nz Q0 Hc Hn Hf Ha H0.
  destruct (C30_noise_blocks s (calc_q_core std_ix dt q ew ea nz Q0) Hc Hn) as (Qd & E & Hin & Hout).
  exists Qd. split; [exact E|].
  assert (Hother : forall r c, ~ in_aux_block s r c -> Qd r c = calc_q_core std_ix dt q ew ea nz Q0 r c).
  { intros r c N. apply Hout. intros j i R1 R2 A. apply N. exists j, i. auto. }
  assert (Hbig : forall r c, 15 <= r \/ 15 <= c -> is_core_cell r c = false).
  { intros r c L. destruct (is_core_cell r c) eqn:X; [|reflexivity]. apply core_cell_small in X. lia. }
  assert (Hzero : forall r c, 15 <= r \/ 15 <= c -> ~ in_aux_block s r c -> Qd r c = 0%R).
  { intros r c L N. rewrite Hother by exact N. rewrite core_other by auto. auto. }
  assert (Hblk : forall r c, in_aux_block s r c -> exists d, (0 <= d)%R /\ Qd r c = if r =? c then d else 0%R).
  { intros r c (j & i & R1 & R2 & A). destruct (Ha i) as (d & D0 & D); [apply (nth_error_In _ _ (proj1 R1))|exact A|].
    exists d. split; [exact D0|]. rewrite (Hin j i r c R1 R2 A), D.
    destruct R1 as [_ R1], R2 as [_ R2].
    destruct (Z.eqb_spec r c) as [->|N]; [rewrite Nat.eqb_refl; reflexivity|].
    destruct (Nat.eqb_spec (Z.to_nat (r - Z.of_nat (own_start s j))) (Z.to_nat (c - Z.of_nat (own_start s j)))); [lia|reflexivity]. }
  repeat split.
  - intros r c L1 L2. apply Hother. intros (j & i & R1 & R2 & A). apply (own_start_late s j i r Hf A) in R1. lia.
  - intros r c L N. destruct (in_block_dec s r c Hc Hn) as [B|B]; [|auto].
    destruct (Hblk r c B) as (d & _ & ->). apply Z.eqb_neq in N. rewrite N. reflexivity.
  - intros r L. destruct (in_block_dec s r r Hc Hn) as [B|B].
    + destruct (Hblk r r B) as (d & D0 & ->). rewrite Z.eqb_refl. exact D0.
    + rewrite Hzero by auto. lra.
  - intros r c Hcell N. rewrite Hother by exact N. rewrite core_other by exact Hcell. apply H0; assumption.
Qed.

(** The managers' noise blocks have this form. *)
Lemma set_q_types : forall s k B, types (set_q s k B) = types s.
Proof. induction s as [|i s IH]; intros [|k] B; cbn; try reflexivity. unfold types in *. cbn. f_equal. apply IH. Qed.
Lemma calc_q_aux_types : forall an dt s, types (calc_q_aux an dt s) = types s.
Proof. induction an as [|[k n] an IH]; intros dt s; cbn; [reflexivity|]. unfold calc_q_aux in IH. rewrite IH. apply set_q_types. Qed.

Lemma set_q_ok : forall s k dt n, (0 <= dt)%R -> aux_noise_ok s -> aux_noise_ok (set_q s k (diag_q dt n)).
Proof.
  intros s k dt n Hdt H i Hi A.
  assert (Q : In i s \/ iQ i = diag_q dt n).
  { clear H A. revert k Hi. induction s as [|x s IH]; intros [|k] Hi; cbn in Hi.
    - destruct Hi. - destruct Hi.
    - destruct Hi as [<-|Hi]; [right; reflexivity|left; right; exact Hi].
    - destruct Hi as [<-|Hi]; [left; left; reflexivity|]. destruct (IH k Hi); [left; right; assumption|right; assumption]. }
  destruct Q as [Q|Q]; [apply H; assumption|].
  exists (dt * (n * n))%R. split; [|intros a b; rewrite Q; reflexivity].
  apply Rmult_le_pos; [exact Hdt|]. apply Rle_0_sqr.
Qed.
Lemma calc_q_aux_ok : forall an dt s, (0 <= dt)%R -> aux_noise_ok s -> aux_noise_ok (calc_q_aux an dt s).
Proof.
  induction an as [|[k n] an IH]; intros dt s Hdt H; [exact H|]. cbn. apply IH; [exact Hdt|]. apply set_q_ok; assumption.
Qed.

(** Reading the core variables succeeds. *)
Lemma vars_get : forall s, core_first (types s) -> Forall shape_ok s ->
  exists bw ba q, get_v3 s 3 = Ok bw /\ get_v3 s 4 = Ok ba /\ get_quat s 2 = Ok q.
Proof.
  intros s Hf Hs. destruct (core_first_split _ Hf) as (a & b & c & d & e & r & El & Ka & Kb & Kc & Kd & Ke).
  destruct s as [|i0 [|i1 [|i2 [|i3 [|i4 s]]]]]; try discriminate El.
  unfold types in El. cbn in El. injection El as E0 E1 E2 E3 E4 _.
  inversion_clear Hs as [|? ? _ T0]. inversion_clear T0 as [|? ? _ T1]. inversion_clear T1 as [|? ? S2 T2].
  inversion_clear T2 as [|? ? S3 T3]. inversion_clear T3 as [|? ? S4 _].
  unfold shape_ok in S2, S3, S4. rewrite E2, Kc in S2. rewrite E3, Kd in S3. rewrite E4, Ke in S4.
  unfold get_v3, get_quat. cbn [nth_error].
  destruct (ival i2) as [|q]; [contradiction|].
  destruct (ival i3) as [x3|]; [|contradiction]. destruct (ival i4) as [x4|]; [|contradiction].
  destruct x3 as [|? [|? [|? [|]]]]; try discriminate S3. destruct x4 as [|? [|? [|? [|]]]]; try discriminate S4.
  do 3 eexists. repeat split.
Qed.

Lemma core_first_size : forall l, compiles l -> enum_ok l -> core_first l -> 15 <= count_states corr_len l.
Proof.
  intros l Hc Hn Hf. destruct (core_first_split l Hf) as (a & b & c & d & e & r & El & Ka & Kb & Kc & Kd & Ke).
  assert (Hi : nth_error l 4 = Some e) by (subst l; reflexivity).
  pose proof (tile_inside corr_len l 4 e pos_corr Hc Hn Hi) as [_ H].
  rewrite (start_index_at corr_len l 4 e Hc Hn Hi) in H. subst l.
  assert (E1 : sum_len corr_len (firstn 4 (a :: b :: c :: d :: e :: r)) = 12).
  { cbn. rewrite Ka, Kb, Kc, Kd. reflexivity. }
  assert (E2 : corr_len (Some e) = 3) by (cbn; rewrite Ke; reflexivity).
  lia.
Qed.

(** Cleanliness depends on the list of variables only. *)
Lemma owns_types : forall s s' j i k, types s' = types s -> owns s j i k -> exists i', owns s' j i' k /\ itype i' = itype i.
Proof.
  intros s s' j i k E [Hj Hk].
  assert (Ht : nth_error (types s') j = Some (itype i)) by (rewrite E; apply types_nth, Hj).
  unfold types in Ht. rewrite nth_error_map in Ht. destruct (nth_error s' j) as [i'|] eqn:E'; [|discriminate].
  cbn in Ht. injection Ht as Ht. exists i'. split; [|exact Ht]. split; [exact E'|].
  unfold own_start in *. rewrite E, Ht. exact Hk.
Qed.
Lemma in_block_types : forall s s' r c, types s' = types s -> in_aux_block s r c -> in_aux_block s' r c.
Proof.
  intros s s' r c E (j & i & R1 & R2 & A).
  destruct (owns_types s s' j i r E R1) as (i1 & O1 & T1). destruct (owns_types s s' j i c E R2) as (i2 & O2 & T2).
  exists j, i1. split; [exact O1|]. destruct O1 as [X1 Y1], O2 as [X2 Y2].
  assert (i2 = i1) by congruence. subst i2. split; [split; assumption|]. rewrite T1. exact A.
Qed.
Lemma q_clean_types : forall s s' Q, types s' = types s -> q_clean s Q -> q_clean s' Q.
Proof. intros s s' Q E H r c C N. apply H; [exact C|]. intros B. apply N. exact (in_block_types s s' r c E B). Qed.
Lemma q_clean_zero : forall s, q_clean s zzero.
Proof. intros s r c _ _. reflexivity. Qed.

(** What was in the matrix before does not matter. *)
Lemma puts_in : forall w Q Q' r c, In (r, c) (map fst w) -> fold_left put w Q r c = fold_left put w Q' r c.
Proof.
  induction w as [|[[r0 c0] v] w IH]; intros Q Q' r c H; [destruct H|]. cbn [fold_left].
  destruct (in_dec (fun a b : Z * Z => ltac:(decide equality; apply Z.eq_dec)) (r, c) (map fst w)) as [I|N]; [apply IH, I|].
  assert (M : forall x, In x w -> fst x <> (r, c)).
  { intros x Hx E. apply N. rewrite <- E. apply in_map, Hx. }
  rewrite !puts_other by exact M. destruct H as [H|H]; [|contradiction]. cbn in H. injection H as -> ->.
  unfold put. rewrite !Z.eqb_refl. reflexivity.
Qed.
Lemma core_cell_in : forall r c, is_core_cell r c = true -> In (r, c) core_cells.
Proof.
  intros r c H. apply existsb_exists in H as ([a b] & Hx & E). cbn in E.
  apply andb_true_iff in E as [E1 E2]. apply Z.eqb_eq in E1, E2. subst. exact Hx.
Qed.
Lemma core_fresh : forall dt q ew ea nz Q r c, (is_core_cell r c = false -> Q r c = 0%R) ->
  calc_q_core std_ix dt q ew ea nz Q r c = calc_q_core std_ix dt q ew ea nz zzero r c.
Proof.
  intros dt q ew ea nz Q r c H. destruct (is_core_cell r c) eqn:E.
  - unfold calc_q_core. apply puts_in. cbn [xp xv xq xbw xba std_ix]. rewrite core_cells_map. apply core_cell_in, E.
  - rewrite !core_other by exact E. apply H. reflexivity.
Qed.

(** Single entries. *)
Ltac entry_tac :=
  unfold calc_q_core, qd_writes;
  cbv beta iota zeta delta [fold_left put xp xv xq xbw xba std_ix Z.add Z.eqb Pos.eqb Pos.add Pos.succ andb
         qw qx qy qz v3x v3y v3z n_acc n_accbias n_gyr n_gyrbias qone zzero]; unf_t.

Lemma entry_ba_ba : forall dt q ew ea nz,
  calc_q_core std_ix dt q ew ea nz zzero 12 12 = (dt * (n_accbias nz * n_accbias nz))%R.
Proof. intros dt [q1 q2 q3 q4] [e1 e2 e3] [a1 a2 a3] [na nba nw nbw]. entry_tac. reflexivity. Qed.
Lemma entry_q_q : forall dt q ew ea nz, calc_q_core std_ix dt q ew ea nz zzero 6 6 =
  (n_gyr nz * n_gyr nz * (dt - dt * dt * dt * (v3y ew * v3y ew + v3z ew * v3z ew) / 3)
   + dt * dt * dt * (n_gyrbias nz * n_gyrbias nz) / 3)%R.
Proof. intros dt [q1 q2 q3 q4] [e1 e2 e3] [a1 a2 a3] [na nba nw nbw]. entry_tac. field. Qed.
Lemma entry_q_v : forall dt q ew ea nz, calc_q_core std_ix dt q ew ea nz zzero 6 4 = 0%R.
Proof. intros dt [q1 q2 q3 q4] [e1 e2 e3] [a1 a2 a3] [na nba nw nbw]. entry_tac. reflexivity. Qed.
Lemma entry_v_q_hover : forall dt g nz,
  calc_q_core std_ix dt qone (V3 0 0 0) (V3 0 0 g) nz zzero 4 6 = (dt * g * (n_gyr nz * n_gyr nz))%R.
Proof. intros dt g [na nba nw nbw]. entry_tac. field. Qed.

Lemma set_q_vals : forall s k B, map ival (set_q s k B) = map ival s.
Proof. induction s as [|i s IH]; intros [|k] B; cbn; try reflexivity. f_equal. apply IH. Qed.
Lemma calc_q_aux_vals : forall an dt s, map ival (calc_q_aux an dt s) = map ival s.
Proof. induction an as [|[k n] an IH]; intros dt s; cbn; [reflexivity|]. unfold calc_q_aux in IH. rewrite IH. apply set_q_vals. Qed.

(** *** Leftovers in the transition matrix *)

Definition in_blk (a b r c : Z) : bool := (a <=? r) && (r <? a + 3) && ((b <=? c) && (c <? b + 3)).
Definition fd_cell (r c : Z) : bool :=
  in_blk 0 3 r c || in_blk 0 6 r c || in_blk 0 9 r c || in_blk 0 12 r c ||
  in_blk 3 6 r c || in_blk 3 9 r c || in_blk 3 12 r c || in_blk 6 6 r c || in_blk 6 9 r c.
Lemma calc_fd_cells : forall dt q ew ea Fd r c,
  calc_fd std_ix dt q ew ea Fd r c = if fd_cell r c then calc_fd std_ix dt q ew ea zeye r c else Fd r c.
Proof.
  intros dt q ew ea Fd r c. unfold calc_fd, fd_cell, put_block.
  cbn [std_ix xp xv xq xbw xba].
  fold (in_blk 0 3 r c) (in_blk 0 6 r c) (in_blk 0 9 r c) (in_blk 0 12 r c) (in_blk 3 6 r c) (in_blk 3 9 r c)
       (in_blk 3 12 r c) (in_blk 6 6 r c) (in_blk 6 9 r c).
  destruct (in_blk 6 9 r c), (in_blk 6 6 r c), (in_blk 3 12 r c), (in_blk 3 9 r c), (in_blk 3 6 r c),
    (in_blk 0 12 r c), (in_blk 0 9 r c), (in_blk 0 6 r c), (in_blk 0 3 r c); reflexivity.
Qed.

Lemma copy_fresh : forall s dt q ew ea nz Q0, compiles (types s) -> enum_ok (types s) -> q_clean s Q0 ->
  exists A B, copy_q (types s) (calc_q_core std_ix dt q ew ea nz Q0) s = Ok A /\
    copy_q (types s) (calc_q_core std_ix dt q ew ea nz zzero) s = Ok B /\ (forall r c, A r c = B r c) /\ q_clean s A.
Proof.
  intros s dt q ew ea nz Q0 Hc Hn H0.
  destruct (C30_noise_blocks s (calc_q_core std_ix dt q ew ea nz Q0) Hc Hn) as (A & EA & IA & OA).
  destruct (C30_noise_blocks s (calc_q_core std_ix dt q ew ea nz zzero) Hc Hn) as (B & EB & IB & OB).
  exists A, B. split; [exact EA|]. split; [exact EB|].
  assert (OA' : forall r c, ~ in_aux_block s r c -> A r c = calc_q_core std_ix dt q ew ea nz Q0 r c).
  { intros r c N. apply OA. intros j i R1 R2 X. apply N. exists j, i. auto. }
  assert (OB' : forall r c, ~ in_aux_block s r c -> B r c = calc_q_core std_ix dt q ew ea nz zzero r c).
  { intros r c N. apply OB. intros j i R1 R2 X. apply N. exists j, i. auto. }
  split.
  - intros r c. destruct (in_block_dec s r c Hc Hn) as [(j & i & R1 & R2 & X)|N].
    + rewrite (IA j i r c R1 R2 X), (IB j i r c R1 R2 X). reflexivity.
    + rewrite OA', OB' by exact N. apply core_fresh. intros C. apply H0; assumption.
  - intros r c C N. rewrite OA' by exact N. rewrite core_other by exact C. apply H0; assumption.
Qed.
