(** C36, C37: the failure detector and its median. *)

From Coq Require Import Reals ZArith List Bool Lia Lra Permutation Arith.
From Verif Require Import Outcome Geom StateList StateListProofs Propagate HandlersSpec Fuzzy FuzzyProofs.
Import ListNotations.
Open Scope R_scope.

(** ** C37 *)

(** How many samples lie strictly below and strictly above [m]. *)
Fixpoint below (m : R) (l : list R) : nat :=
  match l with [] => 0 | x :: r => (if Rlt_dec x m then 1 else 0) + below m r end%nat.
Fixpoint above (m : R) (l : list R) : nat :=
  match l with [] => 0 | x :: r => (if Rlt_dec m x then 1 else 0) + above m r end%nat.

Lemma below_cnt m l : below m l = cnt (ltb m) l.
Proof.
  unfold cnt. induction l as [|x r IH]; cbn; [reflexivity|]. rewrite IH. unfold ltb at 2.
  destruct (Rlt_dec x m); reflexivity.
Qed.
Lemma above_cnt m l : above m l = cnt (gtb m) l.
Proof.
  unfold cnt. induction l as [|x r IH]; cbn; [reflexivity|]. rewrite IH. unfold gtb at 2.
  destruct (Rlt_dec m x); reflexivity.
Qed.

Theorem C37_median : forall l, l <> [] ->
  In (median l) l /\ (2 * below (median l) l <= length l)%nat /\
  (2 * above (median l) l <= length l)%nat.
Proof.
  intros l hl. split; [apply median_in, hl|].
  destruct (median_rank l hl) as [h1 h2]. rewrite below_cnt, above_cnt.
  assert (h3 := cnt_gt_le (median l) l).
  assert (h4 := Nat.div_mod (length l) 2 ltac:(lia)).
  assert (h5 := Nat.mod_upper_bound (length l) 2 ltac:(lia)). lia.
Qed.
Print Assumptions C37_median.

(** The sorting in the model is no restriction: nth_element may arrange the samples in
    any way that has the small ones before and the big ones after the middle. *)
Theorem C37_any_nth_element : forall l a m b,
  Permutation l (a ++ m :: b) -> length a = (length l / 2)%nat ->
  (forall x, In x a -> x <= m) -> (forall x, In x b -> m <= x) -> m = median l.
Proof. exact nth_element_median. Qed.
Print Assumptions C37_any_nth_element.

(** The order of the samples does not matter. *)
Theorem C37_order : forall l l', Permutation l l' -> median l = median l'.
Proof.
  intros l l' hp. destruct l as [|x r].
  - apply Permutation_nil in hp. subst. reflexivity.
  - assert (hne : x :: r <> []) by discriminate.
    assert (hne' : l' <> []) by (intros ->; apply Permutation_sym, Permutation_nil in hp; discriminate).
    apply (rank_unique (length l' / 2) l'); [|apply median_rank, hne'].
    destruct (median_rank _ hne) as [h1 h2]. rewrite (Permutation_length hp) in h1, h2.
    split; rewrite <- (cnt_perm _ _ _ hp); assumption.
Qed.
Print Assumptions C37_order.

Example C37_example : median [3; 1; 2] = 2 /\ median [4; 1; 3; 2] = 3 /\
  below 3 [4; 1; 3; 2] = 2%nat /\ above 3 [4; 1; 3; 2] = 1%nat.
Proof.
  split; [symmetry; apply (C37_any_nth_element _ [1] 2 [3])|
          split; [symmetry; apply (C37_any_nth_element _ [1; 2] 3 [4])|]].
  - apply perm_trans with [1; 3; 2]; [apply perm_swap|]. apply perm_skip, perm_swap.
  - reflexivity.
  - intros x [<-|[]]; lra.
  - intros x [<-|[]]; lra.
  - apply perm_trans with [1; 4; 3; 2]; [apply perm_swap|]. apply perm_skip.
    apply (Permutation_rev [4; 3; 2]).
  - reflexivity.
  - intros x [<-|[<-|[]]]; lra.
  - intros x [<-|[]]; lra.
  - cbn. repeat match goal with |- context [Rlt_dec ?a ?b] => destruct (Rlt_dec a b); try lra end.
    split; reflexivity.
Qed.

(** ** C36 *)

(** Any sequence of checks and resets, with the attitudes that were not flagged since the
    last reset. *)
Inductive history (k : nat) : fuzzy -> list quat -> Prop :=
| h_reset : history k fuzzy_new []
| h_ok f acc delay buff thres f' s q : history k f acc ->
    check k f delay buff thres = Ok (false, f', s) -> get_quat delay k = Ok q ->
    history k f' (acc ++ [q])
| h_flag f acc delay buff thres f' s : history k f acc ->
    check k f delay buff thres = Ok (true, f', s) -> history k f' acc.

(** Two states of the same, accepted type list. *)
Definition comparable (a b : state) : Prop :=
  types a = types b /\ compiles (types b) /\ forall x, In x (types b) -> vname x <> (-1)%Z.

Lemma check_shape k acc f delay buff thres b f' s : ring acc f ->
  check k f delay buff thres = Ok (b, f', s) ->
  exists q, get_quat delay k = Ok q /\
    (b = true -> f' = f) /\ (b = false -> s = delay /\ ring (acc ++ [q]) f').
Proof.
  intros hr h. unfold check in h.
  destruct (get_quat delay k) as [q| |] eqn:hq; try discriminate. cbn [bind] in h.
  exists q; split; [reflexivity|].
  rewrite (ring_full acc f hr) in h. assert (hi := ring_index acc f hr).
  assert (hm : (length acc mod 30 < 30)%nat) by (apply Nat.mod_upper_bound; lia).
  destruct (set_row_ok (qbuff f) (length acc mod 30) q) as (w & e & _);
    [rewrite (ring_length _ _ hr); lia|].
  assert (hst := ring_store acc f q w hr e).
  destruct (Nat.ltb_spec (length acc) 30) as [hl|hl]; cbn [negb] in h.
  - rewrite hi, e in h. cbn [bind] in h. injection h as <- <- <-. split; [discriminate|auto].
  - destruct (exceeds (errq q (qbuff f)) thres).
    + destruct (for_each (copy_nonprop buff) delay); try discriminate. cbn [bind] in h.
      injection h as <- <- <-. split; [auto|discriminate].
    + rewrite hi, e in h. cbn [bind] in h. injection h as <- <- <-. split; [discriminate|auto].
Qed.

Lemma history_ring k f acc : history k f acc -> ring acc f.
Proof.
  induction 1 as [|f acc delay buff thres f' s q _ IH h hq|f acc delay buff thres f' s _ IH h].
  - apply ring_new.
  - destruct (check_shape _ _ _ _ _ _ _ _ _ IH h) as (q' & hq' & _ & h2).
    rewrite hq in hq'. injection hq' as <-. apply h2; reflexivity.
  - destruct (check_shape _ _ _ _ _ _ _ _ _ IH h) as (q' & _ & h1 & _).
    rewrite h1 by reflexivity. exact IH.
Qed.

(** After any history a check stays inside the 30 rows. *)
Theorem C36_safe : forall k f acc delay buff thres q, history k f acc ->
  comparable buff delay -> get_quat delay k = Ok q ->
  length (qbuff f) = 30%nat /\ exists r, check k f delay buff thres = Ok r.
Proof.
  intros k f acc delay buff thres q hh (h1 & h2 & h3) hq. apply history_ring in hh.
  split; [apply (ring_length _ _ hh)|].
  destruct (check_spec k acc f delay buff thres q hh h1 h2 h3 hq) as (b & f' & s & e & _). eauto.
Qed.
Print Assumptions C36_safe.

(** The rows hold the last (up to) 30 unflagged attitudes, a new one replacing the oldest. *)
Theorem C36_rows : forall k f acc, history k f acc ->
  forall j, (length acc - 30 <= j < length acc)%nat ->
    nth_error (qbuff f) (j mod 30) = nth_error acc j.
Proof. intros k f acc h. exact (ring_rows _ _ (history_ring _ _ _ h)). Qed.
Print Assumptions C36_rows.

Lemma seq_map_nth {A} (d : A) (l : list A) : l = map (fun j => nth j l d) (seq 0 (length l)).
Proof.
  induction l as [|x r IH]; [reflexivity|]. cbn [length seq map nth]. f_equal.
  rewrite <- seq_shift, map_map. exact IH.
Qed.

Lemma skipn_map_nth {A} (d : A) (l : list A) m :
  skipn m l = map (fun j => nth j l d) (seq m (length l - m)).
Proof.
  revert l; induction m as [|m IH]; intros l.
  - rewrite Nat.sub_0_r. apply seq_map_nth.
  - destruct l as [|x r]; [reflexivity|]. cbn [skipn length Nat.sub].
    rewrite IH, <- seq_shift, map_map. reflexivity.
Qed.

Lemma mod_perm m n : (0 < n)%nat -> Permutation (map (fun j => j mod n)%nat (seq m n)) (seq 0 n).
Proof.
  intros hn. apply NoDup_Permutation_bis.
  - assert (hinj : forall i j, (m <= i < m + n)%nat -> (m <= j < m + n)%nat ->
              (i mod n = j mod n)%nat -> i = j).
    { intros i j hi hj he. assert (d1 := Nat.div_mod i n ltac:(lia)).
      assert (d2 := Nat.div_mod j n ltac:(lia)). rewrite he in d1.
      assert (i / n = j / n \/ i / n < j / n \/ j / n < i / n)%nat as [e|[e|e]] by lia; [congruence| |];
        exfalso; nia. }
    assert (hh : forall l, NoDup l -> (forall x, In x l -> m <= x < m + n)%nat ->
                 NoDup (map (fun j => j mod n)%nat l)).
    { induction 1 as [|x r hx hr IH]; cbn; intros h; constructor.
      - rewrite in_map_iff. intros (y & e & hy). apply hx.
        rewrite <- (hinj y x); [exact hy|apply h; auto|apply h; auto|exact e].
      - apply IH. intros; apply h; auto. }
    apply hh; [apply seq_NoDup|]. intros x hx. apply in_seq in hx. lia.
  - rewrite map_length, !seq_length. lia.
  - intros x hx. apply in_map_iff in hx as (y & <- & _). apply in_seq.
    assert (h := Nat.mod_upper_bound y n ltac:(lia)). lia.
Qed.

(** Once 30 attitudes have been stored the memory is exactly the last 30 of them. *)
Theorem C36_memory : forall k f acc, history k f acc -> (30 <= length acc)%nat ->
  Permutation (qbuff f) (lastn 30 acc).
Proof.
  intros k f acc hh hl. apply history_ring in hh. destruct hh as [_ hb hr].
  unfold lastn. rewrite (skipn_map_nth qone).
  replace (length acc - (length acc - 30))%nat with 30%nat by lia.
  rewrite (map_ext_in _ (fun j => nth (j mod 30) (qbuff f) qone)).
  - rewrite <- (map_map (fun j => j mod 30)%nat (fun j => nth j (qbuff f) qone)).
    rewrite (seq_map_nth qone (qbuff f)) at 1. rewrite hb.
    apply Permutation_sym, Permutation_map, mod_perm. lia.
  - intros j hj. apply in_seq in hj. symmetry. apply nth_error_nth.
    rewrite hr by lia. apply nth_error_nth'. lia.
Qed.
Print Assumptions C36_memory.

(** Per-coefficient medians. *)
Definition mid (l : list quat) : quat :=
  Quat (median (map qw l)) (median (map qx l)) (median (map qy l)) (median (map qz l)).

(** A failure is reported exactly if 30 attitudes are stored and the attitude differs from
    the median of the last 30 by more than the threshold. *)
Theorem C36_decision : forall k f acc delay buff thres b f' s q, history k f acc ->
  get_quat delay k = Ok q -> check k f delay buff thres = Ok (b, f', s) ->
  b = negb (length acc <? 30)%nat && exceeds (qmul (qconj q) (mid (lastn 30 acc))) thres.
Proof.
  intros k f acc delay buff thres b f' s q hh hq h.
  unfold check in h. rewrite hq in h. cbn [bind] in h.
  rewrite (ring_full acc f (history_ring _ _ _ hh)) in h.
  destruct (Nat.ltb_spec (length acc) 30) as [hl|hl]; cbn [negb] in *.
  - destruct (set_row _ _ _); try discriminate. injection h as <- _ _. reflexivity.
  - assert (hp := C36_memory _ _ _ hh hl).
    assert (e : errq q (qbuff f) = qmul (qconj q) (mid (lastn 30 acc))).
    { unfold errq, median_quat, mid. do 2 f_equal; apply C37_order, Permutation_map, hp. }
    rewrite e in h. cbn [andb]. destruct (exceeds _ thres).
    + destruct (for_each _ _); try discriminate. injection h as <- _ _. reflexivity.
    + destruct (set_row _ _ _); try discriminate. injection h as <- _ _. reflexivity.
Qed.
Print Assumptions C36_decision.

(** What is exceeded: for a nonzero scalar part, some component of twice the vector part
    over the scalar part is beyond the threshold (the small angle form of the error). *)
Theorem C36_threshold : forall e thres, qw e <> 0 ->
  (exceeds e thres = true <->
   (2 * Rabs (qx e) > thres * Rabs (qw e) \/ 2 * Rabs (qy e) > thres * Rabs (qw e) \/
    2 * Rabs (qz e) > thres * Rabs (qw e))).
Proof.
  intros e thres hw. unfold exceeds. destruct (Req_EM_T (qw e) 0) as [h|_]; [contradiction|].
  assert (hp : 0 < Rabs (qw e)) by (apply Rabs_pos_lt; exact hw).
  assert (hm : max_abs e = Rmax (Rabs (qx e)) (Rmax (Rabs (qy e)) (Rabs (qz e)))).
  { unfold max_abs, Rabs. repeat destruct (Rcase_abs _);
    repeat (unfold Rmax at 1; destruct (Rle_dec _ _)); unfold Rmax, Rmin in *;
    repeat destruct (Rle_dec _ _); lra. }
  assert (hd : thres < max_abs e / Rabs (qw e) * 2 <-> thres * Rabs (qw e) < 2 * max_abs e).
  { assert (eq : max_abs e / Rabs (qw e) * 2 * Rabs (qw e) = 2 * max_abs e) by (field; lra).
    rewrite <- eq. split; intros h; [apply Rmult_lt_compat_r; lra|].
    apply Rmult_lt_reg_r in h; assumption. }
  destruct (Rlt_dec thres _) as [h|h].
  - split; [intros _|reflexivity]. apply hd in h. rewrite hm in h.
    unfold Rmax in h. repeat destruct (Rle_dec _ _) in h; lra.
  - split; [discriminate|]. intros h'. exfalso; apply h, hd. rewrite hm.
    unfold Rmax. repeat destruct (Rle_dec _ _); lra.
Qed.
Print Assumptions C36_threshold.

(** On a reported failure every variable that is not propagated has its value of before the
    update again, the others are left as they are, and the attitude is not stored; without
    a report the state is left alone and the attitude stored. *)
Definition restored (before after result : state) : Prop :=
  length result = length after /\
  forall n i, nth_error after n = Some i ->
    nth_error result n = match vtype (itype i) with CoreProp => Some i | _ => nth_error before n end.

Theorem C36_restores : forall k f acc delay buff thres b f' s q, history k f acc ->
  comparable buff delay -> get_quat delay k = Ok q ->
  check k f delay buff thres = Ok (b, f', s) ->
  if b then f' = f /\ restored buff delay s
  else s = delay /\ (exists row, (row < 30)%nat /\ nth_error (qbuff f') row = Some q /\
                     forall j, j <> row -> nth_error (qbuff f') j = nth_error (qbuff f) j).
Proof.
  intros k f acc delay buff thres b f' s q hh (h1 & h2 & h3) hq h.
  assert (hr := history_ring _ _ _ hh).
  destruct (check_spec k acc f delay buff thres q hr h1 h2 h3 hq) as (b2 & f2 & s2 & e & ht & hf).
  rewrite h in e. injection e as <- <- <-. destruct b.
  - destruct (ht eq_refl) as (_ & -> & hl & hs). split; [reflexivity|]. split; assumption.
  - destruct (hf eq_refl) as (-> & _). split; [reflexivity|].
    exists (length acc mod 30)%nat. split; [apply Nat.mod_upper_bound; lia|].
    unfold check in h. rewrite hq in h. cbn [bind] in h.
    rewrite (ring_full acc f hr) in h. assert (hi := ring_index acc f hr).
    assert (hm : (length acc mod 30 < 30)%nat) by (apply Nat.mod_upper_bound; lia).
    destruct (set_row_ok (qbuff f) (length acc mod 30) q) as (w & e & _ & h4 & h5);
      [rewrite (ring_length _ _ hr); lia|].
    destruct (Nat.ltb_spec (length acc) 30) as [hl|hl]; cbn [negb] in h.
    + rewrite hi, e in h. cbn [bind] in h. injection h as <-. split; assumption.
    + destruct (exceeds (errq q (qbuff f)) thres).
      * destruct (for_each (copy_nonprop buff) delay); discriminate.
      * rewrite hi, e in h. cbn [bind] in h. injection h as <-. split; assumption.
Qed.
Print Assumptions C36_restores.

(** The same for a whole update: "before" is the state the update started from. *)
Theorem C36_update_restores : forall k aug san fixed b_w b_a f acc data thres s f' s',
  history k f acc -> compiles (types s) -> (forall x, In x (types s) -> vname x <> (-1)%Z) ->
  (forall s1 d, types s1 = types s -> types (san s1 s d) = types s) ->
  apply_correction_full k aug san fixed b_w b_a f data thres s = Ok (true, f', s') ->
  f' = f /\ forall n i, nth_error s n = Some i -> vtype (itype i) <> CoreProp ->
    nth_error s' n = Some i.
Proof.
  intros k aug san fixed b_w b_a f acc data thres s f' s' hh hc hn hsan h.
  unfold apply_correction_full in h.
  destruct (apply_correction fixed b_w b_a (aug data) s) as [s1| |] eqn:e1; try discriminate.
  cbn [bind] in h.
  assert (ht1 : types s1 = types s).
  { assert (hcor : forall d, correct d s = Ok s1 -> types s1 = types s).
    { intros d hd. apply for_each_inv in hd. symmetry. clear - hd.
      revert hd. generalize (types s) at 1 as L. intros L hd. unfold types.
      induction hd as [|i i' r r' hi _ IH]; [reflexivity|]. cbn. f_equal; [|exact IH].
      unfold correct_one in hi.
      destruct (vkd (itype i)), (ival i); try discriminate;
        destruct (block _ _ _); try discriminate; injection hi as <-; reflexivity. }
    unfold apply_correction in e1. destruct fixed; [|exact (hcor _ e1)].
    destruct (enum_type (types s) b_a), (enum_type (types s) b_w); try discriminate. exact (hcor _ e1). }
  specialize (hsan s1 (aug data) ht1). set (s2 := san s1 s (aug data)) in *.
  destruct (check_shape _ _ _ _ _ _ _ _ _ (history_ring _ _ _ hh) h) as (q & hq & hf & _).
  specialize (hf eq_refl). split; [exact hf|]. intros n i hi hv.
  assert (hcmp : comparable s s2) by (split; [congruence|split; rewrite hsan; assumption]).
  destruct (C36_restores _ _ _ _ _ _ _ _ _ _ hh hcmp hq h) as [_ [hl hs]].
  destruct (nth_error s2 n) as [j|] eqn:hj.
  - rewrite (hs n j hj).
    assert (itype j = itype i) as ->.
    { apply (f_equal (fun l => nth_error l n)) in hsan.
      rewrite (types_nth _ _ _ hj), (types_nth _ _ _ hi) in hsan. congruence. }
    destruct (vtype (itype i)); [contradiction|assumption..].
  - exfalso. apply nth_error_None in hj.
    assert (n < length s)%nat by (apply nth_error_Some; congruence).
    assert (length s2 = length s) by (rewrite <- !types_length; congruence). lia.
Qed.
Print Assumptions C36_update_restores.

(** *** A run: 30 identity attitudes, then a quarter turn is an outlier; the scale is put
    back and the position kept. *)
Definition two (x l : R) (q : quat) : state :=
  [Inst (Svar (KVec 1) 0 CoreProp 0) (VVec [x]) (fun _ _ => 0) false;
   Inst (Svar KQuat 1 AuxNonDrift 0) (VQuat q) (fun _ _ => 0) false;
   Inst (Svar (KVec 1) 2 Aux 0) (VVec [l]) (fun _ _ => 0) false].

Lemma two_ok x l q x' l' q' : comparable (two x l q) (two x' l' q').
Proof.
  split; [reflexivity|]. split; [reflexivity|].
  intros v hv. cbn in hv. repeat (destruct hv as [<-|hv]; [discriminate|]). contradiction.
Qed.

Lemma median_same x l : l <> [] -> (forall y, In y l -> y = x) -> median l = x.
Proof. intros hl h. apply h, median_in, hl. Qed.

Lemma fill n f acc : history 1 f acc -> acc = repeat qone n ->
  exists f' , history 1 f' (repeat qone (30 - n + n)) .
Proof.
  remember (30 - n)%nat as m. revert n f acc Heqm. induction m as [|m IH]; intros n f acc hm hh ->.
  - eauto.
  - destruct (two_ok 0 0 qone 0 0 qone) as (t1 & t2 & t3).
    destruct (check_spec 1 _ f (two 0 0 qone) (two 0 0 qone) 1 qone (history_ring _ _ _ hh)
                t1 t2 t3 eq_refl) as (b & f' & s & e & h1 & h2).
    destruct b; [destruct (h1 eq_refl) as [hl _]; rewrite repeat_length in hl; lia|].
    assert (hh' : history 1 f' (repeat qone n ++ [qone])) by (eapply h_ok; eauto).
    rewrite <- repeat_cons in hh'. change (qone :: repeat qone n) with (repeat qone (S n)) in hh'.
    destruct (IH (S n) f' _ ltac:(lia) hh' eq_refl) as (f2 & h).
    exists f2. replace (S m + n)%nat with (m + S n)%nat by lia. exact h.
Qed.

Example C36_example : exists f f' s,
  history 1 f (repeat qone 30) /\
  check 1 f (two 5 6 (Quat (8/10) (6/10) 0 0)) (two 1 2 qone) (1/10) = Ok (true, f', s) /\
  f' = f /\ map ival s = [VVec [5]; VQuat qone; VVec [2]].
Proof.
  destruct (fill 0 fuzzy_new [] (h_reset 1) eq_refl) as (f & hh). cbn [Nat.sub Nat.add] in hh.
  destruct (C36_safe 1 f _ (two 5 6 (Quat (8/10) (6/10) 0 0)) (two 1 2 qone) (1/10)
              (Quat (8/10) (6/10) 0 0) hh (two_ok _ _ _ _ _ _) eq_refl) as (_ & [[b f'] s] & e).
  assert (hq : get_quat (two 5 6 (Quat (8/10) (6/10) 0 0)) 1 = Ok (Quat (8/10) (6/10) 0 0))
    by reflexivity.
  assert (hb := C36_decision _ _ _ _ _ _ _ _ _ _ hh hq e).
  replace (mid (lastn 30 (repeat qone 30))) with qone in hb.
  2: { unfold mid. change (lastn 30 (repeat qone 30)) with (repeat qone 30). unfold qone at 1.
       f_equal; symmetry; apply median_same; try discriminate;
         intros y hy; apply in_map_iff in hy as (z & <- & hz); apply repeat_spec in hz;
         rewrite hz; reflexivity. }
  replace (exceeds _ (1/10)) with true in hb.
  2: { symmetry. apply C36_threshold.
       - cbn. lra.
       - left. cbn. unfold Rabs. repeat destruct (Rcase_abs _); lra. }
  cbn in hb. subst b.
  destruct (C36_restores _ _ _ _ _ _ _ _ _ _ hh (two_ok _ _ _ _ _ _) hq e) as [hf [hl hs]].
  exists f, f', s. split; [exact hh|]. split; [exact e|]. split; [exact hf|].
  destruct s as [|a [|b [|c [|d s]]]]; try discriminate hl.
  assert (ha := hs 0%nat _ eq_refl). assert (hb := hs 1%nat _ eq_refl). assert (hc := hs 2%nat _ eq_refl).
  cbn in ha, hb, hc. injection ha as ->. injection hb as ->. injection hc as ->. reflexivity.
Qed.
