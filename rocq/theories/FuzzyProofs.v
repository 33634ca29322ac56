(** Lemmas for the failure detector and the median. *)

From Coq Require Import Reals ZArith List Bool Lia Lra Permutation Sorted Arith.
From Verif Require Import Outcome Geom StateList StateListProofs Propagate Fuzzy.
Import ListNotations.
Open Scope R_scope.

(** ** Median *)

Definition cnt (p : R -> bool) (l : list R) : nat := length (filter p l).
Definition ltb (m x : R) : bool := if Rlt_dec x m then true else false.
Definition leb (m x : R) : bool := if Rle_dec x m then true else false.
Definition gtb (m x : R) : bool := if Rlt_dec m x then true else false.

Lemma cnt_perm p a b : Permutation a b -> cnt p a = cnt p b.
Proof.
  unfold cnt. induction 1 as [|x l l' _ IH|x y l|l1 l2 l3 _ IH1 _ IH2]; cbn.
  - reflexivity.
  - destruct (p x); cbn; lia.
  - destruct (p x), (p y); reflexivity.
  - congruence.
Qed.

Lemma cnt_app p a b : cnt p (a ++ b) = (cnt p a + cnt p b)%nat.
Proof. unfold cnt. rewrite filter_app, app_length. reflexivity. Qed.

Lemma cnt_le_length p l : (cnt p l <= length l)%nat.
Proof. unfold cnt. induction l as [|x r IH]; cbn; [lia|]. destruct (p x); cbn; lia. Qed.

Lemma cnt_mono p q l : (forall x, p x = true -> q x = true) -> (cnt p l <= cnt q l)%nat.
Proof.
  intros h. unfold cnt. induction l as [|x r IH]; cbn; [lia|].
  destruct (p x) eqn:e; [rewrite (h x e); cbn; lia|]. destruct (q x); cbn; lia.
Qed.

Lemma cnt_all p l : (forall x, In x l -> p x = true) -> cnt p l = length l.
Proof.
  intros h. unfold cnt. induction l as [|x r IH]; cbn; [reflexivity|].
  rewrite (h x (or_introl eq_refl)). cbn. rewrite IH; [reflexivity|].
  intros; apply h; right; assumption.
Qed.

Lemma cnt_none p l : (forall x, In x l -> p x = false) -> cnt p l = 0%nat.
Proof.
  intros h. unfold cnt. induction l as [|x r IH]; cbn; [reflexivity|].
  rewrite (h x (or_introl eq_refl)). apply IH. intros; apply h; right; assumption.
Qed.

Lemma cnt_gt_le m l : (cnt (gtb m) l + cnt (leb m) l = length l)%nat.
Proof.
  unfold cnt. induction l as [|x r IH]; cbn; [reflexivity|].
  unfold gtb at 1, leb at 1. destruct (Rlt_dec m x), (Rle_dec x m); cbn; try lia; lra.
Qed.

(** [m] is the element of rank [k]. *)
Definition rank (k : nat) (m : R) (l : list R) : Prop :=
  (cnt (ltb m) l <= k)%nat /\ (k < cnt (leb m) l)%nat.

Lemma rank_unique k l m m' : rank k m l -> rank k m' l -> m = m'.
Proof.
  assert (h : forall m m', rank k m l -> rank k m' l -> ~ m < m').
  { clear. intros m m' [_ h1] [h2 _] hlt.
    assert (cnt (leb m) l <= cnt (ltb m') l)%nat; [|lia].
    apply cnt_mono. unfold leb, ltb. intros x. destruct (Rle_dec x m); [|discriminate].
    destruct (Rlt_dec x m'); [reflexivity|lra]. }
  intros h1 h2. assert (a := h m m' h1 h2). assert (b := h m' m h2 h1). lra.
Qed.

Lemma rank_split k m l a b : Permutation l (a ++ m :: b) -> length a = k ->
  (forall x, In x a -> x <= m) -> (forall x, In x b -> m <= x) -> rank k m l.
Proof.
  intros hp hl ha hb. split.
  - rewrite (cnt_perm _ _ _ hp), cnt_app.
    assert (cnt (ltb m) (m :: b) = 0%nat).
    { apply cnt_none. unfold ltb. intros x [<-|hx]; destruct (Rlt_dec _ m); auto; [lra|].
      specialize (hb x hx); lra. }
    assert (h := cnt_le_length (ltb m) a). lia.
  - rewrite (cnt_perm _ _ _ hp), cnt_app.
    assert (e : cnt (leb m) a = length a).
    { apply cnt_all. unfold leb. intros x hx. destruct (Rle_dec x m); [reflexivity|].
      specialize (ha x hx); lra. }
    rewrite e. unfold cnt at 1; cbn. unfold leb at 1. destruct (Rle_dec m m); [cbn; lia|lra].
Qed.

Lemma insert_perm x l : Permutation (x :: l) (insert x l).
Proof.
  induction l as [|y r IH]; cbn; [apply Permutation_refl|].
  destruct (Rle_dec x y); [apply Permutation_refl|].
  etransitivity; [apply perm_swap|]. constructor. exact IH.
Qed.

Lemma sort_perm l : Permutation l (sort l).
Proof.
  induction l as [|x r IH]; cbn; [constructor|].
  etransitivity; [constructor; exact IH|apply insert_perm].
Qed.

Lemma insert_sorted x l : StronglySorted Rle l -> StronglySorted Rle (insert x l).
Proof.
  induction 1 as [|y r hs IH hf]; cbn; [repeat constructor|].
  destruct (Rle_dec x y) as [h|h].
  - constructor; [constructor; assumption|]. constructor; [exact h|].
    eapply Forall_impl; [|exact hf]. cbn; intros; lra.
  - constructor; [exact IH|]. rewrite Forall_forall in *. intros z hz.
    apply (Permutation_in _ (Permutation_sym (insert_perm x r))) in hz.
    destruct hz as [<-|hz]; [lra|auto].
Qed.

Lemma sort_sorted l : StronglySorted Rle (sort l).
Proof. induction l; cbn; [constructor|apply insert_sorted; assumption]. Qed.

Lemma sorted_split l k : StronglySorted Rle l -> (k < length l)%nat ->
  exists a b, l = a ++ nth k l 0 :: b /\ length a = k /\
    (forall x, In x a -> x <= nth k l 0) /\ (forall x, In x b -> nth k l 0 <= x).
Proof.
  intros hs; revert k; induction hs as [|y r hs IH hf]; intros k hk; cbn in hk; [lia|].
  rewrite Forall_forall in hf. destruct k as [|k].
  - exists [], r. cbn. repeat split; auto. intros x [].
  - destruct (IH k) as (a & b & e & hl & ha & hb); [lia|].
    exists (y :: a), b. cbn. rewrite <- e. repeat split; auto.
    intros x [<-|hx]; [|auto]. apply hf. apply nth_In. lia.
Qed.

Lemma median_rank l : l <> [] -> rank (length l / 2) (median l) l.
Proof.
  intros hne.
  assert (hlt : (length l / 2 < length (sort l))%nat).
  { rewrite <- (Permutation_length (sort_perm l)).
    apply Nat.div_lt; [destruct l; [contradiction|cbn; lia]|lia]. }
  assert (e : median l = nth (length l / 2) (sort l) 0) by (destruct l; [contradiction|reflexivity]).
  destruct (sorted_split (sort l) (length l / 2) (sort_sorted l) hlt) as (a & b & e1 & e2 & h1 & h2).
  rewrite e. eapply rank_split; eauto.
  rewrite <- e1. apply sort_perm.
Qed.

Lemma median_in l : l <> [] -> In (median l) l.
Proof.
  intros hne. destruct l as [|x r]; [contradiction|].
  apply (Permutation_in _ (Permutation_sym (sort_perm (x :: r)))).
  unfold median. apply nth_In. rewrite <- (Permutation_length (sort_perm (x :: r))).
  apply Nat.div_lt; [cbn; lia|lia].
Qed.

(** Whatever implementation of nth_element: any arrangement with smaller elements
    before and greater elements after the middle has the median there. *)
Lemma nth_element_median l a m b : Permutation l (a ++ m :: b) -> length a = (length l / 2)%nat ->
  (forall x, In x a -> x <= m) -> (forall x, In x b -> m <= x) -> m = median l.
Proof.
  intros hp hl ha hb. eapply (rank_unique (length l / 2) l).
  - eapply rank_split; eauto.
  - apply median_rank. intros ->. apply Permutation_nil in hp. destruct a; discriminate.
Qed.

(** ** Ring buffer *)

Record ring (acc : list quat) (f : fuzzy) : Prop := {
  ring_timer : timer f = if (length acc <? 30)%nat then (length acc + 1)%nat
                         else (31 + length acc mod 30)%nat;
  ring_length : length (qbuff f) = 30%nat;
  ring_rows : forall j, (length acc - 30 <= j < length acc)%nat ->
    nth_error (qbuff f) (j mod 30) = nth_error acc j }.

Lemma ring_new : ring [] fuzzy_new.
Proof. constructor; [reflexivity|reflexivity|cbn; intros; lia]. Qed.

Lemma set_row_ok l : forall i q, (i < length l)%nat -> exists l', set_row l i q = Ok l' /\
  length l' = length l /\ nth_error l' i = Some q /\
  (forall j, j <> i -> nth_error l' j = nth_error l j).
Proof.
  induction l as [|x r IH]; intros i q h; cbn in h; [lia|].
  destruct i as [|i]; cbn [set_row].
  - exists (q :: r). repeat split; auto. intros [|j]; [contradiction|reflexivity].
  - destruct (IH i q) as (r' & e & h1 & h2 & h3); [lia|]. rewrite e. cbn [bind].
    exists (x :: r'). repeat split; auto; [cbn; lia|].
    intros [|j] hj; [reflexivity|]. cbn. apply h3. lia.
Qed.

Lemma nth_error_snoc {A} (l : list A) x j : nth_error (l ++ [x]) j =
  if (j <? length l)%nat then nth_error l j else if (j =? length l)%nat then Some x else None.
Proof.
  destruct (Nat.ltb_spec j (length l)); [apply nth_error_app1; assumption|].
  rewrite nth_error_app2 by assumption.
  destruct (Nat.eqb_spec j (length l)); [subst; rewrite Nat.sub_diag; reflexivity|].
  apply nth_error_None. cbn; lia.
Qed.

(** Writing the next sample keeps the ring. *)
Lemma ring_store acc f q b : ring acc f ->
  set_row (qbuff f) (length acc mod 30) q = Ok b ->
  ring (acc ++ [q]) (Fuzzy (if (length acc <? 30)%nat then timer f + 1
                            else timer f mod nBuff + nBuff + 1)%nat b).
Proof.
  intros [ht hl hr] hs.
  assert (hm : (length acc mod 30 < 30)%nat) by (apply Nat.mod_upper_bound; lia).
  destruct (set_row_ok (qbuff f) (length acc mod 30) q) as (b' & e & h1 & h2 & h3); [lia|].
  rewrite hs in e. injection e as <-.
  constructor; cbn [timer qbuff]; rewrite ?app_length; cbn [length].
  - rewrite ht. unfold nBuff. destruct (Nat.ltb_spec (length acc) 30).
    + destruct (Nat.ltb_spec (length acc + 1) 30); [reflexivity|].
      replace (length acc) with 29%nat by lia. reflexivity.
    + destruct (Nat.ltb_spec (length acc + 1) 30); [lia|].
      replace (31 + length acc mod 30)%nat with (1 + length acc mod 30 + 1 * 30)%nat by lia.
      rewrite Nat.mod_add by lia. rewrite Nat.add_mod_idemp_r by lia.
      replace (length acc + 1)%nat with (1 + length acc)%nat by lia. lia.
  - lia.
  - intros j hj. rewrite nth_error_snoc.
    destruct (Nat.ltb_spec j (length acc)) as [hj'|hj'].
    + rewrite h3; [apply hr; lia|].
      intros heq. assert (j mod 30 = length acc mod 30)%nat as hmod by assumption.
      assert (d1 := Nat.div_mod j 30 ltac:(lia)).
      assert (d2 := Nat.div_mod (length acc) 30 ltac:(lia)). lia.
    + replace j with (length acc) by lia. rewrite Nat.eqb_refl. exact h2.
Qed.

Lemma ring_index acc f : ring acc f ->
  (if (length acc <? 30)%nat then timer f - 1 else timer f - nBuff - 1)%nat = (length acc mod 30)%nat.
Proof.
  intros [ht _ _]. rewrite ht. unfold nBuff. destruct (Nat.ltb_spec (length acc) 30).
  - rewrite Nat.mod_small by assumption. lia.
  - lia.
Qed.

Lemma ring_full acc f : ring acc f -> (nBuff <? timer f)%nat = negb (length acc <? 30)%nat.
Proof.
  intros [ht _ _]. rewrite ht. unfold nBuff. destruct (Nat.ltb_spec (length acc) 30); cbn [negb].
  - apply Nat.ltb_ge; lia.
  - apply Nat.ltb_lt; lia.
Qed.

Lemma copy_nonprop_all old new : types old = types new -> compiles (types new) -> named (types new) ->
  exists s, for_each (copy_nonprop old) new = Ok s /\ length s = length new /\
    forall k i, nth_error new k = Some i ->
      nth_error s k = match vtype (itype i) with CoreProp => Some i | _ => nth_error old k end.
Proof.
  intros Ht Hc Hn.
  assert (Hlen : length old = length new) by (rewrite <- types_length, Ht, types_length; reflexivity).
  assert (Hone : forall k i, nth_error new k = Some i ->
            exists i', copy_nonprop old i = Ok i' /\
              Some i' = match vtype (itype i) with CoreProp => Some i | _ => nth_error old k end).
  { intros k i Hk. unfold copy_nonprop.
    assert (Hg : get_var old (vname (itype i)) = nth_error old k).
    { rewrite (compiles_names _ Hc Hn k (itype i)) by (apply types_nth, Hk).
      apply get_var_at. rewrite Hlen. apply nth_error_Some. rewrite Hk. discriminate. }
    destruct (nth_error_same_length new old k i (eq_sym Hlen) Hk) as [o Ho].
    rewrite Hg, Ho. destruct (vtype (itype i)); eauto. }
  destruct (for_each_all (copy_nonprop old) new) as (s & Hf & HF).
  { intros j Hj. apply In_nth_error in Hj as [k Hk].
    destruct (Hone k j Hk) as (i' & Hi' & _). eauto. }
  exists s. split; [exact Hf|].
  split; [symmetry; eapply F2_length, HF|].
  intros k i Hk. destruct (Forall2_nth _ _ _ k _ HF Hk) as (i' & Hi' & He).
  destruct (Hone k i Hk) as (i2 & He2 & Hs). rewrite He in He2. injection He2 as <-.
  rewrite Hi', Hs. reflexivity.
Qed.

(** One check. *)
Lemma check_spec k acc f delay buff thres q : ring acc f ->
  types buff = types delay -> compiles (types delay) -> named (types delay) ->
  get_quat delay k = Ok q ->
  exists b f' s, check k f delay buff thres = Ok (b, f', s) /\
  (b = true -> (30 <= length acc)%nat /\ f' = f /\ length s = length delay /\
     forall n i, nth_error delay n = Some i ->
       nth_error s n = match vtype (itype i) with CoreProp => Some i | _ => nth_error buff n end) /\
  (b = false -> s = delay /\ ring (acc ++ [q]) f').
Proof.
  intros hr ht hc hn hq. unfold check. rewrite hq. cbn [bind].
  rewrite (ring_full acc f hr).
  assert (hi := ring_index acc f hr).
  assert (hm : (length acc mod 30 < 30)%nat) by (apply Nat.mod_upper_bound; lia).
  destruct (set_row_ok (qbuff f) (length acc mod 30) q) as (b & e & _);
    [rewrite (ring_length _ _ hr); lia|].
  assert (hst := ring_store acc f q b hr e).
  destruct (Nat.ltb_spec (length acc) 30) as [hl|hl]; cbn [negb].
  - rewrite hi, e. cbn [bind]. do 3 eexists; split; [reflexivity|].
    split; [discriminate|]. intros _; split; [reflexivity|]. exact hst.
  - destruct (exceeds (errq q (qbuff f)) thres).
    + destruct (copy_nonprop_all buff delay ht hc hn) as (s & es & hls & hs).
      rewrite es. cbn [bind]. do 3 eexists; split; [reflexivity|].
      split; [|discriminate]. intros _. repeat split; auto.
    + rewrite hi, e. cbn [bind]. do 3 eexists; split; [reflexivity|].
      split; [discriminate|]. intros _; split; [reflexivity|]. exact hst.
Qed.
