(** Lemmas about state variable lists. *)

From Coq Require Import Reals ZArith List Bool Lia Lra.
From Verif Require Import Outcome Geom StateList.
Import ListNotations.
Open Scope Z_scope.

(** ** Sums of lengths *)

Fixpoint sum_len (cnt : option svar -> Z) (l : list svar) : Z :=
  match l with [] => 0 | x :: l' => cnt (Some x) + sum_len cnt l' end.

Definition pos_cnt (cnt : option svar -> Z) : Prop := cnt None = 0 /\ forall x, 0 <= cnt (Some x).

Lemma pos_corr : pos_cnt corr_len.
Proof. split; [reflexivity|]. intros x. cbn. destruct (vkd x); lia. Qed.
Lemma pos_state : pos_cnt state_len.
Proof. split; [reflexivity|]. intros x. cbn. destruct (vkd x); lia. Qed.
Lemma pos_core_state : pos_cnt core_state_len.
Proof. split; [reflexivity|]. intros x. cbn. destruct (vtype x), (vkd x); lia. Qed.
Lemma pos_core_err : pos_cnt core_err_len.
Proof. split; [reflexivity|]. intros x. cbn. destruct (vtype x), (vkd x); lia. Qed.

Lemma sum_nonneg : forall cnt l, pos_cnt cnt -> 0 <= sum_len cnt l.
Proof. intros cnt l [_ H]. induction l as [|x l IH]; cbn; [lia|]. specialize (H x). lia. Qed.

Lemma sum_app : forall cnt l1 l2, sum_len cnt (l1 ++ l2) = sum_len cnt l1 + sum_len cnt l2.
Proof. intros cnt l1 l2. induction l1 as [|x l1 IH]; cbn; lia. Qed.

Lemma count_linear_sum : forall cnt l, cnt None = 0 -> count_linear cnt l = sum_len cnt l.
Proof. intros cnt l H. induction l as [|x l IH]; cbn; [rewrite H; lia|]. rewrite IH; lia. Qed.

Lemma count_states_sum : forall cnt l, pos_cnt cnt -> compiles l -> count_states cnt l = sum_len cnt l.
Proof.
  intros cnt l [H _] Hc. unfold count_states. rewrite Hc. destruct l as [|x l]; [reflexivity|].
  rewrite count_linear_sum by exact H. lia.
Qed.

(** ** Indexing *)

Lemma index_errors_nonneg : forall l k, 0 <= index_errors l k.
Proof.
  induction l as [|x l IH]; intros k; cbn [index_errors].
  - destruct (_ =? _); lia.
  - specialize (IH (k + 1)). destruct (_ =? _); lia.
Qed.

Definition named (l : list svar) : Prop := forall x, In x l -> vname x <> -1.

Lemma index_names : forall l k, index_errors l k = 0 -> named l ->
  forall i x, nth_error l i = Some x -> vname x = k + Z.of_nat i.
Proof.
  induction l as [|y l IH]; intros k He Hn i x Hi; [destruct i; discriminate|].
  cbn [index_errors] in He. pose proof (index_errors_nonneg l (k + 1)) as Hp.
  assert (vname y <> -1) as Hy by (apply Hn; left; reflexivity).
  destruct (enum_or (Some y) k =? k) eqn:Ek; [|lia].
  unfold enum_or, enum_name in Ek. apply Z.eqb_neq in Hy. rewrite Hy in Ek. apply Z.eqb_eq in Ek.
  destruct i as [|i]; cbn in Hi.
  - injection Hi as <-. lia.
  - rewrite (IH (k + 1) ltac:(lia) (fun z Hz => Hn z (or_intror Hz)) i x Hi). lia.
Qed.

Lemma compiles_names : forall l, compiles l -> named l ->
  forall i x, nth_error l i = Some x -> vname x = Z.of_nat i.
Proof.
  intros l Hc Hn i x Hi. destruct l as [|y l]; [destruct i; discriminate|].
  rewrite (index_names (y :: l) 0 Hc Hn i x Hi). lia.
Qed.

Lemma compiles_inj : forall l, compiles l -> named l ->
  forall i j x, nth_error l i = Some x -> nth_error l j = Some x -> i = j.
Proof.
  intros l Hc Hn i j x Hi Hj.
  pose proof (compiles_names l Hc Hn i x Hi). pose proof (compiles_names l Hc Hn j x Hj). lia.
Qed.

Lemma same_type_refl : forall x, same_type x x = true.
Proof. intros x. unfold same_type. destruct (svar_eq_dec x x); [reflexivity|contradiction]. Qed.
Lemma same_type_neq : forall x y, x <> y -> same_type x y = false.
Proof. intros x y H. unfold same_type. destruct (svar_eq_dec x y); [contradiction|reflexivity]. Qed.

Lemma compute_start_found : forall cnt pre x post cur, ~ In x pre ->
  compute_start cnt x (pre ++ x :: post) false cur = cur + sum_len cnt pre.
Proof.
  intros cnt pre x post. induction pre as [|p pre IH]; intros cur Hn; cbn [app compute_start sum_len].
  - rewrite same_type_refl. destruct post; cbn; lia.
  - rewrite (same_type_neq p x) by (intros ->; apply Hn; left; reflexivity).
    rewrite IH by (intros Hi; apply Hn; right; exact Hi). lia.
Qed.

Lemma compute_start_missing : forall cnt l x cur, ~ In x l ->
  compute_start cnt x l false cur = cur + sum_len cnt l - 1.
Proof.
  intros cnt l x. induction l as [|p l IH]; intros cur Hn; cbn [compute_start sum_len]; [lia|].
  rewrite (same_type_neq p x) by (intros ->; apply Hn; left; reflexivity).
  rewrite IH by (intros Hi; apply Hn; right; exact Hi). lia.
Qed.

Lemma start_index_at : forall cnt l i x, compiles l -> named l -> nth_error l i = Some x ->
  start_index cnt l x = sum_len cnt (firstn i l).
Proof.
  intros cnt l i x Hc Hn Hi. unfold start_index. rewrite Hc, Z.add_0_r.
  assert (Hsplit : l = firstn i l ++ x :: skipn (S i) l).
  { clear Hc Hn. revert i Hi. induction l as [|y l IH]; intros [|i] Hi; cbn in *; try discriminate.
    - injection Hi as ->. reflexivity.
    - f_equal. apply IH, Hi. }
  assert (Hni : ~ In x (firstn i l)).
  { intros Hin. apply In_nth_error in Hin as [j Hj].
    assert (Hlt : (j < i)%nat).
    { pose proof (firstn_le_length i l). apply Nat.lt_le_trans with (length (firstn i l)).
      - apply nth_error_Some. rewrite Hj. discriminate.
      - apply firstn_le_length. }
    assert (nth_error l j = Some x).
    { rewrite Hsplit, nth_error_app1; [exact Hj|]. apply nth_error_Some. rewrite Hj. discriminate. }
    pose proof (compiles_inj l Hc Hn i j x Hi H). lia. }
  destruct l as [|y l]; [destruct i; discriminate|].
  destruct i as [|i].
  - cbn in Hi. injection Hi as ->. rewrite same_type_refl. reflexivity.
  - rewrite (same_type_neq x y).
    + remember (firstn (S i) (y :: l)) as pre. rewrite Hsplit. rewrite compute_start_found by exact Hni. lia.
    + intros ->. apply Hni. cbn. left. reflexivity.
Qed.

Lemma start_index_missing : forall cnt l x, compiles l -> l <> [] -> ~ In x l ->
  start_index cnt l x = sum_len cnt l - 1.
Proof.
  intros cnt l x Hc Hl Hn. unfold start_index. rewrite Hc, Z.add_0_r.
  destruct l as [|y l]; [contradiction|].
  rewrite (same_type_neq x y) by (intros ->; apply Hn; left; reflexivity).
  rewrite compute_start_missing by exact Hn. lia.
Qed.

(** ** Tiling *)

Lemma firstn_snoc : forall {A : Type} (l : list A) i x, nth_error l i = Some x ->
  firstn (S i) l = firstn i l ++ [x].
Proof.
  intros A l. induction l as [|y l IH]; intros [|i] x Hi; cbn in *; try discriminate.
  - injection Hi as ->. reflexivity.
  - f_equal. apply IH, Hi.
Qed.

Lemma sum_firstn_S : forall cnt l i x, nth_error l i = Some x ->
  sum_len cnt (firstn (S i) l) = sum_len cnt (firstn i l) + cnt (Some x).
Proof. intros. rewrite (firstn_snoc l i x H), sum_app. cbn. lia. Qed.

Lemma sum_firstn_le : forall cnt l i j, pos_cnt cnt -> (i <= j)%nat ->
  sum_len cnt (firstn i l) <= sum_len cnt (firstn j l).
Proof.
  intros cnt l i j Hp Hij. replace j with (i + (j - i))%nat by lia.
  generalize (j - i)%nat as m. clear Hij j. intros m.
  revert i. induction l as [|x l IH]; intros i; [rewrite !firstn_nil; lia|].
  destruct i as [|i]; [cbn [firstn sum_len]; apply sum_nonneg, Hp|].
  cbn [Nat.add firstn sum_len]. specialize (IH i). lia.
Qed.

Lemma tile_order : forall cnt l i j x y, pos_cnt cnt -> compiles l -> named l ->
  nth_error l i = Some x -> nth_error l j = Some y -> (i < j)%nat ->
  start_index cnt l x + cnt (Some x) <= start_index cnt l y.
Proof.
  intros cnt l i j x y Hp Hc Hn Hi Hj Hij.
  rewrite (start_index_at cnt l i x), (start_index_at cnt l j y) by assumption.
  rewrite <- (sum_firstn_S cnt l i x Hi). apply sum_firstn_le; [exact Hp|lia].
Qed.

Lemma tile_inside : forall cnt l i x, pos_cnt cnt -> compiles l -> named l -> nth_error l i = Some x ->
  0 <= start_index cnt l x /\ start_index cnt l x + cnt (Some x) <= count_states cnt l.
Proof.
  intros cnt l i x Hp Hc Hn Hi. rewrite (start_index_at cnt l i x) by assumption.
  rewrite count_states_sum by assumption. split; [apply sum_nonneg, Hp|].
  rewrite <- (sum_firstn_S cnt l i x Hi).
  rewrite <- (firstn_all l) at 2. apply sum_firstn_le; [exact Hp|].
  apply nth_error_Some. rewrite Hi. discriminate.
Qed.

Lemma sum_slot : forall cnt l k, pos_cnt cnt -> 0 <= k < sum_len cnt l ->
  exists i x, nth_error l i = Some x /\
    sum_len cnt (firstn i l) <= k < sum_len cnt (firstn i l) + cnt (Some x).
Proof.
  intros cnt l k Hp. revert k. induction l as [|x l IH]; intros k Hk; cbn in Hk; [lia|].
  destruct (Z_lt_dec k (cnt (Some x))) as [Hlt|Hge].
  - exists 0%nat, x. cbn. split; [reflexivity|lia].
  - destruct (IH (k - cnt (Some x)) ltac:(lia)) as (i & y & Hi & Hb).
    exists (S i), y. cbn [nth_error firstn sum_len]. split; [exact Hi|lia].
Qed.

Lemma tile_cover : forall cnt l k, pos_cnt cnt -> compiles l -> named l ->
  (0 <= k < count_states cnt l <->
   exists x, In x l /\ start_index cnt l x <= k < start_index cnt l x + cnt (Some x)).
Proof.
  intros cnt l k Hp Hc Hn. split.
  - rewrite count_states_sum by assumption. intros Hk.
    destruct (sum_slot cnt l k Hp Hk) as (i & x & Hi & Hb).
    exists x. split; [eapply nth_error_In, Hi|]. rewrite (start_index_at cnt l i x) by assumption. exact Hb.
  - intros (x & Hin & Hb). apply In_nth_error in Hin as [i Hi].
    pose proof (tile_inside cnt l i x Hp Hc Hn Hi). lia.
Qed.

(** A slot belongs to one variable only. *)
Lemma tile_unique : forall cnt l i j x y k, pos_cnt cnt -> compiles l -> named l ->
  nth_error l i = Some x -> nth_error l j = Some y ->
  start_index cnt l x <= k < start_index cnt l x + cnt (Some x) ->
  start_index cnt l y <= k < start_index cnt l y + cnt (Some y) -> i = j.
Proof.
  intros cnt l i j x y k Hp Hc Hn Hi Hj Hx Hy.
  destruct (Nat.lt_trichotomy i j) as [H|[H|H]]; [|exact H|].
  - pose proof (tile_order cnt l i j x y Hp Hc Hn Hi Hj H). lia.
  - pose proof (tile_order cnt l j i y x Hp Hc Hn Hj Hi H). lia.
Qed.

(** ** The failure-detection reference *)

Definition nd (x : svar) : bool := is_nondrift (Some x).
Definition ndq (x : svar) : bool := is_quat (Some x) && is_nondrift (Some x).

Lemma find_best_quat : forall l b, (exists x, In x l /\ ndq x = true) \/ ndq b = true ->
  exists x, (In x l \/ x = b) /\ ndq x = true /\ find_best l (vname b) (ndq b) = vname x.
Proof.
  induction l as [|y l IH]; intros b H.
  - exists b. destruct H as [(x & [] & _)|H]. split; [right; reflexivity|]. split; [exact H|reflexivity].
  - cbn [find_best]. fold (ndq y). fold (nd y). change (enum_name (Some y)) with (vname y).
    destruct (ndq y) eqn:Ey.
    + rewrite orb_true_r. destruct (IH y) as (x & Hx & Hq & Hf); [right; exact Ey|].
      rewrite Ey in Hf. exists x. split; [|split; [exact Hq|exact Hf]].
      left. destruct Hx as [Hx| ->]; [right; exact Hx|left; reflexivity].
    + rewrite orb_false_r. destruct (ndq b) eqn:Eb.
      * rewrite andb_false_r. destruct (IH b) as (x & Hx & Hq & Hf); [right; exact Eb|].
        rewrite Eb in Hf. exists x. split; [|split; [exact Hq|exact Hf]].
        destruct Hx as [Hx| ->]; [left; right; exact Hx|right; reflexivity].
      * rewrite andb_true_r.
        assert (H' : exists x, In x l /\ ndq x = true).
        { destruct H as [(x & [->|Hx] & Hq)|H]; [congruence|eauto|congruence]. }
        destruct (nd y) eqn:En.
        -- destruct (IH y) as (x & Hx & Hq & Hf); [left; exact H'|]. rewrite Ey in Hf.
           exists x. split; [|split; [exact Hq|exact Hf]].
           left. destruct Hx as [Hx| ->]; [right; exact Hx|left; reflexivity].
        -- destruct (IH b) as (x & Hx & Hq & Hf); [left; exact H'|]. rewrite Eb in Hf.
           exists x. split; [|split; [exact Hq|exact Hf]].
           destruct Hx as [Hx| ->]; [left; right; exact Hx|right; reflexivity].
Qed.

Lemma find_best_vec : forall l b, (forall x, In x l -> ndq x = false) ->
  (exists x, In x l /\ nd x = true /\ find_best l b false = vname x) \/
  ((forall x, In x l -> nd x = false) /\ find_best l b false = b).
Proof.
  induction l as [|y l IH]; intros b H.
  - right. split; [intros x []|reflexivity].
  - cbn [find_best]. fold (ndq y). fold (nd y). change (enum_name (Some y)) with (vname y).
    rewrite (H y (or_introl eq_refl)). rewrite andb_true_r. cbn [orb].
    assert (Hl : forall x, In x l -> ndq x = false) by (intros x Hx; apply H; right; exact Hx).
    destruct (nd y) eqn:En.
    + left. destruct (IH (vname y) Hl) as [(x & Hx & Hd & Hf)|(Hd & Hf)].
      * exists x. split; [right; exact Hx|]. split; assumption.
      * exists y. split; [left; reflexivity|]. split; assumption.
    + destruct (IH b Hl) as [(x & Hx & Hd & Hf)|(Hd & Hf)].
      * left. exists x. split; [right; exact Hx|]. split; assumption.
      * right. split; [|exact Hf]. intros x [->|Hx]; [exact En|apply Hd, Hx].
Qed.

Lemma best_spec : forall l, compiles l -> named l ->
  (exists x, In x l /\ ndq x = true) /\
    (exists i x, nth_error l i = Some x /\ ndq x = true /\ best_nondrift l = Z.of_nat i) \/
  (forall x, In x l -> ndq x = false) /\ (exists x, In x l /\ nd x = true) /\
    (exists i x, nth_error l i = Some x /\ nd x = true /\ best_nondrift l = Z.of_nat i) \/
  (forall x, In x l -> nd x = false) /\ best_nondrift l = -1.
Proof.
  intros l Hc Hn.
  assert (Hb : best_nondrift l = find_best l (-1) false) by (destruct l; reflexivity).
  rewrite Hb.
  destruct (existsb ndq l) eqn:E.
  - left. apply existsb_exists in E. split; [exact E|].
    destruct (find_best_quat l (Svar (KVec 0) (-1) Aux 0)) as (x & Hx & Hq & Hf); [left; exact E|].
    cbn in Hf. destruct Hx as [Hx| ->]; [|discriminate Hq].
    apply In_nth_error in Hx as [i Hi]. exists i, x. split; [exact Hi|]. split; [exact Hq|].
    rewrite Hf. apply compiles_names with (l := l); assumption.
  - assert (Hq : forall x, In x l -> ndq x = false).
    { intros x Hx. destruct (ndq x) eqn:Ex; [|reflexivity].
      rewrite (proj2 (existsb_exists ndq l) (ex_intro _ x (conj Hx Ex))) in E. discriminate. }
    right. destruct (find_best_vec l (-1) Hq) as [(x & Hx & Hd & Hf)|(Hd & Hf)].
    + left. split; [exact Hq|]. split; [eauto|].
      apply In_nth_error in Hx as [i Hi]. exists i, x. split; [exact Hi|]. split; [exact Hd|].
      rewrite Hf. apply compiles_names with (l := l); assumption.
    + right. split; assumption.
Qed.

(** ** for_each *)

Lemma for_each_all : forall f s, (forall i, In i s -> exists i', f i = Ok i') ->
  exists s', for_each f s = Ok s' /\ Forall2 (fun i i' => f i = Ok i') s s'.
Proof.
  intros f s. induction s as [|i s IH]; intros H; cbn.
  - exists []. split; [reflexivity|constructor].
  - destruct (H i (or_introl eq_refl)) as [i' Hi]. rewrite Hi. cbn.
    destruct IH as (s' & Hs & HF); [intros j Hj; apply H; right; exact Hj|].
    rewrite Hs. cbn. exists (i' :: s'). split; [reflexivity|constructor; assumption].
Qed.

Lemma for_each_inv : forall f s s', for_each f s = Ok s' -> Forall2 (fun i i' => f i = Ok i') s s'.
Proof.
  intros f s. induction s as [|i s IH]; intros s' H; cbn in H.
  - injection H as <-. constructor.
  - destruct (f i) as [i'| |] eqn:Ei; try discriminate. cbn in H.
    destruct (for_each f s) as [r| |] eqn:Er; try discriminate. cbn in H. injection H as <-.
    constructor; [exact Ei|apply IH; reflexivity].
Qed.

Lemma F2_length : forall {A B : Type} {P : A -> B -> Prop} {l l'}, Forall2 P l l' -> length l = length l'.
Proof. intros A B P l l' H. induction H; cbn; congruence. Qed.

Lemma Forall2_nth : forall {A B : Type} (P : A -> B -> Prop) l l' i x, Forall2 P l l' ->
  nth_error l i = Some x -> exists y, nth_error l' i = Some y /\ P x y.
Proof.
  intros A B P l l' i x H. revert i. induction H as [|a b l l' Hab H IH]; intros [|i] Hi; cbn in *; try discriminate.
  - injection Hi as ->. eauto.
  - apply IH, Hi.
Qed.

(** ** Corrections *)

Lemma block_ok : forall data start len, 0 <= start -> start + Z.of_nat len <= Z.of_nat (length data) ->
  block data start len = Ok (firstn len (skipn (Z.to_nat start) data)).
Proof.
  intros data start len H1 H2. unfold block.
  apply Z.leb_le in H1. apply Z.leb_le in H2. rewrite H1, H2. reflexivity.
Qed.

Lemma nth_firstn : forall (l : list R) n k d, (k < n)%nat -> nth k (firstn n l) d = nth k l d.
Proof.
  induction l as [|x l IH]; intros [|n] [|k] d H; cbn; try reflexivity; try lia.
  apply IH. lia.
Qed.
Lemma nth_skipn : forall (l : list R) m k d, nth k (skipn m l) d = nth (m + k) l d.
Proof.
  induction l as [|x l IH]; intros [|m] k d; cbn; try reflexivity.
  - destruct k; reflexivity.
  - apply IH.
Qed.

Lemma zip_with_length : forall f a b, length (zip_with f a b) = Nat.min (length a) (length b).
Proof. intros f a. induction a as [|x a IH]; intros [|y b]; cbn; [reflexivity..|]. rewrite IH. reflexivity. Qed.
Lemma zip_with_nth : forall f a b k d, (k < length a)%nat -> (k < length b)%nat ->
  nth k (zip_with f a b) d = f (nth k a d) (nth k b d).
Proof.
  intros f a. induction a as [|x a IH]; intros [|y b] [|k] d Ha Hb; cbn in *; try lia; [reflexivity|].
  apply IH; lia.
Qed.

Lemma seg_length : forall (data : list R) start len, 0 <= start ->
  start + Z.of_nat len <= Z.of_nat (length data) ->
  length (firstn len (skipn (Z.to_nat start) data)) = len.
Proof. intros. rewrite firstn_length, skipn_length. lia. Qed.
Lemma seg_nth : forall (data : list R) start len k, 0 <= start -> (k < len)%nat ->
  nth k (firstn len (skipn (Z.to_nat start) data)) 0%R = nth (Z.to_nat start + k) data 0%R.
Proof. intros. rewrite nth_firstn by assumption. apply nth_skipn. Qed.

Definition quat_plain (l : list svar) : Prop := forall x, In x l -> vkd x = KQuat -> vopt x = 0.

(** What [correct] must do to the variable at position [i] whose segment starts
    at [start]. *)
Definition corrected (data : list R) (start : nat) (i i' : inst) : Prop :=
  itype i' = itype i /\ iQ i' = iQ i /\ ireset i' = ireset i /\
  match ival i, ival i' with
  | VVec x, VVec x' =>
    length x' = length x /\
    forall k, (k < length x)%nat ->
      nth k x' 0%R = if Z.odd (vopt (itype i))
                     then (nth k x 0 * nth (start + k) data 0)%R
                     else (nth k x 0 + nth (start + k) data 0)%R
  | VQuat q, VQuat q' =>
    q' = qnormalize (qmul q (small_quat (V3 (nth start data 0%R) (nth (start + 1) data 0%R)
                                            (nth (start + 2) data 0%R))))
  | _, _ => False
  end.

Lemma types_nth : forall s i v, nth_error s i = Some v -> nth_error (types s) i = Some (itype v).
Proof. intros s i v H. unfold types. rewrite nth_error_map, H. reflexivity. Qed.

Lemma correct_one_spec : forall s data k i, compiles (types s) -> named (types s) ->
  quat_plain (types s) -> Forall shape_ok s ->
  Z.of_nat (length data) = count_states corr_len (types s) ->
  nth_error s k = Some i ->
  exists i', correct_one (types s) data i = Ok i' /\
             corrected data (Z.to_nat (sum_len corr_len (firstn k (types s)))) i i'.
Proof.
  intros s data k i Hc Hn Hq Hs Hlen Hk.
  pose proof (types_nth s k i Hk) as Ht.
  pose proof (tile_inside corr_len _ k _ pos_corr Hc Hn Ht) as [Hlo Hhi].
  pose proof (start_index_at corr_len _ k _ Hc Hn Ht) as Hst.
  assert (shape_ok i) as Hsh by (eapply Forall_forall; [exact Hs|eapply nth_error_In, Hk]).
  unfold correct_one. unfold shape_ok in Hsh.
  destruct (vkd (itype i)) as [n|] eqn:Ek; destruct (ival i) as [x|q] eqn:Ev; try contradiction.
  - assert (Hcl : corr_len (Some (itype i)) = Z.of_nat n) by (cbn; rewrite Ek; reflexivity).
    rewrite Hcl in Hhi. rewrite Hst in *.
    rewrite block_ok by lia. cbn [bind].
    eexists. split; [reflexivity|]. unfold corrected. cbn [itype iQ ireset ival]. rewrite Ev.
    assert (Hl : length (firstn n (skipn (Z.to_nat (sum_len corr_len (firstn k (types s)))) data)) = n)
      by (apply seg_length; lia).
    split; [reflexivity|]. split; [reflexivity|]. split; [reflexivity|].
    unfold multiplicative. split.
    + destruct (Z.odd _); rewrite zip_with_length; lia.
    + intros j Hj. destruct (Z.odd _); rewrite zip_with_nth by lia; rewrite seg_nth by lia; reflexivity.
  - assert (Hv : Svar KQuat (vname (itype i)) (vtype (itype i)) 0 = itype i).
    { pose proof (Hq (itype i) (nth_error_In _ _ Ht) Ek) as Ho.
      destruct (itype i); cbn in *; subst; reflexivity. }
    assert (Hcl : corr_len (Some (itype i)) = 3) by (cbn; rewrite Ek; reflexivity).
    rewrite Hv. rewrite Hcl in Hhi. rewrite Hst in *.
    rewrite block_ok by (change (Z.of_nat 3) with 3; lia). cbn [bind].
    eexists. split; [reflexivity|]. unfold corrected. cbn [itype iQ ireset ival]. rewrite Ev.
    split; [reflexivity|]. split; [reflexivity|]. split; [reflexivity|].
    set (st := Z.to_nat (sum_len corr_len (firstn k (types s)))).
    f_equal. f_equal. f_equal.
    assert (Hl : length (firstn 3 (skipn st data)) = 3%nat)
      by (apply seg_length; [exact Hlo|change (Z.of_nat 3) with 3; lia]).
    assert (Hnth : forall j, (j < 3)%nat -> nth j (firstn 3 (skipn st data)) 0%R = nth (st + j) data 0%R)
      by (intros j Hj; apply seg_nth; [exact Hlo|exact Hj]).
    destruct (firstn 3 (skipn st data)) as [|a [|b [|c [|]]]]; try discriminate Hl.
    cbn [to_v3].
    pose proof (Hnth 0%nat ltac:(lia)) as H0. pose proof (Hnth 1%nat ltac:(lia)) as H1.
    pose proof (Hnth 2%nat ltac:(lia)) as H2. cbn in H0, H1, H2. rewrite Nat.add_0_r in H0.
    subst. reflexivity.
Qed.

Lemma correct_spec : forall s data, compiles (types s) -> named (types s) ->
  quat_plain (types s) -> Forall shape_ok s ->
  Z.of_nat (length data) = count_states corr_len (types s) ->
  exists s', correct data s = Ok s' /\ length s' = length s /\
    forall k i, nth_error s k = Some i ->
      exists i', nth_error s' k = Some i' /\
                 corrected data (Z.to_nat (sum_len corr_len (firstn k (types s)))) i i'.
Proof.
  intros s data Hc Hn Hq Hs Hlen.
  destruct (for_each_all (correct_one (types s) data) s) as (s' & Hf & HF).
  { intros i Hi. apply In_nth_error in Hi as [k Hk].
    destruct (correct_one_spec s data k i) as (i' & Hi' & _); eauto. }
  exists s'. split; [exact Hf|]. split; [symmetry; eapply F2_length, HF|].
  intros k i Hk. destruct (Forall2_nth _ _ _ k i HF Hk) as (i' & Hk' & Hi').
  destruct (correct_one_spec s data k i) as (i2 & Hi2 & Hspec); try assumption.
  rewrite Hi' in Hi2. injection Hi2 as <-. eauto.
Qed.

(** ** Fixed biases *)

Lemma zero_seg_length : forall start len data, length (zero_seg start len data) = length data.
Proof. intros. unfold zero_seg. rewrite map_length, combine_length, seq_length. lia. Qed.

Lemma zero_seg_nth : forall start len data k, 0 <= start ->
  nth k (zero_seg start len data) 0%R =
  if (start <=? Z.of_nat k) && (Z.of_nat k <? start + len) then 0%R else nth k data 0%R.
Proof.
  intros start len data k H0. unfold zero_seg.
  assert (Hg : forall d a j, nth j (map (fun p => if (start <=? Z.of_nat (fst p)) && (Z.of_nat (fst p) <? start + len)
                then 0%R else snd p) (combine (seq a (length d)) d)) 0%R =
               if (start <=? Z.of_nat (a + j)) && (Z.of_nat (a + j) <? start + len) then 0%R else nth j d 0%R).
  { intros d. induction d as [|x d IH]; intros a j; cbn.
    - destruct j; destruct (_ && _); reflexivity.
    - destruct j as [|j]; cbn.
      + rewrite Nat.add_0_r. reflexivity.
      + rewrite IH. replace (S a + j)%nat with (a + S j)%nat by lia. reflexivity. }
  rewrite Hg. reflexivity.
Qed.

(** [corrected] only looks at the variable's own segment. *)
Lemma corrected_seg : forall d1 d2 start i i1 i2,
  (forall k, (k < Z.to_nat (corr_len (Some (itype i))))%nat -> nth (start + k) d1 0%R = nth (start + k) d2 0%R) ->
  shape_ok i -> corrected d1 start i i1 -> corrected d2 start i i2 -> i1 = i2.
Proof.
  intros d1 d2 start i i1 i2 Hd Hsh (A1 & A2 & A3 & A4) (B1 & B2 & B3 & B4).
  unfold shape_ok in Hsh. destruct i1 as [t1 v1 q1 r1], i2 as [t2 v2 q2 r2]. cbn [itype iQ ireset ival] in *.
  subst t1 q1 r1 t2 q2 r2. f_equal. cbn [corr_len] in Hd.
  destruct (vkd (itype i)) as [n|]; destruct (ival i) as [x|q]; try contradiction.
  - destruct v1 as [x1|]; [|contradiction]. destruct v2 as [x2|]; [|contradiction]. f_equal.
    destruct A4 as [L1 N1], B4 as [L2 N2]. apply nth_ext with (d := 0%R) (d' := 0%R); [congruence|].
    intros k Hk. rewrite N1, N2 by lia. rewrite Hd by lia. reflexivity.
  - destruct v1 as [|p1]; [contradiction|]. destruct v2 as [|p2]; [contradiction|]. subst. f_equal.
    change (Z.to_nat 3) with 3%nat in Hd.
    rewrite <- (Hd 1%nat), <- (Hd 2%nat) by lia.
    specialize (Hd 0%nat ltac:(lia)). rewrite Nat.add_0_r in Hd. rewrite Hd. reflexivity.
Qed.

(** ** Copying *)

Lemma get_var_at : forall s k, (k < length s)%nat -> get_var s (Z.of_nat k) = nth_error s k.
Proof. intros s k H. unfold get_var. destruct (Z.of_nat k <? 0) eqn:E; [lia|]. rewrite Nat2Z.id. reflexivity. Qed.

Lemma nth_error_same_length : forall {A B : Type} (l : list A) (m : list B) k x, length l = length m ->
  nth_error l k = Some x -> exists y, nth_error m k = Some y.
Proof.
  intros A B l m k x Hl Hk. destruct (nth_error m k) eqn:E; [eauto|].
  apply nth_error_None in E. assert (k < length l)%nat by (apply nth_error_Some; rewrite Hk; discriminate). lia.
Qed.

Lemma types_length : forall s, length (types s) = length s.
Proof. intros. apply map_length. Qed.

Lemma prepare_spec : forall old new, types old = types new -> compiles (types new) -> named (types new) ->
  exists s, prepare_propagation old new = Ok s /\ length s = length new /\
    forall k i, nth_error new k = Some i ->
      nth_error s k = match vtype (itype i) with
                      | CoreProp => Some (reset_one i)
                      | _ => nth_error old k
                      end.
Proof.
  intros old new Ht Hc Hn.
  assert (Hlen : length old = length new) by (rewrite <- types_length, Ht, types_length; reflexivity).
  assert (Hone : forall k i, nth_error new k = Some i ->
            exists i', copy_nonprop old (reset_one i) = Ok i' /\
              Some i' = match vtype (itype i) with CoreProp => Some (reset_one i) | _ => nth_error old k end).
  { intros k i Hk. unfold copy_nonprop. cbn [reset_one itype].
    assert (Hg : get_var old (vname (itype i)) = nth_error old k).
    { rewrite (compiles_names _ Hc Hn k (itype i)) by (apply types_nth, Hk).
      apply get_var_at. rewrite Hlen. apply nth_error_Some. rewrite Hk. discriminate. }
    destruct (nth_error_same_length new old k i (eq_sym Hlen) Hk) as [o Ho].
    rewrite Hg, Ho. destruct (vtype (itype i)); eauto. }
  unfold prepare_propagation.
  destruct (for_each_all (copy_nonprop old) (map reset_one new)) as (s & Hf & HF).
  { intros j Hj. apply in_map_iff in Hj as (i & <- & Hi). apply In_nth_error in Hi as [k Hk].
    destruct (Hone k i Hk) as (i' & Hi' & _). eauto. }
  exists s. split; [exact Hf|].
  split; [rewrite <- (F2_length HF), map_length; reflexivity|].
  intros k i Hk.
  assert (Hk' : nth_error (map reset_one new) k = Some (reset_one i)) by (rewrite nth_error_map, Hk; reflexivity).
  destruct (Forall2_nth _ _ _ k _ HF Hk') as (i' & Hi' & He).
  destruct (Hone k i Hk) as (i2 & He2 & Hs). rewrite He in He2. injection He2 as <-. rewrite Hi', Hs. reflexivity.
Qed.

Lemma apply_init_spec : forall init target, types init = types target ->
  compiles (types target) -> named (types target) ->
  exists s, apply_init init target = Ok s /\ length s = length target /\
    forall k i o, nth_error target k = Some i -> nth_error init k = Some o ->
      nth_error s k = Some (if ireset o then o else i).
Proof.
  intros init target Ht Hc Hn.
  assert (Hlen : length init = length target) by (rewrite <- types_length, Ht, types_length; reflexivity).
  assert (Hone : forall k i, nth_error target k = Some i ->
            exists o, nth_error init k = Some o /\ copy_init init i = Ok (if ireset o then o else i)).
  { intros k i Hk. unfold copy_init.
    rewrite (compiles_names _ Hc Hn k (itype i)) by (apply types_nth, Hk).
    rewrite get_var_at by (rewrite Hlen; apply nth_error_Some; rewrite Hk; discriminate).
    destruct (nth_error_same_length target init k i (eq_sym Hlen) Hk) as [o Ho]. rewrite Ho. eauto. }
  destruct (for_each_all (copy_init init) target) as (s & Hf & HF).
  { intros i Hi. apply In_nth_error in Hi as [k Hk]. destruct (Hone k i Hk) as (o & _ & H). eauto. }
  exists s. split; [exact Hf|]. split; [symmetry; eapply F2_length, HF|].
  intros k i o Hk Ho. destruct (Forall2_nth _ _ _ k i HF Hk) as (i' & Hi' & He).
  destruct (Hone k i Hk) as (o' & Ho' & He'). rewrite Ho in Ho'. injection Ho' as <-.
  rewrite He in He'. injection He' as ->. exact Hi'.
Qed.

(** ** Process noise blocks *)

Definition aux (x : svar) : bool := match vtype x with Aux | AuxNonDrift => true | _ => false end.
Definition covers (l : list svar) (x : svar) (k : Z) : Prop :=
  start_index corr_len l x <= k < start_index corr_len l x + corr_len (Some x).

Lemma copy_q_spec : forall l s Q,
  compiles l -> named l -> (forall i, In i s -> In (itype i) l) ->
  (forall i j, In i s -> In j s -> itype i = itype j -> i = j) ->
  exists Q', copy_q l Q s = Ok Q' /\
    (forall i r c, In i s -> aux (itype i) = true -> covers l (itype i) r -> covers l (itype i) c ->
       Q' r c = iQ i (Z.to_nat (r - start_index corr_len l (itype i)))
                     (Z.to_nat (c - start_index corr_len l (itype i)))) /\
    (forall r c, (forall i, In i s -> aux (itype i) = true -> ~ (covers l (itype i) r /\ covers l (itype i) c)) ->
       Q' r c = Q r c).
Proof.
  intros l s. induction s as [|i s IH]; intros Q Hc Hn Hin Hinj.
  - exists Q. split; [reflexivity|]. split; [intros i r c []|reflexivity].
  - destruct (In_nth_error _ _ (Hin i (or_introl eq_refl))) as [k Hk].
    pose proof (tile_inside corr_len l k _ pos_corr Hc Hn Hk) as [Hlo Hhi].
    assert (Hstep : exists Q1, copy_q_one l Q i = Ok Q1 /\
      (forall r c, aux (itype i) = true -> covers l (itype i) r -> covers l (itype i) c ->
         Q1 r c = iQ i (Z.to_nat (r - start_index corr_len l (itype i)))
                     (Z.to_nat (c - start_index corr_len l (itype i)))) /\
      (forall r c, (aux (itype i) = true -> ~ (covers l (itype i) r /\ covers l (itype i) c)) -> Q1 r c = Q r c)).
    { unfold copy_q_one.
      assert (Hw : exists Q1, write_block (count_states corr_len l) Q (start_index corr_len l (itype i))
                     (corr_len (Some (itype i))) (iQ i) = Ok Q1 /\
         (forall r c, covers l (itype i) r -> covers l (itype i) c ->
            Q1 r c = iQ i (Z.to_nat (r - start_index corr_len l (itype i)))
                     (Z.to_nat (c - start_index corr_len l (itype i)))) /\
         (forall r c, ~ (covers l (itype i) r /\ covers l (itype i) c) -> Q1 r c = Q r c)).
      { unfold write_block. apply Z.leb_le in Hlo, Hhi. rewrite Hlo, Hhi. cbn [andb].
        eexists. split; [reflexivity|]. unfold covers. split.
        - intros r c Hr Hcc.
          replace (start_index corr_len l (itype i) <=? r) with true by (symmetry; apply Z.leb_le; lia).
          replace (r <? start_index corr_len l (itype i) + corr_len (Some (itype i))) with true by (symmetry; apply Z.ltb_lt; lia).
          replace (start_index corr_len l (itype i) <=? c) with true by (symmetry; apply Z.leb_le; lia).
          replace (c <? start_index corr_len l (itype i) + corr_len (Some (itype i))) with true by (symmetry; apply Z.ltb_lt; lia).
          reflexivity.
        - intros r c Hno.
          destruct (start_index corr_len l (itype i) <=? r) eqn:E1; [|reflexivity].
          destruct (r <? start_index corr_len l (itype i) + corr_len (Some (itype i))) eqn:E2; [|reflexivity].
          destruct (start_index corr_len l (itype i) <=? c) eqn:E3; [|reflexivity].
          destruct (c <? start_index corr_len l (itype i) + corr_len (Some (itype i))) eqn:E4; [|reflexivity].
          exfalso. apply Hno. lia. }
      destruct Hw as (Q1 & W1 & W2 & W3).
      unfold aux. destruct (vtype (itype i)).
      - exists Q. split; [reflexivity|]. split; [discriminate|reflexivity].
      - exists Q. split; [reflexivity|]. split; [discriminate|reflexivity].
      - exists Q1. split; [exact W1|]. split; [intros; apply W2; assumption|]. intros r c H. apply W3, H. reflexivity.
      - exists Q1. split; [exact W1|]. split; [intros; apply W2; assumption|]. intros r c H. apply W3, H. reflexivity. }
    destruct Hstep as (Q1 & S1 & S2 & S3).
    destruct (IH Q1) as (Q' & R1 & R2 & R3); try assumption.
    { intros j Hj. apply Hin. right. exact Hj. }
    { intros a b Ha Hb. apply Hinj; right; assumption. }
    exists Q'. split; [cbn; rewrite S1; exact R1|]. split.
    + intros j r c [<-|Hj] Ha Hr Hcc; [|apply R2; assumption].
      destruct (in_dec svar_eq_dec (itype i) (map itype s)) as [Hdup|Hnd].
      * apply in_map_iff in Hdup as (j & Ej & Hj).
        pose proof (Hinj j i (or_intror Hj) (or_introl eq_refl) Ej) as <-. apply R2; assumption.
      * rewrite R3; [apply S2; assumption|].
        intros j Hj Haj [Hjr _]. apply Hnd. apply in_map_iff. exists j. split; [|exact Hj].
        destruct (In_nth_error _ _ (Hin j (or_intror Hj))) as [k' Hk'].
        pose proof (tile_unique corr_len l k' k _ _ r pos_corr Hc Hn Hk' Hk Hjr Hr). subst k'. congruence.
    + intros r c Hno. rewrite R3.
      * apply S3. intros Ha. apply Hno; [left; reflexivity|exact Ha].
      * intros j Hj Haj. apply Hno; [right; exact Hj|exact Haj].
Qed.

(** ** Core variables first *)

Definition core_first (l : list svar) : Prop :=
  exists a b, l = a ++ b /\ Forall (fun x => is_core x = true) a /\ Forall (fun x => is_core x = false) b.

Lemma core_err_core : forall x, is_core x = true -> core_err_len (Some x) = corr_len (Some x).
Proof. intros [k n t o]. cbn. destruct t; intros H; try discriminate; destruct k; reflexivity. Qed.
Lemma core_err_aux : forall x, is_core x = false -> core_err_len (Some x) = 0.
Proof. intros [k n t o]. cbn. destruct t; intros H; try discriminate; destruct k; reflexivity. Qed.
Lemma core_state_core : forall x, is_core x = true -> core_state_len (Some x) = state_len (Some x).
Proof. intros [k n t o]. cbn. destruct t; intros H; try discriminate; destruct k; reflexivity. Qed.
Lemma core_state_aux : forall x, is_core x = false -> core_state_len (Some x) = 0.
Proof. intros [k n t o]. cbn. destruct t; intros H; try discriminate; destruct k; reflexivity. Qed.

Lemma sum_eq_on : forall c1 c2 l, (forall x, In x l -> c1 (Some x) = c2 (Some x)) -> sum_len c1 l = sum_len c2 l.
Proof.
  intros c1 c2 l. induction l as [|x l IH]; intros H; cbn; [reflexivity|].
  rewrite (H x (or_introl eq_refl)), IH; [reflexivity|]. intros y Hy. apply H. right. exact Hy.
Qed.

Lemma core_prefix : forall (c1 c2 : option svar -> Z) l k,
  pos_cnt c1 -> pos_cnt c2 ->
  (forall x, is_core x = true -> c1 (Some x) = c2 (Some x)) ->
  (forall x, is_core x = false -> c1 (Some x) = 0) ->
  compiles l -> named l -> core_first l ->
  (0 <= k < count_states c1 l <->
   exists x, In x l /\ is_core x = true /\ start_index c2 l x <= k < start_index c2 l x + c2 (Some x)).
Proof.
  intros c1 c2 l k P1 P2 Heq H0 Hc Hn (a & b & -> & Ha & Hb).
  rewrite Forall_forall in Ha, Hb.
  assert (Hs : sum_len c1 (a ++ b) = sum_len c2 a).
  { rewrite sum_app. rewrite (sum_eq_on c1 c2 a) by (intros x Hx; apply Heq, Ha, Hx).
    rewrite (sum_eq_on c1 (fun _ => 0) b) by (intros x Hx; apply H0, Hb, Hx).
    assert (Hz : forall l, sum_len (fun _ => 0) l = 0) by (induction l; cbn; lia). rewrite Hz. lia. }
  rewrite (count_states_sum c1 _ P1 Hc), Hs. split.
  - intros Hk. destruct (sum_slot c2 a k P2 Hk) as (i & x & Hi & Hb').
    assert (Hin : In x a) by (eapply nth_error_In, Hi).
    exists x. split; [apply in_or_app; left; exact Hin|]. split; [apply Ha, Hin|].
    assert (Hlt : (i < length a)%nat) by (apply nth_error_Some; rewrite Hi; discriminate).
    rewrite (start_index_at c2 (a ++ b) i x) by (try assumption; rewrite nth_error_app1; assumption).
    rewrite firstn_app. replace (i - length a)%nat with 0%nat by lia. rewrite app_nil_r. exact Hb'.
  - intros (x & Hin & Hcore & Hk). apply in_app_or in Hin as [Hin|Hin]; [|rewrite (Hb x Hin) in Hcore; discriminate].
    apply In_nth_error in Hin as [i Hi].
    assert (Hlt : (i < length a)%nat) by (apply nth_error_Some; rewrite Hi; discriminate).
    rewrite (start_index_at c2 (a ++ b) i x) in Hk by (try assumption; rewrite nth_error_app1; assumption).
    rewrite firstn_app in Hk. replace (i - length a)%nat with 0%nat in Hk by lia. rewrite app_nil_r in Hk.
    pose proof (sum_nonneg c2 (firstn i a) P2).
    pose proof (sum_firstn_S c2 a i x Hi). pose proof (sum_firstn_le c2 a (S i) (length a) P2 ltac:(lia)).
    rewrite firstn_all in H2. lia.
Qed.
