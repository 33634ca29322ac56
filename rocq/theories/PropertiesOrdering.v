(** C26: what the compile-time check of the order of the core variables guarantees. *)

From Coq Require Import ZArith List Lia.
From Verif Require Import StateList Ordering StateListProofs PropertiesState.
Import ListNotations.
Open Scope Z_scope.

(** No variable is empty. *)
Definition nonempty (l : list svar) : Prop := forall x, In x l -> 0 < err_width x.
(** The enum constant [i] names a variable with three entries in the error state. *)
Definition three (l : list svar) (i : nat) : Prop := exists x, nth_error l i = Some x /\ err_width x = 3.

Lemma sum_strict l i j : nonempty l -> (i < j <= length l)%nat ->
  sum_len corr_len (firstn i l) < sum_len corr_len (firstn j l).
Proof.
  intros Hl [Hij Hj]. destruct (nth_error l i) as [x|] eqn:E; [|apply nth_error_None in E; lia].
  assert (A := sum_firstn_le corr_len l (S i) j pos_corr Hij).
  rewrite (sum_firstn_S corr_len l i x E) in A. assert (B := Hl x (nth_error_In _ _ E)).
  change (corr_len (Some x)) with (err_width x) in A. lia.
Qed.

Lemma asserted_at l i k e : compiles l -> enum_ok l -> nonempty l ->
  (k <= length l)%nat -> sum_len corr_len (firstn k l) = e ->
  (i < length l)%nat -> (asserted l i e <-> i = k).
Proof.
  intros Hc Hn Hl Hk He Hi. unfold asserted, enum_type.
  destruct (nth_error l i) as [x|] eqn:E; [|apply nth_error_None in E; lia].
  rewrite (start_index_at corr_len l i x Hc Hn E). split; [|intros ->; exact He].
  intros H. destruct (Nat.lt_trichotomy i k) as [K|[K|K]]; [|exact K|].
  - assert (A := sum_strict l i k Hl (conj K Hk)). lia.
  - assert (A := sum_strict l k i Hl ltac:(lia)). lia.
Qed.

(** With three entries for each of the variables named p, v, q, b_w the assertions hold exactly
    if the five variables named come first and in this order; CalcQCore then writes row and
    column 3k of the error state for the k-th of them. *)
Theorem C26_core_order : forall l p v q b_w b_a, compiles l -> enum_ok l -> nonempty l ->
  three l p -> three l v -> three l q -> three l b_w -> (b_a < length l)%nat ->
  (ordering_asserted l p v q b_w b_a <->
   p = 0%nat /\ v = 1%nat /\ q = 2%nat /\ b_w = 3%nat /\ b_a = 4%nat).
Proof.
  intros l p v q bw ba Hc Hn Hl (xp & Ep & Wp) (xv & Ev & Wv) (xq & Eq & Wq) (xw & Ew & Ww) Ha.
  assert (Lp : (p < length l)%nat) by (apply nth_error_Some; congruence).
  assert (Lv : (v < length l)%nat) by (apply nth_error_Some; congruence).
  assert (Lq : (q < length l)%nat) by (apply nth_error_Some; congruence).
  assert (Lw : (bw < length l)%nat) by (apply nth_error_Some; congruence).
  assert (S : forall k x e, nth_error l k = Some x -> err_width x = 3 -> sum_len corr_len (firstn k l) = e ->
    sum_len corr_len (firstn (S k) l) = e + 3).
  { intros k x e E W H. rewrite (sum_firstn_S corr_len l k x E), H. change (corr_len (Some x)) with (err_width x). lia. }
  assert (A0 := fun H => asserted_at l p 0 0 Hc Hn Hl H eq_refl Lp).
  unfold ordering_asserted. split.
  - intros (B0 & B1 & B2 & B3 & B4). apply A0 in B0; [|lia]. subst p.
    assert (S1 := S _ _ 0 Ep Wp eq_refl).
    apply (asserted_at l v 1 3 Hc Hn Hl ltac:(lia) S1 Lv) in B1. subst v.
    assert (S2 := S _ _ _ Ev Wv S1).
    apply (asserted_at l q 2 6 Hc Hn Hl ltac:(lia) S2 Lq) in B2. subst q.
    assert (S3 := S _ _ _ Eq Wq S2).
    apply (asserted_at l bw 3 9 Hc Hn Hl ltac:(lia) S3 Lw) in B3. subst bw.
    assert (S4 := S _ _ _ Ew Ww S3).
    apply (asserted_at l ba 4 12 Hc Hn Hl ltac:(lia) S4 Ha) in B4. subst ba.
    repeat split.
  - intros (-> & -> & -> & -> & ->).
    assert (S1 := S _ _ 0 Ep Wp eq_refl). assert (S2 := S _ _ _ Ev Wv S1).
    assert (S3 := S _ _ _ Eq Wq S2). assert (S4 := S _ _ _ Ew Ww S3).
    split; [apply A0; [lia|reflexivity]|].
    split; [apply (asserted_at l 1 1 3); auto; lia|].
    split; [apply (asserted_at l 2 2 6); auto; lia|].
    split; [apply (asserted_at l 3 3 9); auto; lia|].
    apply (asserted_at l 4 4 12); auto; lia.
Qed.
Print Assumptions C26_core_order.

(** A definition that passes has all five variables. *)
Theorem C26_core_present : forall l p v q b_w b_a, ordering_asserted l p v q b_w b_a ->
  forall i, In i [p; v; q; b_w; b_a] -> exists x, nth_error l i = Some x.
Proof.
  intros l p v q bw ba (A & B & C & D & E) i.
  assert (G : forall j e, asserted l j e -> exists x, nth_error l j = Some x).
  { intros j e; unfold asserted, enum_type; destruct (nth_error l j) as [x|]; [now exists x|easy]. }
  intros [<-|[<-|[<-|[<-|[<-|[]]]]]]; eapply G; eassumption.
Qed.
Print Assumptions C26_core_present.

(** The pose filter passes; the same list with the biases exchanged compiles otherwise and is
    stopped by the assertions. *)
Example C26_core_order_ex : ordering_asserted pose_list 0 1 2 3 4 /\ ~ ordering_asserted pose_list 0 1 2 4 3 /\
  ~ ordering_asserted (firstn 4 pose_list) 0 1 2 3 4 /\
  nonempty pose_list /\ three pose_list 0 /\ three pose_list 2.
Proof.
  split; [cbn; repeat split|]. split; [intros (_ & _ & _ & H & _); discriminate H|].
  split; [intros (_ & _ & _ & _ & H); exact H|].
  split; [|split; (eexists; split; [reflexivity|reflexivity])].
  intros x Hx. cbn in Hx. repeat destruct Hx as [<-|Hx]; cbn; try lia; try contradiction.
Qed.

(** The assertions look at start indices only: without the widths they let a list pass in which
    another variable comes between. *)
Theorem C26_core_order_widths_refuted : exists l, compiles l /\ enum_ok l /\ nonempty l /\
  ordering_asserted l 0 2 3 4 5.
Proof.
  exists [Svar (KVec 1) 0 CoreProp 0; Svar (KVec 2) 1 Aux 0; Svar (KVec 3) 2 CoreProp 0; Svar KQuat 3 CoreProp 0;
          Svar (KVec 3) 4 CoreNoProp 0; Svar (KVec 3) 5 CoreNoProp 0].
  split; [reflexivity|].
  split; [intros x Hx; cbn in Hx; repeat destruct Hx as [<-|Hx]; cbn; try lia; try contradiction|].
  split; [intros x Hx; cbn in Hx; repeat destruct Hx as [<-|Hx]; cbn; try lia; try contradiction|].
  cbn; repeat split.
Qed.
Print Assumptions C26_core_order_widths_refuted.
