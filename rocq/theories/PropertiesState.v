(** C26-C31: state variable lists. *)

From Coq Require Import Reals ZArith List Bool Lia Lra.
From Verif Require Import Outcome Geom StateList Propagate StateListProofs GeomProofs.
Import ListNotations.
Open Scope Z_scope.

(** ** Specification vocabulary *)

(** Entries a variable takes in the error state and in the state vector. *)
Definition err_width (x : svar) : Z := match vkd x with KVec n => Z.of_nat n | KQuat => 3 end.
Definition full_width (x : svar) : Z := match vkd x with KVec n => Z.of_nat n | KQuat => 4 end.

(** The enum gives no variable the reserved value -1. *)
Definition enum_ok (l : list svar) : Prop := forall x, In x l -> vname x <> -1.

(** [start] tiles [0, total) with the variables of [l] in order. *)
Definition tiles (l : list svar) (start width : svar -> Z) (total : Z) : Prop :=
  (forall k, 0 <= k < total <-> exists x, In x l /\ start x <= k < start x + width x) /\
  (forall i j x y, (i < j)%nat -> nth_error l i = Some x -> nth_error l j = Some y ->
     start x + width x <= start y).

(** The pose_msf state list (msf_updates/src/pose_msf/msf_statedef.hpp). *)
Definition pose_list : list svar :=
  [Svar (KVec 3) 0 CoreProp 0; Svar (KVec 3) 1 CoreProp 0; Svar KQuat 2 CoreProp 0;
   Svar (KVec 3) 3 CoreNoProp 0; Svar (KVec 3) 4 CoreNoProp 0;
   Svar (KVec 1) 5 Aux 0; Svar KQuat 6 AuxNonDrift 0; Svar (KVec 3) 7 Aux 0;
   Svar KQuat 8 Aux 0; Svar (KVec 3) 9 Aux 0].

Lemma pose_list_ok : compiles pose_list /\ enum_ok pose_list.
Proof.
  split; [reflexivity|]. intros x Hx. cbn in Hx.
  repeat destruct Hx as [<-|Hx]; cbn; try lia; try contradiction.
Qed.

(** ** C26 *)

Lemma tiles_of : forall cnt width l, pos_cnt cnt -> (forall x, cnt (Some x) = width x) ->
  compiles l -> named l -> tiles l (start_index cnt l) width (count_states cnt l).
Proof.
  intros cnt width l Hp Hw Hc Hn. split.
  - intros k. rewrite (tile_cover cnt l k Hp Hc Hn). split; intros (x & Hx & H); exists x; rewrite ?Hw in *; auto.
  - intros i j x y Hij Hi Hj. rewrite <- Hw. apply (tile_order cnt l i j x y Hp Hc Hn Hi Hj Hij).
Qed.

Theorem C26_tiles_error_state : forall l, compiles l -> enum_ok l ->
  tiles l (start_index corr_len l) err_width (count_states corr_len l).
Proof. exact (fun l => tiles_of corr_len err_width l pos_corr (fun x => eq_refl)). Qed.
Print Assumptions C26_tiles_error_state.

Theorem C26_tiles_state : forall l, compiles l -> enum_ok l ->
  tiles l (start_index state_len l) full_width (count_states state_len l).
Proof. exact (fun l => tiles_of state_len full_width l pos_state (fun x => eq_refl)). Qed.
Print Assumptions C26_tiles_state.

Example C26_ex : compiles pose_list /\ enum_ok pose_list /\
  map (start_index corr_len pose_list) pose_list = [0; 3; 6; 9; 12; 15; 16; 19; 22; 25] /\
  count_states corr_len pose_list = 28 /\
  map (start_index state_len pose_list) pose_list = [0; 3; 6; 10; 13; 16; 17; 21; 24; 28] /\
  count_states state_len pose_list = 31.
Proof. split; [apply pose_list_ok|]. split; [apply pose_list_ok|]. repeat split; reflexivity. Qed.

(** The static assertions make variables distinct and put each at the position of
    its enum value. *)
Theorem C26_enum_is_position : forall l, compiles l -> enum_ok l ->
  forall i x, nth_error l i = Some x -> vname x = Z.of_nat i.
Proof. exact compiles_names. Qed.
Print Assumptions C26_enum_is_position.

(** A list whose enum is out of order does not compile. *)
Example C26_bad_order : ~ compiles [Svar (KVec 3) 1 CoreProp 0; Svar (KVec 3) 0 CoreProp 0].
Proof. discriminate. Qed.

(** "Return error code if end of list reached and type not found" (msf_tmp.h line
    583) is false: looking up a variable that is not in the list gives a
    plausible index, never -1, as soon as the list has an entry. *)
Theorem C26_lookup_error_code_refuted :
  (forall cnt l x, compiles l -> l <> [] -> ~ In x l ->
     start_index cnt l x = sum_len cnt l - 1) /\
  exists l x, compiles l /\ enum_ok l /\ ~ In x l /\
    0 <= start_index corr_len l x < count_states corr_len l.
Proof.
  split; [exact start_index_missing|].
  exists pose_list, (Svar KQuat 2 CoreProp 2). split; [apply pose_list_ok|]. split; [apply pose_list_ok|].
  split; [|cbn; lia]. intros H. cbn in H. repeat destruct H as [H|H]; try discriminate; try contradiction.
Qed.
Print Assumptions C26_lookup_error_code_refuted.

(** The core entries are a prefix whenever the core variables come first (this is
    what the message code relies on). *)
Theorem C26_core_prefix : forall l, compiles l -> enum_ok l -> core_first l ->
  (forall k, 0 <= k < count_states core_err_len l <->
     exists x, In x l /\ is_core x = true /\ start_index corr_len l x <= k < start_index corr_len l x + err_width x) /\
  (forall k, 0 <= k < count_states core_state_len l <->
     exists x, In x l /\ is_core x = true /\ start_index state_len l x <= k < start_index state_len l x + full_width x).
Proof.
  intros l Hc Hn Hf. split; intros k.
  - exact (core_prefix core_err_len corr_len l k pos_core_err pos_corr core_err_core core_err_aux Hc Hn Hf).
  - exact (core_prefix core_state_len state_len l k pos_core_state pos_state core_state_core core_state_aux Hc Hn Hf).
Qed.
Print Assumptions C26_core_prefix.

Example C26_core_prefix_ex : core_first pose_list /\
  count_states core_err_len pose_list = 15 /\ count_states core_state_len pose_list = 16.
Proof.
  split; [|split; reflexivity].
  exists (firstn 5 pose_list), (skipn 5 pose_list). split; [reflexivity|]. split; repeat constructor.
Qed.

(** ** C27 *)

(** The variable at position [k] owns the entries from [own_start] on. *)
Definition own_start (s : state) (k : nat) : nat :=
  Z.to_nat (fold_right Z.add 0 (map err_width (firstn k (types s)))).

(** What a correction is meant to do to one variable. *)
Definition is_corrected (data : list R) (start : nat) (i i' : inst) : Prop :=
  itype i' = itype i /\ iQ i' = iQ i /\ ireset i' = ireset i /\
  match ival i, ival i' with
  | VVec x, VVec x' =>
    length x' = length x /\
    forall k, (k < length x)%nat ->
      nth k x' 0%R = if Z.odd (vopt (itype i))
                     then (nth k x 0 * nth (start + k) data 0)%R
                     else (nth k x 0 + nth (start + k) data 0)%R
  | VQuat q, VQuat q' =>
    q' = qnormalize (qmul q (small_quat (V3 (nth start data 0%R) (nth (start + 1) data 0%R)
                                            (nth (start + 2) data 0%R))))
  | _, _ => False
  end.

Lemma own_start_sum : forall s k, own_start s k = Z.to_nat (sum_len corr_len (firstn k (types s))).
Proof.
  intros s k. unfold own_start. f_equal. generalize (firstn k (types s)) as l.
  induction l as [|x l IH]; cbn; [reflexivity|]. rewrite IH. reflexivity.
Qed.

Theorem C27_own_segment : forall s data,
  compiles (types s) -> enum_ok (types s) ->
  (forall x, In x (types s) -> vkd x = KQuat -> vopt x = 0) ->
  Forall shape_ok s -> Z.of_nat (length data) = count_states corr_len (types s) ->
  exists s', correct data s = Ok s' /\ length s' = length s /\
    forall k i, nth_error s k = Some i ->
      exists i', nth_error s' k = Some i' /\ is_corrected data (own_start s k) i i'.
Proof.
  intros s data Hc Hn Hq Hs Hl. destruct (correct_spec s data Hc Hn Hq Hs Hl) as (s' & H1 & H2 & H3).
  exists s'. split; [exact H1|]. split; [exact H2|]. intros k i Hk. rewrite own_start_sum. exact (H3 k i Hk).
Qed.
Print Assumptions C27_own_segment.

(** Two corrections that agree on a variable's own entries correct it equally. *)
Theorem C27_other_segments_irrelevant : forall s d1 d2 s1 s2 k i,
  compiles (types s) -> enum_ok (types s) ->
  (forall x, In x (types s) -> vkd x = KQuat -> vopt x = 0) ->
  Forall shape_ok s ->
  Z.of_nat (length d1) = count_states corr_len (types s) -> length d2 = length d1 ->
  correct d1 s = Ok s1 -> correct d2 s = Ok s2 ->
  nth_error s k = Some i ->
  (forall j, (own_start s k <= j < own_start s k + Z.to_nat (err_width (itype i)))%nat -> nth j d1 0%R = nth j d2 0%R) ->
  nth_error s1 k = nth_error s2 k.
Proof.
  intros s d1 d2 s1 s2 k i Hc Hn Hq Hs Hl Hl2 H1 H2 Hk Hseg.
  destruct (correct_spec s d1 Hc Hn Hq Hs Hl) as (t1 & A1 & _ & A3).
  destruct (correct_spec s d2 Hc Hn Hq Hs ltac:(rewrite Hl2; exact Hl)) as (t2 & B1 & _ & B3).
  rewrite H1 in A1. injection A1 as <-. rewrite H2 in B1. injection B1 as <-.
  destruct (A3 k i Hk) as (i1 & E1 & C1). destruct (B3 k i Hk) as (i2 & E2 & C2). rewrite E1, E2. f_equal.
  eapply corrected_seg; [|eapply Forall_forall; [exact Hs|eapply nth_error_In, Hk]|exact C1|exact C2].
  intros j Hj. rewrite <- own_start_sum. apply Hseg. unfold err_width. cbn in Hj. lia.
Qed.
Print Assumptions C27_other_segments_irrelevant.

(** A small state: position-like, attitude, scale. *)
Definition tiny (px : R) (L : R) : state :=
  let Z0 := fun _ _ : nat => 0%R in
  [Inst (Svar (KVec 3) 0 CoreProp 0) (VVec [px; 0; 0]%R) Z0 false;
   Inst (Svar KQuat 1 CoreProp 0) (VQuat qone) Z0 false;
   Inst (Svar (KVec 1) 2 Aux 1) (VVec [L]) Z0 false].

Lemma tiny_ok : forall px L,
  compiles (types (tiny px L)) /\ enum_ok (types (tiny px L)) /\
  (forall x, In x (types (tiny px L)) -> vkd x = KQuat -> vopt x = 0) /\
  Forall shape_ok (tiny px L) /\ count_states corr_len (types (tiny px L)) = 7.
Proof.
  intros px L. split; [reflexivity|]. split.
  { intros x Hx. cbn in Hx. repeat destruct Hx as [<-|Hx]; cbn; try lia; try contradiction. }
  split.
  { intros x Hx Hk. cbn in Hx. repeat destruct Hx as [<-|Hx]; cbn; try reflexivity; try discriminate; try contradiction. }
  split; [repeat constructor|reflexivity].
Qed.

Example C27_ex : exists s', correct [1; 2; 3; 0; 0; 0; 7]%R (tiny 10 2) = Ok s' /\
  map ival s' = [VVec [11; 2; 3]%R; VQuat qone; VVec [14%R]].
Proof.
  destruct (tiny_ok 10 2) as (Hc & Hn & Hq & Hs & Hl).
  destruct (C27_own_segment (tiny 10 2) [1; 2; 3; 0; 0; 0; 7]%R Hc Hn Hq Hs (eq_sym Hl))
    as (s' & H1 & H2 & H3).
  exists s'. split; [exact H1|].
  destruct s' as [|a [|b [|c [|]]]]; try discriminate H2.
  destruct (H3 0%nat _ eq_refl) as (i' & E & _ & _ & _ & A). injection E as <-.
  destruct (H3 1%nat _ eq_refl) as (i' & E & _ & _ & _ & B). injection E as <-.
  destruct (H3 2%nat _ eq_refl) as (i' & E & _ & _ & _ & C). injection E as <-.
  replace (own_start (tiny 10 2) 0) with 0%nat in A by reflexivity.
  replace (own_start (tiny 10 2) 1) with 3%nat in B by reflexivity.
  replace (own_start (tiny 10 2) 2) with 6%nat in C by reflexivity.
  cbn [tiny ival itype vopt Z.odd] in A, B, C. cbn [map].
  destruct (ival a) as [xa|]; [|contradiction]. destruct (ival b) as [|qb]; [contradiction|].
  destruct (ival c) as [xc|]; [|contradiction].
  destruct A as [LA A]. destruct C as [LC C].
  f_equal; [|f_equal; [|f_equal]].
  - f_equal. destruct xa as [|x [|y [|z [|]]]]; try discriminate LA.
    pose proof (A 0%nat ltac:(cbn; lia)) as A0. pose proof (A 1%nat ltac:(cbn; lia)) as A1.
    pose proof (A 2%nat ltac:(cbn; lia)) as A2. cbn in A0, A1, A2.
    f_equal; [lra|f_equal; [lra|f_equal; lra]].
  - f_equal. rewrite B. cbn [nth Nat.add].
    replace (qmul qone (small_quat (V3 0 0 0))) with qone;
      [apply qnormalize_id; cbv [qnorm2 qone qw qx qy qz]; ring|].
    replace (small_quat (V3 0 0 0)) with qone.
    + cbv [qmul qone qw qx qy qz]. comps; ring.
    + unfold small_quat, v3norm2, v3dot. cbn [v3x v3y v3z].
      replace ((0 * 0 + 0 * 0 + 0 * 0) / 4)%R with 0%R by field.
      destruct (Rlt_dec 0 1) as [_|N]; [|lra]. rewrite Rminus_0_r, sqrt_1. unfold qone.
      rewrite !Rmult_0_l. reflexivity.
  - f_equal. destruct xc as [|x [|]]; try discriminate LC.
    pose proof (C 0%nat ltac:(cbn; lia)) as C0. cbn in C0. f_equal. lra.
Qed.

(** The restriction on quaternion options is needed: with an option bit other
    than "multiplicative" (which the assertion at msf_tmp.h line 947 admits) the
    start index is computed for a different type, and the correction leaves the
    vector. *)
Theorem C27_quaternion_options_refuted :
  exists s data, compiles (types s) /\ enum_ok (types s) /\ Forall shape_ok s /\
    (forall x, In x (types s) -> vkd x = KQuat -> Z.odd (vopt x) = false) /\
    Z.of_nat (length data) = count_states corr_len (types s) /\ correct data s = UB.
Proof.
  exists [Inst (Svar KQuat 0 CoreProp 2) (VQuat qone) (fun _ _ => 0%R) false], [0; 0; 0]%R.
  split; [reflexivity|]. split; [intros x [<-|[]]; cbn; lia|]. split; [repeat constructor|].
  split; [intros x [<-|[]]; reflexivity|]. split; reflexivity.
Qed.
Print Assumptions C27_quaternion_options_refuted.

(** ** C28 *)

Definition nondrifting (x : svar) : Prop := vtype x = AuxNonDrift.
Definition quaternion (x : svar) : Prop := vkd x = KQuat.

Lemma ndq_iff : forall x, ndq x = true <-> quaternion x /\ nondrifting x.
Proof.
  intros [k n t o]. unfold ndq, quaternion, nondrifting. cbn.
  destruct k, t; cbn; split; intros H; try discriminate; try (destruct H; discriminate); auto.
Qed.
Lemma nd_iff : forall x, nd x = true <-> nondrifting x.
Proof. intros [k n t o]. unfold nd, nondrifting. cbn. destruct t; split; intros H; try discriminate; auto. Qed.

Theorem C28_best_reference : forall l, compiles l -> enum_ok l ->
  (exists x, In x l /\ quaternion x /\ nondrifting x) /\
    (exists i x, nth_error l i = Some x /\ quaternion x /\ nondrifting x /\ best_nondrift l = Z.of_nat i) \/
  (forall x, In x l -> ~ (quaternion x /\ nondrifting x)) /\ (exists x, In x l /\ nondrifting x) /\
    (exists i x, nth_error l i = Some x /\ nondrifting x /\ best_nondrift l = Z.of_nat i) \/
  (forall x, In x l -> ~ nondrifting x) /\ best_nondrift l = -1.
Proof.
  intros l Hc Hn. destruct (best_spec l Hc Hn) as [[(y & Hy & Qy) (i & x & H1 & H2 & H3)]|[(H0 & (y & Hy & Qy) & (i & x & H1 & H2 & H3))|[H1 H2]]].
  - left. apply ndq_iff in H2, Qy. split; [exists y; tauto|]. exists i, x. tauto.
  - right. left. apply nd_iff in H2, Qy. split.
    { intros z Hz Hq. apply ndq_iff in Hq. rewrite H0 in Hq by exact Hz. discriminate. }
    split; [eauto|]. exists i, x. tauto.
  - right. right. split; [|exact H2]. intros x Hx Hd. apply nd_iff in Hd. rewrite H1 in Hd by exact Hx. discriminate.
Qed.
Print Assumptions C28_best_reference.

(** A quaternion wins over a vector before and after it; without one the last vector. *)
Example C28_ex :
  best_nondrift pose_list = 6 /\
  best_nondrift [Svar (KVec 3) 0 AuxNonDrift 0; Svar KQuat 1 AuxNonDrift 0; Svar (KVec 3) 2 AuxNonDrift 0] = 1 /\
  best_nondrift [Svar (KVec 3) 0 AuxNonDrift 0; Svar KQuat 1 Aux 0; Svar (KVec 3) 2 AuxNonDrift 0] = 2 /\
  best_nondrift [Svar (KVec 3) 0 CoreProp 0; Svar KQuat 1 CoreProp 0] = -1.
Proof. repeat split; reflexivity. Qed.

(** ** C29 *)

Lemma set_val_other : forall s k x j, j <> k -> nth_error (set_val s k x) j = nth_error s j.
Proof.
  induction s as [|i s IH]; intros [|k] x [|j] H; cbn; try reflexivity; try congruence.
  apply IH. congruence.
Qed.
Lemma set_val_length : forall s k x, length (set_val s k x) = length s.
Proof. induction s as [|i s IH]; intros [|k] x; cbn; try reflexivity. rewrite IH. reflexivity. Qed.

Lemma bind_ok : forall {A B : Type} (r : res A) (f : A -> res B) y, bind r f = Ok y ->
  exists x, r = Ok x /\ f x = Ok y.
Proof. intros A B [x| |] f y H; cbn in H; [eauto|discriminate..]. Qed.

(** Whatever the prediction does, it leaves every variable that is not of
    propagated type exactly as it was in the old state. *)
Theorem C29_non_propagated_copied : forall L dt old new u u' s,
  types old = types new -> compiles (types new) -> enum_ok (types new) ->
  (forall k x, k = ip L \/ k = iv L \/ k = iq L -> nth_error (types new) k = Some x -> vtype x = CoreProp) ->
  propagate_state L dt old new u u' = Ok s ->
  length s = length old /\
  forall k i, nth_error old k = Some i -> vtype (itype i) <> CoreProp -> nth_error s k = Some i.
Proof.
  intros L dt old new u u' s Ht Hc Hn HL H. unfold propagate_state in H.
  destruct (prepare_spec old new Ht Hc Hn) as (s0 & Hs0 & Hlen & Hcopy). rewrite Hs0 in H. cbn [bind] in H.
  repeat (apply bind_ok in H as (? & _ & H)). injection H as <-.
  assert (Hlen' : length old = length new) by (rewrite <- (types_length old), Ht, types_length; reflexivity).
  split; [rewrite !set_val_length; congruence|].
  intros k i Hk Hnp.
  assert (Htk : nth_error (types new) k = Some (itype i)) by (rewrite <- Ht; apply types_nth, Hk).
  assert (Hne : k <> ip L /\ k <> iv L /\ k <> iq L).
  { repeat split; intros E; apply Hnp; apply (HL k); auto. }
  rewrite !set_val_other by tauto.
  destruct (nth_error_same_length old new k i Hlen' Hk) as [j Hj].
  rewrite (Hcopy k j Hj).
  pose proof (types_nth new k j Hj) as Htj. rewrite Htk in Htj. injection Htj as <-.
  destruct (vtype (itype i)); [contradiction|exact Hk..].
Qed.
Print Assumptions C29_non_propagated_copied.

(** Of the propagated variables it sets the values only: declaration, noise block and reset
    flag stay those of the new state object; a propagated variable other than position,
    velocity and attitude would be zero or the identity. *)
Lemma set_val_at : forall s k x i j, nth_error s k = Some i ->
  exists i', nth_error (set_val s j x) k = Some i' /\ itype i' = itype i /\ iQ i' = iQ i /\ ireset i' = ireset i /\
    (k <> j -> i' = i).
Proof.
  intros s k x i j H. destruct (Nat.eq_dec j k) as [<-|Hn].
  - revert s H. induction j as [|j IH]; intros [|i0 s] H; try discriminate; cbn in *.
    + injection H as ->. eexists. repeat split. lia.
    + destruct (IH s H) as (i' & A & B & C & D & _). exists i'. repeat split; try assumption. lia.
  - exists i. rewrite set_val_other by congruence. repeat split; assumption.
Qed.

Theorem C29_propagated_values : forall L dt old new u u' s k j,
  types old = types new -> compiles (types new) -> enum_ok (types new) ->
  propagate_state L dt old new u u' = Ok s ->
  nth_error new k = Some j -> vtype (itype j) = CoreProp ->
  exists i, nth_error s k = Some i /\ itype i = itype j /\ iQ i = iQ j /\ ireset i = ireset j /\
    (k <> ip L -> k <> iv L -> k <> iq L ->
     ival i = match vkd (itype j) with KVec n => VVec (repeat 0%R n) | KQuat => VQuat qone end).
Proof.
  intros L dt old new u u' s k j Ht Hc Hn H Hj HT. unfold propagate_state in H.
  destruct (prepare_spec old new Ht Hc Hn) as (s0 & Hs0 & Hlen & Hcopy). rewrite Hs0 in H. cbn [bind] in H.
  repeat (apply bind_ok in H as (? & _ & H)). injection H as <-.
  pose proof (Hcopy k j Hj) as Hk. rewrite HT in Hk.
  match goal with |- context [set_val (set_val (set_val s0 ?a ?x) ?b ?y) ?c ?z] =>
    destruct (set_val_at s0 k x _ a Hk) as (i1 & A1 & B1 & C1 & D1 & E1);
    destruct (set_val_at _ k y _ b A1) as (i2 & A2 & B2 & C2 & D2 & E2);
    destruct (set_val_at _ k z _ c A2) as (i3 & A3 & B3 & C3 & D3 & E3) end.
  exists i3. split; [exact A3|]. rewrite B3, B2, B1, C3, C2, C1, D3, D2, D1. repeat split.
  intros H1 H2 H3. rewrite E3, E2, E1 by assumption. reflexivity.
Qed.
Print Assumptions C29_propagated_values.

Theorem C29_init_copies_only_set : forall init target,
  types init = types target -> compiles (types target) -> enum_ok (types target) ->
  exists s, apply_init init target = Ok s /\ length s = length target /\
    forall k i o, nth_error target k = Some i -> nth_error init k = Some o ->
      nth_error s k = Some (if ireset o then o else i).
Proof. exact apply_init_spec. Qed.
Print Assumptions C29_init_copies_only_set.

Definition five (a b : R) : state :=
  let Z0 := fun _ _ : nat => 0%R in
  [Inst (Svar (KVec 3) 0 CoreProp 0) (VVec [a; 0; 0]%R) Z0 false;
   Inst (Svar (KVec 3) 1 CoreProp 0) (VVec [0; 0; 0]%R) Z0 false;
   Inst (Svar KQuat 2 CoreProp 0) (VQuat qone) Z0 false;
   Inst (Svar (KVec 3) 3 CoreNoProp 0) (VVec [0; b; 0]%R) Z0 false;
   Inst (Svar (KVec 3) 4 CoreNoProp 0) (VVec [0; 0; b]%R) Z0 false;
   Inst (Svar (KVec 1) 5 Aux 0) (VVec [b]) Z0 true].
Definition lay : layout := Layout 0 1 2 3 4.

Example C29_ex : exists s,
  propagate_state lay 1 (five 1 2) (five 7 8) (Imu v3zero v3zero) (Imu v3zero v3zero) = Ok s /\
  map ival (skipn 3 s) = [VVec [0; 2; 0]%R; VVec [0; 0; 2]%R; VVec [2%R]].
Proof. eexists. split; reflexivity. Qed.

(** Only the scale, which the init state marks as set, is taken over. *)
Example C29_init_ex : exists s, apply_init (five 1 2) (five 7 8) = Ok s /\
  map ival s = map ival (firstn 5 (five 7 8)) ++ [VVec [2%R]].
Proof. eexists. split; reflexivity. Qed.

(** ** C30 *)

Definition auxiliary (x : svar) : Prop := vtype x = Aux \/ vtype x = AuxNonDrift.
(** Entry [k] of the error state belongs to the variable at position [j]. *)
Definition owns (s : state) (j : nat) (i : inst) (k : Z) : Prop :=
  nth_error s j = Some i /\
  Z.of_nat (own_start s j) <= k < Z.of_nat (own_start s j) + err_width (itype i).

Lemma aux_iff : forall x, aux x = true <-> auxiliary x.
Proof.
  intros x. unfold aux, auxiliary. destruct (vtype x); split; intros H; try discriminate; auto;
    destruct H; discriminate.
Qed.

Lemma owns_covers : forall s j i k, compiles (types s) -> named (types s) -> nth_error s j = Some i ->
  (owns s j i k <-> covers (types s) (itype i) k).
Proof.
  intros s j i k Hc Hn Hj. unfold owns, covers.
  rewrite (start_index_at corr_len (types s) j (itype i) Hc Hn (types_nth s j i Hj)).
  rewrite own_start_sum, Z2Nat.id by apply sum_nonneg, pos_corr.
  change (corr_len (Some (itype i))) with (err_width (itype i)). tauto.
Qed.

Theorem C30_noise_blocks : forall s Q, compiles (types s) -> enum_ok (types s) ->
  exists Q', copy_q (types s) Q s = Ok Q' /\
    (forall j i r c, owns s j i r -> owns s j i c -> auxiliary (itype i) ->
       Q' r c = iQ i (Z.to_nat (r - Z.of_nat (own_start s j))) (Z.to_nat (c - Z.of_nat (own_start s j)))) /\
    (forall r c, (forall j i, owns s j i r -> owns s j i c -> ~ auxiliary (itype i)) -> Q' r c = Q r c).
Proof.
  intros s Q Hc Hn.
  destruct (copy_q_spec (types s) s Q Hc Hn) as (Q' & H1 & H2 & H3).
  { intros i Hi. apply in_map, Hi. }
  { intros i j Hi Hj E. apply In_nth_error in Hi as [a Ha]. apply In_nth_error in Hj as [b Hb].
    assert (a = b). { apply (compiles_inj (types s) Hc Hn a b (itype i)); [apply types_nth, Ha|rewrite E; apply types_nth, Hb]. }
    subst. congruence. }
  exists Q'. split; [exact H1|]. split.
  - intros j i r c Or Oc Ha. pose proof (proj1 Or) as Hj. apply aux_iff in Ha.
    apply (owns_covers s j i _ Hc Hn Hj) in Or, Oc.
    rewrite (H2 i r c (nth_error_In _ _ Hj) Ha Or Oc).
    rewrite (start_index_at corr_len (types s) j (itype i) Hc Hn (types_nth s j i Hj)).
    rewrite own_start_sum, Z2Nat.id by apply sum_nonneg, pos_corr. reflexivity.
  - intros r c Hno. apply H3. intros i Hi Ha [Cr Cc]. apply In_nth_error in Hi as [j Hj].
    apply aux_iff in Ha. apply (Hno j i); [apply (owns_covers s j i _ Hc Hn Hj); assumption..|exact Ha].
Qed.
Print Assumptions C30_noise_blocks.

Example C30_ex : exists Q',
  copy_q (types (five 0 0)) (fun _ _ => 5%R)
         (firstn 5 (five 0 0) ++ [Inst (Svar (KVec 1) 5 Aux 0) (VVec [1%R]) (fun _ _ => 9%R) false]) = Ok Q' /\
  Q' 15 15 = 9%R /\ Q' 14 14 = 5%R /\ Q' 15 14 = 5%R.
Proof. eexists. split; [reflexivity|]. repeat split. Qed.

(** ** C31 *)

Lemma unseg : forall st len data k, 0 <= st -> (Z.of_nat k < st \/ st + len <= Z.of_nat k) ->
  nth k (zero_seg st len data) 0%R = nth k data 0%R.
Proof.
  intros st len data k H0 H. rewrite zero_seg_nth by exact H0.
  destruct (st <=? Z.of_nat k) eqn:E1; destruct (Z.of_nat k <? st + len) eqn:E2; cbn; try reflexivity. lia.
Qed.
Lemma inseg : forall st len data k, 0 <= st -> st <= Z.of_nat k < st + len ->
  nth k (zero_seg st len data) 0%R = 0%R.
Proof.
  intros st len data k H0 H. rewrite zero_seg_nth by exact H0.
  replace (st <=? Z.of_nat k) with true by (symmetry; apply Z.leb_le; lia).
  replace (Z.of_nat k <? st + len) with true by (symmetry; apply Z.ltb_lt; lia). reflexivity.
Qed.

Theorem C31_fixed_bias : forall s data kw ka iw ia,
  compiles (types s) -> enum_ok (types s) ->
  (forall x, In x (types s) -> vkd x = KQuat -> vopt x = 0) ->
  Forall shape_ok s -> Z.of_nat (length data) = count_states corr_len (types s) ->
  nth_error s kw = Some iw -> nth_error s ka = Some ia -> kw <> ka ->
  (forall i, i = iw \/ i = ia -> vkd (itype i) <> KQuat /\ Z.odd (vopt (itype i)) = false) ->
  exists s1 s0,
    apply_correction true kw ka data s = Ok s1 /\ apply_correction false kw ka data s = Ok s0 /\
    nth_error s1 kw = Some iw /\ nth_error s1 ka = Some ia /\
    (forall k, k <> kw -> k <> ka -> nth_error s1 k = nth_error s0 k).
Proof.
  intros s data kw ka iw ia Hc Hn Hq Hs Hl Hw Ha Hne Hvec.
  pose proof (types_nth s kw iw Hw) as Tw. pose proof (types_nth s ka ia Ha) as Ta.
  unfold apply_correction, enum_type. rewrite Tw, Ta.
  set (d1 := zero_seg (start_index corr_len (types s) (itype ia)) (corr_len (Some (itype ia))) data).
  set (d2 := zero_seg (start_index corr_len (types s) (itype iw)) (corr_len (Some (itype iw))) d1).
  assert (L2 : length d2 = length data) by (unfold d2, d1; rewrite !zero_seg_length; reflexivity).
  destruct (correct_spec s d2 Hc Hn Hq Hs ltac:(rewrite L2; exact Hl)) as (s1 & A1 & A2 & A3).
  destruct (correct_spec s data Hc Hn Hq Hs Hl) as (s0 & B1 & B2 & B3).
  exists s1, s0. split; [exact A1|]. split; [exact B1|].
  pose proof (tile_inside corr_len _ _ _ pos_corr Hc Hn Tw) as [Iw _].
  pose proof (tile_inside corr_len _ _ _ pos_corr Hc Hn Ta) as [Ia _].
  assert (Hseg : forall k i j, nth_error s k = Some i -> (j < Z.to_nat (corr_len (Some (itype i))))%nat ->
            start_index corr_len (types s) (itype i) <=
            Z.of_nat (Z.to_nat (sum_len corr_len (firstn k (types s))) + j) <
            start_index corr_len (types s) (itype i) + corr_len (Some (itype i))).
  { intros k i j Hk Hj. rewrite (start_index_at corr_len _ k _ Hc Hn (types_nth s k i Hk)).
    pose proof (sum_nonneg corr_len (firstn k (types s)) pos_corr). lia. }
  assert (Hfix : forall k i, nth_error s k = Some i -> i = iw \/ i = ia ->
            (forall j, start_index corr_len (types s) (itype i) <= Z.of_nat j <
               start_index corr_len (types s) (itype i) + corr_len (Some (itype i)) -> nth j d2 0%R = 0%R) ->
            nth_error s1 k = Some i).
  { intros k i Hk Hi Hz. destruct (A3 k i Hk) as (i' & E & C1 & C2 & C3 & C4). rewrite E. f_equal.
    destruct (Hvec i Hi) as [Hv Ho].
    assert (Hsh : shape_ok i) by (eapply Forall_forall; [exact Hs|eapply nth_error_In, Hk]).
    unfold shape_ok in Hsh. rewrite Ho in C4.
    destruct i' as [t v q r]. cbn [itype iQ ireset ival] in *. subst t q r.
    destruct i as [t v0 q r]. cbn [itype iQ ireset ival] in *. f_equal.
    destruct (vkd t) as [n|] eqn:Ek; [|congruence]. destruct v0 as [x|]; [|contradiction].
    destruct v as [x'|]; [|contradiction]. destruct C4 as [CL CN]. f_equal.
    apply nth_ext with (d := 0%R) (d' := 0%R); [exact CL|]. intros j Hj. rewrite CN by lia.
    rewrite Hz; [lra|]. apply (Hseg k (Inst t (VVec x) q r) j Hk). cbn. rewrite Ek. lia. }
  split; [|split].
  - apply Hfix; auto. intros j Hj. unfold d2. apply inseg; assumption.
  - apply Hfix; auto. intros j Hj. unfold d2. rewrite zero_seg_nth by exact Iw.
    destruct (_ && _); [reflexivity|]. unfold d1. apply inseg; assumption.
  - intros k Hkw Hka. destruct (nth_error s k) as [i|] eqn:Hk.
    + destruct (A3 k i Hk) as (i1 & E1 & C1). destruct (B3 k i Hk) as (i0 & E0 & C0). rewrite E1, E0. f_equal.
      eapply corrected_seg; [|eapply Forall_forall; [exact Hs|eapply nth_error_In, Hk]|exact C1|exact C0].
      intros j Hj. pose proof (Hseg k i j Hk Hj) as Hr.
      unfold d2, d1. rewrite unseg; [rewrite unseg; [reflexivity|exact Ia|]|exact Iw|].
      * destruct (Nat.lt_trichotomy k ka) as [Hlt|[Heq|Hgt]]; [|congruence|].
        -- pose proof (tile_order corr_len _ _ _ _ _ pos_corr Hc Hn (types_nth s k i Hk) Ta Hlt). lia.
        -- pose proof (tile_order corr_len _ _ _ _ _ pos_corr Hc Hn Ta (types_nth s k i Hk) Hgt). lia.
      * destruct (Nat.lt_trichotomy k kw) as [Hlt|[Heq|Hgt]]; [|congruence|].
        -- pose proof (tile_order corr_len _ _ _ _ _ pos_corr Hc Hn (types_nth s k i Hk) Tw Hlt). lia.
        -- pose proof (tile_order corr_len _ _ _ _ _ pos_corr Hc Hn Tw (types_nth s k i Hk) Hgt). lia.
    + assert (length s <= k)%nat by (apply nth_error_None, Hk).
      rewrite (proj2 (nth_error_None s1 k)) by lia. rewrite (proj2 (nth_error_None s0 k)) by lia. reflexivity.
Qed.
Print Assumptions C31_fixed_bias.

Lemma five_ok : forall a b,
  compiles (types (five a b)) /\ enum_ok (types (five a b)) /\
  (forall x, In x (types (five a b)) -> vkd x = KQuat -> vopt x = 0) /\
  Forall shape_ok (five a b) /\ count_states corr_len (types (five a b)) = 16.
Proof.
  intros a b. split; [reflexivity|]. split.
  { intros x Hx. cbn in Hx. repeat destruct Hx as [<-|Hx]; cbn; try lia; try contradiction. }
  split.
  { intros x Hx Hk. cbn in Hx. repeat destruct Hx as [<-|Hx]; cbn; try reflexivity; try discriminate; try contradiction. }
  split; [repeat constructor|reflexivity].
Qed.

(** A huge correction of everything: the biases stay, the scale moves. *)
Example C31_ex : exists s1 s0,
  apply_correction true 3 4 (repeat 1000%R 16) (five 1 2) = Ok s1 /\
  apply_correction false 3 4 (repeat 1000%R 16) (five 1 2) = Ok s0 /\
  nth_error s1 3 = nth_error (five 1 2) 3 /\ nth_error s1 4 = nth_error (five 1 2) 4 /\
  nth_error s1 5 = nth_error s0 5.
Proof.
  destruct (five_ok 1 2) as (Hc & Hn & Hq & Hs & Hl).
  destruct (C31_fixed_bias (five 1 2) (repeat 1000%R 16) 3 4 _ _ Hc Hn Hq Hs (eq_sym Hl) eq_refl eq_refl)
    as (s1 & s0 & H1 & H0 & Hw & Ha & Ho).
  - discriminate.
  - intros i [->| ->]; split; [discriminate|reflexivity|discriminate|reflexivity].
  - exists s1, s0. repeat split; try assumption. apply Ho; discriminate.
Qed.
