From Coq Require Import Reals ZArith Lra Lia Psatz List Bool.
From Verif Require Import Outcome SortedContainer Core CoreInv AccNorm.
Import ListNotations.
Open Scope R_scope.

Lemma vnorm2_nonneg : forall a, 0 <= vnorm2 a.
Proof. intros [[x y] z]. cbn. nra. Qed.

Lemma vnorm_le : forall a r, 0 <= r -> (vnorm a <= r <-> vnorm2 a <= r * r).
Proof.
  intros a r Hr. pose proof (vnorm2_nonneg a) as H. unfold vnorm. split; intros Hle.
  - rewrite <- (sqrt_sqrt _ H). apply Rmult_le_compat; auto using sqrt_pos.
  - rewrite <- (sqrt_square r Hr). apply sqrt_le_1; nra.
Qed.

Lemma vspike_false : forall a, vspike a = false <-> vnorm a <= 50.
Proof. intros a. unfold vspike. destruct (Rlt_dec 50 (vnorm a)); split; intros; try discriminate; lra. Qed.

Lemma lerp1_convex : forall a b dt dp, (0 < dp < dt)%Z ->
  exists w, 0 < w < 1 /\ lerp1 a b dt dp = (1 - w) * a + w * b /\ w = IZR dp / IZR dt.
Proof.
  intros a b dt dp [H1 H2].
  assert (0 < IZR dp) by (apply IZR_lt; exact H1).
  assert (IZR dp < IZR dt) by (apply IZR_lt; exact H2).
  exists (IZR dp / IZR dt). split; [split|split; [|reflexivity]].
  - apply Rdiv_lt_0_compat; lra.
  - apply Rmult_lt_reg_r with (IZR dt); [lra|]. unfold Rdiv. rewrite Rmult_assoc, Rinv_l; lra.
  - unfold lerp1. field. lra.
Qed.

Lemma vlerp_norm : forall a b dt dp r, 0 <= r -> (0 < dp < dt)%Z ->
  vnorm a <= r -> vnorm b <= r -> vnorm (vlerp a b dt dp) <= r.
Proof.
  intros [[x y] z] [[x' y'] z'] dt dp r Hr Hw Ha Hb.
  rewrite vnorm_le in Ha, Hb |- * by exact Hr. unfold vnorm2, vlerp in *.
  destruct (lerp1_convex x x' dt dp Hw) as (w & Hw1 & E1 & Ew).
  destruct (lerp1_convex y y' dt dp Hw) as (w' & _ & E2 & Ew').
  destruct (lerp1_convex z z' dt dp Hw) as (w'' & _ & E3 & Ew'').
  rewrite <- Ew in Ew', Ew''. subst w' w''. rewrite E1, E2, E3. clear E1 E2 E3 Ew.
  (* |(1-w)a + w b|^2 = (1-w)|a|^2 + w|b|^2 - w(1-w)|a-b|^2 *)
  apply Rle_trans with ((1 - w) * (x * x + y * y + z * z) + w * (x' * x' + y' * y' + z' * z')).
  - assert (0 <= w * (1 - w) * ((x - x') * (x - x') + (y - y') * (y - y') + (z - z') * (z - z'))).
    { apply Rmult_le_pos; [apply Rmult_le_pos; lra|assert (forall u, 0 <= u * u) as Hu by (intros; nra); pose proof (Hu (x - x')); pose proof (Hu (y - y')); pose proof (Hu (z - z')); lra]. }
    lra.
  - apply Rle_trans with ((1 - w) * (r * r) + w * (r * r)); [|lra].
    apply Rplus_le_compat; apply Rmult_le_compat_l; lra.
Qed.

(** The machine-level statement: with a norm-like function on readings. *)
Definition norm_ok {O : ops} (nrm : Acc O -> R) (c : cont (st O)) : Prop :=
  forall t s, In (t, s) c -> nrm (s_acc s) <= 50.

Lemma run_no_spikes : forall (O : ops) (nrm : Acc O -> R) d,
  (forall a, acc_spike O a = false -> nrm a <= 50) ->
  nrm (acc_zero O) <= 50 ->
  (forall a b dt dp, (0 < dp < dt)%Z -> nrm a <= 50 -> nrm b <= 50 -> nrm (lerp_acc O a b dt dp) <= 50) ->
  forall l g c ev,
  (forall t s, In (CInit t s) l -> nrm (s_acc s) <= 50) ->
  run O d (core_new O g) l = Ok (c, ev) ->
  (forall t s, In (t, s) (states c) -> nrm (s_acc s) <= 50) /\
  (forall t s, In (PubPropagation t s) ev \/ In (PubUpdate t s) ev -> nrm (s_acc s) <= 50).
Proof.
  intros O nrm d Hsp H0 Hl l g c ev Hi H.
  assert (closed O (fun a => nrm a <= 50) (fun _ => True) (fun _ => True) (fun _ => True)
                 (fun _ => True) (fun _ => True) (fun _ => True)) as Hcl
    by (constructor; intros; repeat split; auto).
  eapply run_good in H as [H1 H2]; [|exact Hcl|exact (core_new_good _ _ _ _ _ _ _ _ Hcl g I)|].
  - split.
    + intros t s Hin. apply (proj2 (g_states _ _ _ _ _ _ _ _ H1)) in Hin. apply Hin.
    + rewrite Forall_forall in H2. intros t s [Hin|Hin]; apply H2 in Hin; apply Hin.
  - apply Forall_forall. intros k Hk. destruct k; cbn; repeat split; auto.
    apply Hi in Hk. exact Hk.
Qed.
