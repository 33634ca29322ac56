(** The state variables of the whole filter: what prediction, external propagation and
    correction do to well-formed states. *)

From Coq Require Import Reals ZArith List Bool Lia Lra.
From Verif Require Import Outcome Geom StateList Propagate ProcNoise Fuzzy Filter StateListProofs QdProofs FuzzyProofs GeomProofs
  PropertiesState.
Import ListNotations.
Open Scope R_scope.

(** A well-formed variable: value of the declared shape, quaternions of unit length, noise
    block of an auxiliary variable a multiple of the identity. *)
Definition var_ok (i : inst) : Prop :=
  shape_ok i /\ (forall q, ival i = VQuat q -> qnorm2 q = 1) /\
  (auxiliary (itype i) -> exists d, 0 <= d /\ forall a b, iQ i a b = if Nat.eqb a b then d else 0).
Definition fine (l : list svar) (s : state) : Prop := types s = l /\ Forall var_ok s.

(** A list of variables the code compiles for, core variables first. *)
Definition list_ok (l : list svar) : Prop :=
  compiles l /\ enum_ok l /\ core_first l /\ (forall x, In x l -> vkd x = KQuat -> vopt x = 0%Z).

Lemma nth_error_all : forall (A : Type) (x y : list A), (forall k, nth_error x k = nth_error y k) -> x = y.
Proof.
  intros A. induction x as [|a x IH]; intros [|b y] H; try reflexivity.
  - discriminate (H 0%nat).
  - discriminate (H 0%nat).
  - pose proof (H 0%nat) as E. injection E as ->. f_equal. apply IH. intros k. exact (H (S k)).
Qed.

Section Vars.
Variable l : list svar.
Hypothesis Hl : list_ok l.

Lemma fine_shapes : forall s, fine l s -> Forall shape_ok s.
Proof. intros s [_ H]. eapply Forall_impl; [|exact H]. intros i [Hi _]. exact Hi. Qed.
Lemma fine_noise : forall s, fine l s -> aux_noise_ok s.
Proof. intros s [_ H] i Hi. rewrite Forall_forall in H. apply (H i Hi). Qed.
Lemma fine_length : forall s, fine l s -> length s = length l.
Proof. intros s [<- _]. unfold types. rewrite map_length. reflexivity. Qed.
Lemma fine_nth : forall s k x, fine l s -> nth_error l k = Some x ->
  exists i, nth_error s k = Some i /\ itype i = x /\ var_ok i.
Proof.
  intros s k x [Ht Hv] Hx. rewrite <- Ht in Hx. unfold types in Hx. rewrite nth_error_map in Hx.
  destruct (nth_error s k) as [i|] eqn:E; [|discriminate]. cbn in Hx. injection Hx as <-.
  exists i. split; [reflexivity|]. split; [reflexivity|].
  rewrite Forall_forall in Hv. apply Hv. eapply nth_error_In, E.
Qed.
Lemma fine_var : forall s k i, fine l s -> nth_error s k = Some i -> var_ok i.
Proof. intros s k i [_ Hv] E. rewrite Forall_forall in Hv. apply Hv. eapply nth_error_In, E. Qed.
Lemma fine_intro : forall s, length s = length l ->
  (forall k i, nth_error s k = Some i -> nth_error l k = Some (itype i) /\ var_ok i) -> fine l s.
Proof.
  intros s Hlen H. split.
  - apply nth_error_all. intros k. unfold types. rewrite nth_error_map.
    destruct (nth_error s k) as [i|] eqn:E; cbn; [symmetry; apply (H k i E)|].
    symmetry. apply nth_error_None. rewrite <- Hlen. apply nth_error_None, E.
  - apply Forall_forall. intros i Hi. apply In_nth_error in Hi as [k Hk]. apply (H k i Hk).
Qed.

(** ** Reading *)

Lemma read_v3 : forall s k x, fine l s -> nth_error l k = Some x -> vkd x = KVec 3 -> exists a, get_v3 s k = Ok a.
Proof.
  intros s k x Hf Hx Hk. destruct (fine_nth s k x Hf Hx) as (i & Ei & Et & (Hs & _)).
  unfold get_v3. rewrite Ei. unfold shape_ok in Hs. rewrite Et, Hk in Hs. destruct (ival i) as [y|]; [|contradiction].
  destruct y as [|? [|? [|? [|]]]]; try discriminate Hs. eauto.
Qed.
Lemma read_real : forall s k x, fine l s -> nth_error l k = Some x -> vkd x = KVec 1 -> exists a, get_real s k = Ok a.
Proof.
  intros s k x Hf Hx Hk. destruct (fine_nth s k x Hf Hx) as (i & Ei & Et & (Hs & _)).
  unfold get_real. rewrite Ei. unfold shape_ok in Hs. rewrite Et, Hk in Hs. destruct (ival i) as [y|]; [|contradiction].
  destruct y as [|? [|]]; try discriminate Hs. eauto.
Qed.
Lemma read_quat : forall s k x, fine l s -> nth_error l k = Some x -> vkd x = KQuat ->
  exists q, get_quat s k = Ok q /\ qnorm2 q = 1.
Proof.
  intros s k x Hf Hx Hk. destruct (fine_nth s k x Hf Hx) as (i & Ei & Et & (Hs & Hu & _)).
  unfold get_quat. rewrite Ei. unfold shape_ok in Hs. rewrite Et, Hk in Hs. destruct (ival i) as [|q]; [contradiction|].
  eauto.
Qed.

Lemma core_vars_at : exists a b c d e,
  nth_error l 0 = Some a /\ nth_error l 1 = Some b /\ nth_error l 2 = Some c /\ nth_error l 3 = Some d /\ nth_error l 4 = Some e /\
  vkd a = KVec 3 /\ vkd b = KVec 3 /\ vkd c = KQuat /\ vkd d = KVec 3 /\ vkd e = KVec 3.
Proof.
  destruct Hl as (_ & _ & Hf & _). destruct (core_first_split l Hf) as (a & b & c & d & e & r & -> & K).
  exists a, b, c, d, e. repeat split; tauto.
Qed.

(** ** Writing *)

Lemma set_val_nth : forall s k x j, nth_error (set_val s k x) j =
  if Nat.eqb j k then match nth_error s j with Some i => Some (Inst (itype i) x (iQ i) (ireset i)) | None => None end
  else nth_error s j.
Proof.
  induction s as [|i s IH]; intros k x j.
  - destruct k, j; cbn; try reflexivity. destruct (Nat.eqb j k); reflexivity.
  - destruct k, j; cbn [set_val nth_error Nat.eqb]; try reflexivity. apply IH.
Qed.
Lemma set_val_length : forall s k x, length (set_val s k x) = length s.
Proof. induction s as [|i s IH]; intros [|k] x; cbn; try reflexivity. f_equal. apply IH. Qed.

Lemma set_fine : forall s k x t, fine l s -> nth_error l k = Some t ->
  (match vkd t, x with KVec n, VVec y => length y = n | KQuat, VQuat q => qnorm2 q = 1 | _, _ => False end) ->
  fine l (set_val s k x).
Proof.
  intros s k x t Hf Ht Hx. apply fine_intro; [rewrite set_val_length; apply fine_length, Hf|].
  intros j i. rewrite set_val_nth. destruct (Nat.eqb_spec j k) as [->|Hne].
  - destruct (fine_nth s k t Hf Ht) as (i0 & Ei & Et & (Hs & Hu & Ha)). rewrite Ei. intros [= <-]. cbn [itype].
    split; [rewrite Et; exact Ht|]. unfold var_ok, shape_ok. cbn [itype ival iQ]. rewrite Et in *.
    split; [|split; [|exact Ha]].
    + destruct (vkd t), x; try contradiction; try exact Hx. exact I.
    + intros q ->. destruct (vkd t); [contradiction|]. exact Hx.
  - intros Ei. destruct Hf as [Ht' Hv]. split; [rewrite <- Ht'; apply types_nth, Ei|].
    rewrite Forall_forall in Hv. apply Hv. eapply nth_error_In, Ei.
Qed.

Lemma set_vec3 : forall s k a t, fine l s -> nth_error l k = Some t -> vkd t = KVec 3 -> fine l (set_val s k (vvec a)).
Proof. intros s k a t Hf Ht Hk. apply (set_fine s k _ t Hf Ht). rewrite Hk. reflexivity. Qed.
Lemma set_quat : forall s k q t, fine l s -> nth_error l k = Some t -> vkd t = KQuat -> qnorm2 q = 1 ->
  fine l (set_val s k (VQuat q)).
Proof. intros s k q t Hf Ht Hk Hq. apply (set_fine s k _ t Hf Ht). rewrite Hk. exact Hq. Qed.

(** ** Fresh states *)

Lemma one_unit : qnorm2 qone = 1.
Proof. unfold qnorm2, qone. cbn. ring. Qed.

Lemma reset_var_ok : forall x i, reset_one (Inst x (VVec []) (fun _ _ => 0) false) = i -> itype i = x /\ var_ok i.
Proof.
  intros x i <-. split; [reflexivity|]. unfold var_ok, shape_ok, reset_one. cbn [itype ival iQ].
  split; [|split].
  - destruct (vkd x); [apply repeat_length|exact I].
  - intros q. destruct (vkd x); [discriminate|]. intros [= <-]. apply one_unit.
  - intros _. exists 0. split; [lra|]. intros a b. destruct (Nat.eqb a b); reflexivity.
Qed.
Lemma blank_nth : forall k, nth_error (blank l) k = match nth_error l k with
  Some x => Some (reset_one (Inst x (VVec []) (fun _ _ => 0) false)) | None => None end.
Proof. intros k. unfold blank. rewrite nth_error_map. destruct (nth_error l k); reflexivity. Qed.
Lemma blank_fine : fine l (blank l).
Proof.
  apply fine_intro; [unfold blank; apply map_length|]. intros k i. rewrite blank_nth.
  destruct (nth_error l k) as [x|]; [|discriminate]. intros [= E]. destruct (reset_var_ok x i E) as [-> Hv]. auto.
Qed.
Lemma reset_twice : forall i, reset_one (reset_one i) = reset_one i.
Proof. intros i. reflexivity. Qed.

(** A state built from [old] by copying what is not propagated and [cur] elsewhere. *)
Lemma copy_fine : forall old cur s, fine l old -> fine l cur -> length s = length cur ->
  (forall k i, nth_error cur k = Some i -> nth_error s k = match vtype (itype i) with CoreProp => Some i | _ => nth_error old k end) ->
  fine l s.
Proof.
  intros old cur s Ho Hc Hlen H. apply fine_intro; [rewrite Hlen; apply fine_length, Hc|].
  intros k i Hi.
  assert (Hk : (k < length cur)%nat) by (rewrite <- Hlen; apply nth_error_Some; congruence).
  destruct (nth_error cur k) as [j|] eqn:Ej; [|apply nth_error_None in Ej; lia].
  rewrite (H k j Ej) in Hi.
  destruct (vtype (itype j)).
  1: injection Hi as ->; split; [destruct Hc as [<- _]; apply types_nth, Ej|eapply fine_var; eassumption].
  all: (split; [destruct Ho as [<- _]; apply types_nth, Hi|eapply fine_var; [exact Ho|eassumption]]).
Qed.

(** ** Prediction *)

(** Variables other than p, v, q that are not propagated keep everything. *)
Definition carried (s s' : state) : Prop :=
  forall k i, nth_error s k = Some i -> (2 < k)%nat -> vtype (itype i) <> CoreProp -> nth_error s' k = Some i.

Lemma prepare_fine : forall s, fine l s -> exists s0, prepare_propagation s (blank l) = Ok s0 /\ fine l s0 /\ carried s s0.
Proof.
  intros s Hf. destruct Hl as (Hc & Hn & _).
  pose proof blank_fine as Hb. destruct Hf as [Ht Hv]. destruct Hb as [Hbt Hbv].
  destruct (prepare_spec s (blank l)) as (s0 & E & Hlen & H); [congruence| | |].
  { rewrite Hbt. exact Hc. }
  { rewrite Hbt. exact Hn. }
  exists s0. split; [exact E|]. split.
  - eapply (copy_fine s (blank l)); [split; assumption|split; assumption|exact Hlen|].
    intros k i Hi. rewrite (H k i Hi). destruct (vtype (itype i)); try reflexivity. f_equal.
    rewrite blank_nth in Hi. destruct (nth_error l k); [|discriminate]. injection Hi as <-. apply reset_twice.
  - intros k i Hi Hk Hp.
    assert (Hb2 : exists j, nth_error (blank l) k = Some j /\ itype j = itype i).
    { rewrite blank_nth, <- Ht, (types_nth s k i Hi). eexists. split; [reflexivity|reflexivity]. }
    destruct Hb2 as (j & Ej & Etj). rewrite (H k j Ej), Etj. destruct (vtype (itype i)); [congruence|exact Hi..].
Qed.

Lemma carried_set : forall s s0 k x, (k <= 2)%nat -> carried s s0 -> carried s (set_val s0 k x).
Proof.
  intros s s0 k x Hk H j i Hj Hlt Hp. rewrite set_val_nth. replace (Nat.eqb j k) with false by (symmetry; apply Nat.eqb_neq; lia).
  apply H; assumption.
Qed.

Theorem propagate_fine : forall s dt u u', fine l s ->
  exists s', propagate_state core_layout dt s (blank l) u u' = Ok s' /\ fine l s' /\ carried s s'.
Proof.
  intros s dt u u' Hf. destruct (prepare_fine s Hf) as (s0 & E & Hf0 & Hc0).
  destruct core_vars_at as (a & b & c & d & e & Xa & Xb & Xc & Xd & Xe & Ka & Kb & Kc & Kd & Ke).
  unfold propagate_state. rewrite E. cbn [bind core_layout ip iv iq ibw iba].
  destruct (read_v3 s0 3 d Hf0 Xd Kd) as [y1 ->]. destruct (read_v3 s 3 d Hf Xd Kd) as [y2 ->].
  destruct (read_v3 s0 4 e Hf0 Xe Ke) as [y3 ->]. destruct (read_v3 s 4 e Hf Xe Ke) as [y4 ->].
  destruct (read_quat s 2 c Hf Xc Kc) as (q & -> & Hq).
  destruct (read_v3 s 1 b Hf Xb Kb) as [y5 ->]. destruct (read_v3 s 0 a Hf Xa Ka) as [y6 ->].
  cbn [bind]. eexists. split; [reflexivity|]. split.
  - eapply set_vec3; [|exact Xa|exact Ka]. eapply set_vec3; [|exact Xb|exact Kb].
    eapply set_quat; [exact Hf0|exact Xc|exact Kc|].
    change (qnorm2 (propagate_q (v3sub (iw u') y1) (v3sub (iw u) y2) dt q) = 1).
    apply propagate_q_unit. lra.
  - repeat apply carried_set; try lia. exact Hc0.
Qed.

Theorem ext_fine : forall s p w q, fine l s -> qnorm2 q = 1 ->
  exists s', for_each (copy_nonprop s) (set_val (set_val (set_val (blank l) 0 (vvec p)) 1 (vvec w)) 2 (VQuat q)) = Ok s' /\
    fine l s' /\ carried s s'.
Proof.
  intros s p w q Hf Hq.
  destruct core_vars_at as (a & b & c & d & e & Xa & Xb & Xc & Xd & Xe & Ka & Kb & Kc & Kd & Ke).
  remember (set_val (set_val (set_val (blank l) 0 (vvec p)) 1 (vvec w)) 2 (VQuat q)) as cur eqn:Dcur.
  assert (Hcur : fine l cur).
  { rewrite Dcur. eapply set_quat; [|exact Xc|exact Kc|exact Hq]. eapply set_vec3; [|exact Xb|exact Kb].
    eapply set_vec3; [exact blank_fine|exact Xa|exact Ka]. }
  clear Dcur. destruct Hl as (Hc & Hn & _).
  assert (Hlen : length s = length cur) by (rewrite !fine_length; auto).
  assert (Hone : forall k i, nth_error cur k = Some i ->
            exists i', copy_nonprop s i = Ok i' /\
              Some i' = match vtype (itype i) with CoreProp => Some i | _ => nth_error s k end).
  { intros k i Hk. unfold copy_nonprop.
    assert (Ht : nth_error l k = Some (itype i)) by (destruct Hcur as [<- _]; apply types_nth, Hk).
    assert (Hg : get_var s (vname (itype i)) = nth_error s k).
    { rewrite (compiles_names _ Hc Hn k (itype i) Ht).
      apply get_var_at. rewrite Hlen. apply nth_error_Some. rewrite Hk. discriminate. }
    destruct (nth_error_same_length cur s k i (eq_sym Hlen) Hk) as [o Ho].
    rewrite Hg, Ho. destruct (vtype (itype i)); eauto. }
  destruct (for_each_all (copy_nonprop s) cur) as (s' & Hs' & HF).
  { intros j Hj. apply In_nth_error in Hj as [k Hk]. destruct (Hone k j Hk) as (i' & Hi' & _). eauto. }
  assert (H : forall k i, nth_error cur k = Some i ->
            nth_error s' k = match vtype (itype i) with CoreProp => Some i | _ => nth_error s k end).
  { intros k i Hk. destruct (Forall2_nth _ _ _ k _ HF Hk) as (i' & Hi' & He).
    destruct (Hone k i Hk) as (i2 & He2 & Hs). rewrite He in He2. injection He2 as <-. rewrite Hi', Hs. reflexivity. }
  exists s'. split; [exact Hs'|]. split.
  - eapply copy_fine; [exact Hf|exact Hcur|symmetry; eapply F2_length, HF|exact H].
  - intros k i Hi Hk Hp.
    destruct (nth_error_same_length s cur k i Hlen Hi) as [j Hj].
    assert (Et : itype j = itype i).
    { pose proof (types_nth s k i Hi) as T1. pose proof (types_nth cur k j Hj) as T2.
      destruct Hf as [E1 _]. destruct Hcur as [E2 _]. rewrite E1 in T1. rewrite E2 in T2. congruence. }
    rewrite (H k j Hj), Et. destruct (vtype (itype i)); [congruence|exact Hi..].
Qed.

(** ** Correction *)

Lemma corrected_ok : forall data st i i', var_ok i -> corrected data st i i' -> var_ok i'.
Proof.
  intros data st i i' (Hs & Hu & Ha) (Et & EQ & _ & Hv). unfold var_ok, shape_ok in *. rewrite Et, EQ.
  destruct (vkd (itype i)), (ival i) as [x|q], (ival i') as [x'|q']; try contradiction.
  - destruct Hv as [-> _]. split; [exact Hs|]. split; [discriminate|exact Ha].
  - split; [exact I|]. split; [|exact Ha]. intros q0 [= <-]. subst q'.
    assert (Hq := Hu q eq_refl).
    match goal with |- qnorm2 (qnormalize (qmul q (small_quat ?t))) = 1 => pose proof (correction_unit q t Hq) as E end.
    exact E.
Qed.

Theorem correct_fine : forall fb s data, fine l s -> Z.of_nat (length data) = count_states corr_len l ->
  exists s1, apply_correction fb 3 4 data s = Ok s1 /\ fine l s1.
Proof.
  intros fb s data Hf Hd. destruct Hl as (Hc & Hn & _ & Hq). pose proof (fine_shapes s Hf) as Hs.
  assert (Hcor : forall d, length d = length data -> exists s1, correct d s = Ok s1 /\ fine l s1).
  { intros d Ed. destruct Hf as [Ht Hv]. 
    destruct (correct_spec s d) as (s1 & E & Hlen & H); try (rewrite Ht; assumption); try assumption; [rewrite Ed, Ht; exact Hd|].
    exists s1. split; [exact E|]. apply fine_intro; [rewrite Hlen, <- Ht; unfold types; rewrite map_length; reflexivity|].
    intros k i' Hi'.
    destruct (nth_error_same_length s1 s k i' Hlen Hi') as [i Hi].
    destruct (H k i Hi) as (i2 & Hi2 & Hco). rewrite Hi' in Hi2. injection Hi2 as <-.
    split; [destruct Hco as [-> _]; rewrite <- Ht; apply types_nth, Hi|].
    eapply corrected_ok; [|exact Hco]. eapply (fine_var s); [split; eassumption|exact Hi]. }
  unfold apply_correction. destruct fb; [|apply Hcor; reflexivity].
  destruct core_vars_at as (a & b & c & d & e & Xa & Xb & Xc & Xd & Xe & Ka & Kb & Kc & Kd & Ke).
  destruct Hf as [Ht Hv]. unfold enum_type. rewrite Ht, Xe, Xd. apply Hcor. rewrite !zero_seg_length. reflexivity.
Qed.
End Vars.

(** ** The sanity check and the failure detector *)

Section Whole.
Variable cfg : config.
Hypothesis Hl : list_ok (c_vars cfg).
Notation fine := (fine (c_vars cfg)).

Lemma sanity_nth : forall s k, nth_error (sanity cfg s) k =
  match c_scale cfg, nth_error s k with
  | Some k0, Some i => if Nat.eqb k k0 then
      match ival i with VVec [L] => if Rlt_dec L 0 then Some (Inst (itype i) (VVec [1 / 10]) (iQ i) (ireset i)) else Some i
                   | _ => Some i end else Some i
  | _, o => o
  end.
Proof.
  intros s k. unfold sanity. destruct (c_scale cfg) as [k0|]; [|reflexivity].
  destruct (nth_error s k0) as [i0|] eqn:E0.
  - destruct (nth_error s k) as [i|] eqn:E.
    + destruct (Nat.eqb_spec k k0) as [->|Hne].
      * rewrite E0 in E. injection E as <-. destruct (ival i0) as [[|L [|]]|]; try exact E0.
        destruct (Rlt_dec L 0); [|exact E0]. rewrite set_val_nth, Nat.eqb_refl, E0. reflexivity.
      * destruct (ival i0) as [[|L [|]]|]; try exact E. destruct (Rlt_dec L 0); [|exact E].
        rewrite set_val_nth, (proj2 (Nat.eqb_neq k k0) Hne). exact E.
    + destruct (ival i0) as [[|L [|]]|]; try exact E. destruct (Rlt_dec L 0); [|exact E].
      rewrite set_val_nth, E. destruct (Nat.eqb k k0); reflexivity.
  - destruct (nth_error s k) as [i|] eqn:E; [|reflexivity].
    destruct (Nat.eqb_spec k k0) as [->|Hne]; [congruence|reflexivity].
Qed.
Lemma sanity_length : forall s, length (sanity cfg s) = length s.
Proof.
  intros s. unfold sanity. destruct (c_scale cfg); [|reflexivity]. destruct (nth_error s n) as [i|]; [|reflexivity].
  destruct (ival i) as [[|L [|]]|]; try reflexivity. destruct (Rlt_dec L 0); [apply set_val_length|reflexivity].
Qed.
Lemma sanity_fine : forall s, fine s -> fine (sanity cfg s).
Proof.
  intros s Hf. unfold sanity. destruct (c_scale cfg) as [k|]; [|exact Hf].
  destruct (nth_error s k) as [i|] eqn:E; [|exact Hf]. destruct (ival i) as [[|L [|]]|] eqn:Ev; try exact Hf.
  destruct (Rlt_dec L 0); [|exact Hf]. pose proof (fine_var _ s k i Hf E) as (Hs & _).
  eapply (set_fine _ Hl); [exact Hf|destruct Hf as [<- _]; apply types_nth, E|].
  unfold shape_ok in Hs. rewrite Ev in Hs. destruct (vkd (itype i)); [exact Hs|contradiction].
Qed.

(** The watched variable is a quaternion. *)
Definition watch_ok : Prop := forall k, c_watch cfg = Some k -> exists x, nth_error (c_vars cfg) k = Some x /\ vkd x = KQuat.
Definition mem_ok (g : fmem) : Prop := match g with GMem f => exists acc, ring acc f | GNan => True end.

(** The corrected state: each variable is the corrected one after the sanity check, or, if it is
    not propagated and the detector fires, the old one. *)
Theorem corr_fine : forall data s g, watch_ok -> mem_ok g -> fine s ->
  Z.of_nat (length data) = count_states corr_len (c_vars cfg) ->
  exists s1, apply_correction (c_fixed_bias cfg) 3 4 data s = Ok s1 /\ fine s1 /\
    match c_watch cfg, g with
    | Some k, GMem f =>
      exists b f' s', apply_correction_full k (fun d => d) (fun s1 _ _ => sanity cfg s1) (c_fixed_bias cfg) 3 4 f data (1 / 10) s = Ok (b, f', s') /\
        mem_ok (GMem f') /\ fine s' /\
        forall j, nth_error s' j = nth_error (sanity cfg s1) j \/ nth_error s' j = nth_error s j
    | _, _ => True
    end.
Proof.
  intros data s g Hw Hm Hf Hd.
  destruct (correct_fine (c_vars cfg) Hl (c_fixed_bias cfg) s data Hf Hd) as (s1 & E & Hf1).
  exists s1. split; [exact E|]. split; [exact Hf1|].
  destruct (c_watch cfg) as [k|] eqn:Ew; [|exact I]. destruct g as [f|]; [|exact I].
  destruct Hm as [acc Hr]. destruct (Hw k Ew) as (x & Ex & Kx).
  pose proof (sanity_fine s1 Hf1) as Hf2.
  destruct (read_quat _ _ k x Hf2 Ex Kx) as (q & Eq & _).
  destruct (check_spec k acc f (sanity cfg s1) s (1 / 10) q Hr) as (b & f' & s' & Ec & Ht & Hff).
  - destruct Hf as [-> _]. destruct Hf2 as [-> _]. reflexivity.
  - destruct Hf2 as [-> _]. apply Hl.
  - destruct Hf2 as [-> _]. apply Hl.
  - exact Eq.
  - exists b, f', s'. split; [unfold apply_correction_full; rewrite E; exact Ec|].
    destruct b.
    + destruct (Ht eq_refl) as (_ & -> & Hlen & Hs). split; [exists acc; exact Hr|]. split.
      * eapply (copy_fine _ Hl); [exact Hf|exact Hf2|exact Hlen|exact Hs].
      * intros j. destruct (nth_error (sanity cfg s1) j) as [i|] eqn:Ej.
        -- rewrite (Hs j i Ej). destruct (vtype (itype i)); auto.
        -- left. apply nth_error_None in Ej. apply nth_error_None. lia.
    + destruct (Hff eq_refl) as (-> & Hr'). split; [eexists; exact Hr'|]. split; [exact Hf2|]. intros j. left. reflexivity.
Qed.
End Whole.
