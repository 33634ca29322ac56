(** C71: the relay passes on what its switches let through. *)

From Coq Require Import List Bool Arith Lia.
From Verif Require Import Relay.
Import ListNotations.

Set Implicit Arguments.

Section Relay.
Variable content : Type.
Notation event := (event content).
Notation out := (list (msg_kind * content)).

(** The switches in force after some events: the last ones set *)
Inductive in_force (start : switches) : list event -> switches -> Prop :=
| f_start es : (forall c, ~ In (Config content c) es) -> in_force start es start
| f_set pre c post : (forall d, ~ In (Config content d) post) -> in_force start (pre ++ Config content c :: post) c.

Definition position_kind (k : msg_kind) : Prop := k = KNavSat \/ k = KPoint.
Definition lets_through (c : switches) (k : msg_kind) : Prop :=
  (position_kind k -> publish_position c = true) /\ (~ position_kind k -> publish_pose c = true).

Lemma relay_app s (es fs : list event) : relay s (es ++ fs) = relay (relay s es) fs.
Proof. apply fold_left_app. Qed.
Lemma config_step s c : relay_step s (Config content c) = (c, snd s).
Proof. reflexivity. Qed.

Lemma quiet_switches (es : list event) s : (forall c, ~ In (Config content c) es) -> fst (relay s es) = fst s.
Proof.
revert s; induction es as [|e es IH]; intros s h; [reflexivity|].
change (fst (relay (relay_step s e) es) = fst s); rewrite IH.
- destruct e as [c|k m]; [|reflexivity]; exfalso; apply (h c); now left.
- intros c hc; apply (h c); now right.
Qed.

Lemma in_force_relay start es c s : fst s = start -> in_force start es c -> fst (relay s es) = c.
Proof.
intros hs h; destruct h as [es h|pre c post h].
- now rewrite quiet_switches.
- rewrite relay_app; change (relay (relay s pre) (Config content c :: post)) with (relay (relay_step (relay s pre) (Config content c)) post).
  now rewrite quiet_switches.
Qed.

Lemma in_force_some start (es : list event) : exists c, in_force start es c.
Proof.
induction es as [|e es IH] using rev_ind.
- exists start; apply f_start; intros c [].
- destruct e as [c|k m].
  + exists c; apply (@f_set start es c []); intros d [].
  + destruct IH as [c h]; destruct h as [es h|pre c post h].
    * exists start; apply f_start; intros c hc; apply in_app_or in hc; destruct hc as [hc|[hc|[]]]; [now apply (h c)|discriminate].
    * exists c; rewrite <- app_assoc, <- app_comm_cons; apply f_set.
      intros d hd; apply in_app_or in hd; destruct hd as [hd|[hd|[]]]; [now apply (h d)|discriminate].
Qed.

Lemma published_last start (es : list event) e :
  published start (es ++ [e]) = snd (relay_step (relay (start, []) es) e).
Proof. unfold published; rewrite relay_app; reflexivity. Qed.
Lemma published_eq start (es : list event) : published start es = snd (relay (start, []) es).
Proof. reflexivity. Qed.

(** What one more event publishes *)
Theorem C71_relay start (es : list event) c : in_force start es c ->
  @published content start [] = [] /\
  (forall d, published start (es ++ [Config content d]) = published start es) /\
  (forall k m, lets_through c k -> published start (es ++ [Hear k m]) = published start es ++ [(k, m)]) /\
  (forall k m, ~ lets_through c k -> published start (es ++ [Hear k m]) = published start es).
Proof.
intros h; assert (hf := @in_force_relay start es c (start, []) eq_refl h).
split; [reflexivity|]; split; [|split].
- intros d; rewrite published_last; reflexivity.
- intros k m [h1 h2]; rewrite published_last, published_eq; cbn [relay_step snd]; f_equal; rewrite hf.
  unfold position_kind in *; destruct k; cbn [callback]; (rewrite h1 by tauto) || (rewrite h2 by (intros [e|e]; discriminate e)); reflexivity.
- intros k m hn; rewrite published_last, published_eq; cbn [relay_step snd]; rewrite hf.
  assert (e : callback c k m = []); [|rewrite e; apply app_nil_r].
  unfold lets_through, position_kind in hn; destruct k; cbn [callback];
    (destruct (publish_pose c) eqn:e1; destruct (publish_position c) eqn:e2; try reflexivity; exfalso; apply hn; split; intros;
     try reflexivity; try congruence; try (destruct H; discriminate); try (exfalso; tauto)).
Qed.
Print Assumptions C71_relay.

(** Hence: nothing is invented, changed, doubled or overtaken *)
Inductive part_of {T : Type} : list T -> list T -> Prop :=
| p_nil : part_of [] []
| p_skip x l m : part_of l m -> part_of l (x :: m)
| p_keep x l m : part_of l m -> part_of (x :: l) (x :: m).
Fixpoint heard (es : list event) : out :=
  match es with [] => [] | Config _ _ :: es => heard es | Hear k m :: es => (k, m) :: heard es end.

Lemma part_skip_last {T : Type} (l m : list T) x : part_of l m -> part_of l (m ++ [x]).
Proof. induction 1; cbn; [apply p_skip, p_nil|now apply p_skip|now apply p_keep]. Qed.
Lemma part_keep_last {T : Type} (l m : list T) x : part_of l m -> part_of (l ++ [x]) (m ++ [x]).
Proof. induction 1; cbn; [apply p_keep, p_nil|now apply p_skip|now apply p_keep]. Qed.
Lemma heard_app es fs : heard (es ++ fs) = heard es ++ heard fs.
Proof. induction es as [|[c|k m] es IH]; cbn; [reflexivity|exact IH|now rewrite IH]. Qed.
Lemma through_dec c k : lets_through c k \/ ~ lets_through c k.
Proof.
unfold lets_through, position_kind; destruct (publish_pose c), (publish_position c), k;
  (left; split; intros; first [reflexivity|exfalso; tauto|destruct H; discriminate]) || (right; intros [h1 h2]; (assert (false = true) by (apply h1; tauto); discriminate) || (assert (false = true) by (apply h2; intros [?|?]; discriminate); discriminate)).
Qed.

Theorem C71_in_order start es : part_of (published start es) (heard es).
Proof.
induction es as [|e es IH] using rev_ind; [apply p_nil|].
destruct (in_force_some start es) as [c h]; destruct (C71_relay h) as [_ [h1 [h2 h3]]]; rewrite heard_app.
destruct e as [d|k m]; cbn [heard].
- rewrite h1, app_nil_r; exact IH.
- destruct (through_dec c k) as [y|n]; [rewrite h2 by exact y; now apply part_keep_last|].
  rewrite h3 by exact n; now apply part_skip_last.
Qed.
Print Assumptions C71_in_order.

(** With both switches on throughout the relay is transparent. *)
Theorem C71_transparent es : (forall c, In (Config content c) es -> c = Switches true true) ->
  published (Switches true true) es = heard es.
Proof.
induction es as [|e es IH] using rev_ind; intros h; [reflexivity|].
destruct (in_force_some (Switches true true) es) as [c hf]; destruct (C71_relay hf) as [_ [h1 [h2 h3]]]; rewrite heard_app.
assert (ec : c = Switches true true).
{ destruct hf as [es _|pre c post _]; [reflexivity|]; apply h; apply in_or_app; left; apply in_or_app; right; now left. }
rewrite <- IH by (intros d hd; apply h; apply in_or_app; now left).
destruct e as [d|k m]; cbn [heard]; [rewrite h1; symmetry; apply app_nil_r|].
apply h2; subst c; split; reflexivity.
Qed.
Print Assumptions C71_transparent.

(** The poses do not influence the positions: two runs with the same position messages and the
    same position switch publish the same positions, whatever the poses and the other switch. *)
Inductive alike : list event -> list event -> Prop :=
| a_nil : alike [] []
| a_position k m es fs : position_kind k -> alike es fs -> alike (Hear k m :: es) (Hear k m :: fs)
| a_left k m es fs : ~ position_kind k -> alike es fs -> alike (Hear k m :: es) fs
| a_right k m es fs : ~ position_kind k -> alike es fs -> alike es (Hear k m :: fs)
| a_switch c d es fs : publish_position c = publish_position d -> alike es fs ->
    alike (Config content c :: es) (Config content d :: fs).
Definition is_position (x : msg_kind * content) : bool :=
  match fst x with KNavSat | KPoint => true | _ => false end.

Lemma alike_relay es fs : alike es fs -> forall s t,
  publish_position (fst s) = publish_position (fst t) -> filter is_position (snd s) = filter is_position (snd t) ->
  filter is_position (snd (relay s es)) = filter is_position (snd (relay t fs)).
Proof.
induction 1 as [|k m es fs hk _ IH|k m es fs hk _ IH|k m es fs hk _ IH|c d es fs e _ IH]; intros s t h1 h2.
- exact h2.
- apply (IH (relay_step s (Hear k m)) (relay_step t (Hear k m))); [exact h1|]; cbn [relay_step snd].
  rewrite !filter_app, h2; f_equal; destruct hk as [-> | ->]; cbn [callback]; now rewrite h1.
- apply (IH (relay_step s (Hear k m)) t); [exact h1|]; cbn [relay_step snd]; rewrite filter_app, h2.
  assert (e : filter is_position (callback (fst s) k m) = []); [|rewrite e; apply app_nil_r].
  destruct k; cbn [callback]; try (destruct (publish_pose (fst s)); reflexivity); exfalso; apply hk; [now left|now right].
- apply (IH s (relay_step t (Hear k m))); [exact h1|]; cbn [relay_step snd]; rewrite filter_app, h2.
  assert (e : filter is_position (callback (fst t) k m) = []); [|rewrite e; symmetry; apply app_nil_r].
  destruct k; cbn [callback]; try (destruct (publish_pose (fst t)); reflexivity); exfalso; apply hk; [now left|now right].
- apply (IH (relay_step s (Config content c)) (relay_step t (Config content d))); [exact e|exact h2].
Qed.
Theorem C71_independent start1 start2 es fs : publish_position start1 = publish_position start2 -> alike es fs ->
  filter is_position (published start1 es) = filter is_position (published start2 fs).
Proof. intros h a; rewrite !published_eq; now apply (alike_relay a (start1, []) (start2, [])). Qed.
Print Assumptions C71_independent.
End Relay.

(** Poses are switched off between the first and the second one; the position passes. *)
Definition ex_events : list (event nat) :=
  [Hear KPose 1; Config nat (Switches false true); Hear KPose 2; Hear KNavSat 3; Config nat (Switches true false); Hear KPoint 4].
Example C71_relay_ex : in_force (Switches true true) ex_events (Switches true false) /\
  published (Switches true true) ex_events = [(KPose, 1); (KNavSat, 3)].
Proof.
split; [|reflexivity].
apply (@f_set nat (Switches true true) [Hear KPose 1; Config nat (Switches false true); Hear KPose 2; Hear KNavSat 3] (Switches true false)
  [Hear KPoint 4]).
intros d [h|[]]; discriminate h.
Qed.
Example C71_independent_ex : alike [Hear KPose 1; Hear KPoint 2; Config nat (Switches true true); Hear KPoint 3]
                                   [Hear KPoint 2; Config nat (Switches false true); Hear KTransform 9; Hear KPoint 3].
Proof.
assert (np : forall k, k = KPose \/ k = KTransform -> ~ position_kind k) by (intros k [-> | ->] [h|h]; discriminate h).
apply a_left; [apply np; tauto|]; apply a_position; [now right|]; apply a_switch; [reflexivity|].
apply a_right; [apply np; tauto|]; apply a_position; [now right|apply a_nil].
Qed.
