(** Lemmas for the timers. *)

From Coq Require Import Reals ZArith List Bool String Lia Lra Arith.
From Verif Require Import Outcome Handlers HandlersSpec HandlersProofs Timers TimersSpec.
Import ListNotations.
Open Scope Z_scope.
Local Notation length := List.length.

Lemma upd_set_nth {A} (l : list A) : forall i x, (i < length l)%nat -> upd l i x = set_nth l i x.
Proof.
  induction l as [|y r IH]; intros [|i] x h; cbn in *; try lia; auto.
  unfold set_nth in *. cbn. f_equal. apply IH. lia.
Qed.

Lemma upd_length {A} (l : list A) : forall i x, length (upd l i x) = length l.
Proof. induction l as [|y r IH]; intros [|i] x; cbn; auto. Qed.

Lemma nth_upd {A} (l : list A) : forall i j x, nth_error (upd l i x) j =
  if Nat.eqb i j then (if Nat.ltb i (length l) then Some x else None) else nth_error l j.
Proof.
  induction l as [|y r IH]; intros i j x.
  - destruct i, j; cbn; auto. destruct (Nat.eqb i j); auto.
  - destruct i, j; cbn; auto. rewrite IH. destruct (Nat.eqb i j); auto.
Qed.

Section P.
Variables (N : nat) (big tiny : R).
Hypothesis hN : (0 < N)%nat.
Notation new := (acc_new N big tiny).

Lemma acc_run_snoc xs : forall a x, acc_run N a (xs ++ [x]) =
  bind (acc_run N a xs) (fun a' => acc_add N a' x).
Proof.
  induction xs as [|y r IH]; intros a x; cbn [acc_run app].
  - cbn. destruct (acc_add N a x); reflexivity.
  - destruct (acc_add N a y); cbn [bind]; auto.
Qed.

Lemma acc_add_ok xs a x : acc_run N new xs = Ok a -> Z.of_nat (length xs) < int_max ->
  exists a', acc_add N a x = Ok a' /\ acc_run N new (xs ++ [x]) = Ok a'.
Proof.
  intros e h.
  destruct (acc_run_ok N big tiny hN (xs ++ [x]) [] new (acc_inv_new N big tiny hN)) as (a' & e' & _).
  { cbn [length Nat.add]. rewrite app_length. cbn. lia. }
  exists a'. split; auto. rewrite acc_run_snoc, e in e'. exact e'.
Qed.

Definition rel_obj (s : sheet) (b : nat) (t : timing) (ko : option known) (o : option timer) : Prop :=
  match ko, o with
  | None, None => True
  | Some k, Some x => started_at x = k_start k /\ is_timing x = k_running k /\
      (handle_of x < length (timers t))%nat /\ (k_resets k <= resets s)%nat /\
      (k_resets k = resets s -> find_tag (k_tag k) (tag_map t) = Some (handle_of x)) /\
      ((k_resets k < resets s)%nat -> (handle_of x < b)%nat)
  | _, _ => False
  end.

Record rel_t (s : sheet) (t : timing) (b : nat) : Prop := {
  r_b : (b <= length (timers t))%nat;
  r_range : forall tag h, find_tag tag (tag_map t) = Some h -> (b <= h < length (timers t))%nat;
  r_inj : forall t1 t2 h, find_tag t1 (tag_map t) = Some h -> find_tag t2 (tag_map t) = Some h -> t1 = t2;
  r_tag : forall tag h, In (tag, h) (tag_map t) -> find_tag tag (tag_map t) = Some h;
  r_max : forall tag h, find_tag tag (tag_map t) = Some h -> (String.length tag <= max_tag t)%nat;
  r_times : forall tag, match find_tag tag (tag_map t) with
    | Some h => exists a, nth_error (timers t) h = Some a /\ acc_run N new (times_of tag s) = Ok a
    | None => times_of tag s = [] end;
  r_old : forall h a, nth_error (timers t) h = Some a ->
    exists xs, acc_run N new xs = Ok a /\ (length xs <= length (measured s))%nat;
  r_meas : forall m, In m (measured s) -> (snd (fst m) <= resets s)%nat
}.

Definition rel (s : sheet) (p : prog) (b : nat) : Prop :=
  rel_t s (the_timing p) b /\ Forall2 (rel_obj s b (the_timing p)) (known_objects s) (objects p).

Lemma rel_blank : rel blank prog_new 0.
Proof.
  split; [|constructor]. constructor; cbn; auto; try discriminate; try contradiction.
  intros [|h]; discriminate.
Qed.

Lemma in_find m tag h : find_tag tag m = Some h -> In (tag, h) m.
Proof.
  induction m as [|[t g] r IH]; cbn; [discriminate|].
  destruct (String.eqb_spec t tag) as [->|]; [intros [= ->]|]; auto.
Qed.

Lemma rel_get_handle s t b tag h t' : rel_t s t b -> get_handle N big tiny tag t = (h, t') ->
  rel_t s t' b /\ find_tag tag (tag_map t') = Some h /\
  (forall tg g, find_tag tg (tag_map t) = Some g -> find_tag tg (tag_map t') = Some g) /\
  (length (timers t) <= length (timers t'))%nat.
Proof.
  intros R. unfold get_handle. destruct (find_tag tag (tag_map t)) as [g|] eqn:E.
  - intros [= <- <-]. auto.
  - intros [= <- <-]. cbn [timers tag_map].
    assert (X : forall tg g, find_tag tg (tag_map t) = Some g -> String.eqb tag tg = false).
    { intros tg g Hg. destruct (String.eqb_spec tag tg) as [->|]; auto. congruence. }
    split; [|split; [|split]].
    2: { cbn. now rewrite String.eqb_refl. }
    2: { intros tg g Hg. cbn. now rewrite (X _ _ Hg). }
    2: { rewrite app_length. lia. }
    constructor; cbn [timers tag_map find_tag max_tag].
    + rewrite app_length. generalize (r_b _ _ _ R). lia.
    + intros tg g. rewrite app_length. destruct (String.eqb tag tg).
      * intros [= <-]. cbn. generalize (r_b _ _ _ R). lia.
      * intros Hg. apply (r_range _ _ _ R) in Hg. lia.
    + intros t1 t2 g. destruct (String.eqb_spec tag t1) as [Et|], (String.eqb_spec tag t2) as [->|]; auto.
      * intros [= <-] H2. apply (r_range _ _ _ R) in H2. lia.
      * intros H1 [= <-]. apply (r_range _ _ _ R) in H1. lia.
      * apply (r_inj _ _ _ R).
    + intros tg g [[= <- <-]|Hin].
      * now rewrite String.eqb_refl.
      * apply (r_tag _ _ _ R) in Hin. now rewrite (X _ _ Hin).
    + intros tg g. destruct (String.eqb_spec tag tg) as [->|]; [lia|].
      intros Hg. apply (r_max _ _ _ R) in Hg. lia.
    + intros tg. generalize (r_times _ _ _ R tg). destruct (String.eqb_spec tag tg) as [->|].
      * rewrite E. intros ->. exists new. split; [apply nth_error_mid|reflexivity].
      * destruct (find_tag tg (tag_map t)) eqn:F; auto. intros (a & h1 & h2). exists a. split; auto.
        rewrite nth_error_app1; auto. apply (r_range _ _ _ R) in F. lia.
    + intros g a Ha. destruct (Nat.lt_ge_cases g (length (timers t))) as [L|L].
      * rewrite nth_error_app1 in Ha by auto. apply (r_old _ _ _ R) in Ha. exact Ha.
      * rewrite nth_error_app2 in Ha by auto.
        destruct (g - length (timers t))%nat as [|[|n]]; cbn in Ha; try discriminate.
        injection Ha as <-. exists []. split; [reflexivity|cbn; lia].
    + apply (r_meas _ _ _ R).
Qed.

Lemma times_of_snoc tag s s' m : resets s' = resets s -> measured s' = measured s ++ [m] ->
  times_of tag s' = times_of tag s ++
    (if (String.eqb (fst (fst m)) tag && Nat.eqb (snd (fst m)) (resets s))%bool then [snd m] else []).
Proof.
  intros hr hm. unfold times_of. rewrite hr, hm, filter_app, map_app. f_equal. cbn.
  destruct (_ && _)%bool; reflexivity.
Qed.

Lemma times_of_same tag s s' : resets s' = resets s -> measured s' = measured s -> times_of tag s' = times_of tag s.
Proof. intros hr hm. unfold times_of. now rewrite hr, hm. Qed.

Lemma times_length tag s : (length (times_of tag s) <= length (measured s))%nat.
Proof.
  unfold times_of. rewrite map_length.
  induction (measured s) as [|m r IH]; cbn; [lia|]. destruct (_ && _)%bool; cbn; lia.
Qed.

(** Adding a measured time. *)
Lemma rel_add s s' t b k x sec : rel_t s t b -> rel_obj s b t (Some k) (Some x) ->
  resets s' = resets s -> measured s' = measured s ++ [(k_tag k, k_resets k, sec)] ->
  Z.of_nat (length (measured s)) < int_max ->
  exists t', add_time N (handle_of x) sec t = Ok t' /\ rel_t s' t' b /\
    tag_map t' = tag_map t /\ length (timers t') = length (timers t).
Proof.
  intros R (_ & _ & hh & hle & hcur & hold) hr hm hl. unfold add_time.
  destruct (nth_error (timers t) (handle_of x)) as [a|] eqn:E.
  2: { apply nth_error_None in E. lia. }
  destruct (r_old _ _ _ R _ _ E) as (xs & e1 & l1).
  destruct (acc_add_ok xs a sec e1) as (a' & ea & e2); [lia|]. rewrite ea. cbn [bind].
  eexists; split; [reflexivity|]. cbn [timers tag_map]. rewrite upd_length.
  split; [|auto].
  constructor; cbn [timers tag_map max_tag]; rewrite ?upd_length.
  - apply (r_b _ _ _ R).
  - apply (r_range _ _ _ R).
  - apply (r_inj _ _ _ R).
  - apply (r_tag _ _ _ R).
  - apply (r_max _ _ _ R).
  - intros tg. rewrite (times_of_snoc tg _ _ _ hr hm). cbn [fst snd].
    generalize (r_times _ _ _ R tg). destruct (find_tag tg (tag_map t)) as [g|] eqn:F.
    + intros (a0 & n0 & r0). destruct (String.eqb_spec (k_tag k) tg) as [e|ne], (Nat.eqb_spec (k_resets k) (resets s)) as [er|ner]; cbn [andb].
      * rewrite <- e, (hcur er) in F. injection F as <-. rewrite E in n0. injection n0 as <-.
        exists a'. rewrite nth_upd, Nat.eqb_refl. destruct (Nat.ltb_spec (handle_of x) (length (timers t))); [|lia].
        split; auto. rewrite acc_run_snoc, r0. exact ea.
      * rewrite app_nil_r. exists a0. split; auto. rewrite nth_upd.
        destruct (Nat.eqb_spec (handle_of x) g) as [e'|]; auto.
        apply (r_range _ _ _ R) in F. specialize (hold ltac:(lia)). lia.
      * rewrite app_nil_r. exists a0. split; auto. rewrite nth_upd.
        destruct (Nat.eqb_spec (handle_of x) g) as [e'|]; auto. subst g.
        destruct ne. apply (r_inj _ _ _ R _ _ _ (hcur er) F).
      * rewrite app_nil_r. exists a0. split; auto. rewrite nth_upd.
        destruct (Nat.eqb_spec (handle_of x) g) as [e'|]; auto.
        apply (r_range _ _ _ R) in F. specialize (hold ltac:(lia)). lia.
    + intros ->. destruct (String.eqb_spec (k_tag k) tg) as [e|ne], (Nat.eqb_spec (k_resets k) (resets s)) as [er|ner]; cbn [andb app]; auto.
      rewrite <- e, (hcur er) in F. discriminate.
  - intros g a0. rewrite hm, app_length, nth_upd. cbn [length].
    destruct (Nat.eqb_spec (handle_of x) g) as [e'|].
    + destruct (Nat.ltb_spec (handle_of x) (length (timers t))); [|discriminate]. intros [= <-].
      exists (xs ++ [sec]). split; auto. rewrite app_length. cbn. lia.
    + intros Hn. destruct (r_old _ _ _ R _ _ Hn) as (ys & y1 & y2). exists ys. split; auto. lia.
  - rewrite hm, hr. intros m Hin. apply in_app_or in Hin as [Hin|[<-|[]]]; [apply (r_meas _ _ _ R); auto|auto].
Qed.

Lemma rel_obj_mono s s' t t' b ko o : rel_obj s b t ko o -> resets s' = resets s ->
  (forall tg g, find_tag tg (tag_map t) = Some g -> find_tag tg (tag_map t') = Some g) ->
  (length (timers t) <= length (timers t'))%nat -> rel_obj s' b t' ko o.
Proof.
  destruct ko as [k|], o as [x|]; cbn; auto. intros (h1 & h2 & h3 & h4 & h5 & h6) hr hm hl.
  rewrite hr. repeat split; auto. lia.
Qed.

Lemma forall2_mono {A B} (P Q : A -> B -> Prop) l1 l2 :
  (forall a b, P a b -> Q a b) -> Forall2 P l1 l2 -> Forall2 Q l1 l2.
Proof. intros h F. induction F; constructor; auto. Qed.

Lemma forall2_set {A B} (P : A -> B -> Prop) l1 : forall l2 i x y,
  Forall2 P l1 l2 -> P x y -> (i < length l1)%nat -> Forall2 P (set_nth l1 i x) (upd l2 i y).
Proof.
  induction l1 as [|a r IH]; intros l2 i x y F H L; cbn in L; [lia|].
  inversion F; subst. destruct i; cbn.
  - constructor; auto.
  - constructor; auto. apply IH; auto. lia.
Qed.

Lemma forall2_nth {A B} (P : A -> B -> Prop) l1 : forall l2 i, Forall2 P l1 l2 ->
  match nth_error l1 i, nth_error l2 i with
  | Some x, Some y => P x y | None, None => True | _, _ => False end.
Proof.
  intros l2 i F; revert i. induction F; intros [|i]; cbn; auto. apply IHF.
Qed.

Lemma rel_lookup s p b i : rel s p b ->
  match nth_error (known_objects s) i with
  | Some (Some k) => exists x, object p i = Ok x /\ rel_obj s b (the_timing p) (Some k) (Some x) /\
       (i < length (known_objects s))%nat
  | _ => object p i = UB end.
Proof.
  intros [_ F]. generalize (forall2_nth _ _ _ i F). unfold object.
  destruct (nth_error (known_objects s) i) as [[k|]|] eqn:E, (nth_error (objects p) i) as [[x|]|]; cbn; try tauto.
  intros h. exists x. split; [|split]; auto. apply nth_error_Some. congruence.
Qed.

(** One event. *)
Lemma rel_step s p b e : rel s p b -> Z.of_nat (length (measured s)) < int_max ->
  match note s e with
  | Some s' => exists p' b', step N big tiny p e = Ok p' /\ rel s' p' b' /\
      (length (measured s') <= S (length (measured s)))%nat
  | None => step N big tiny p e = UB
  end.
Proof.
  intros R hl. destruct e as [tag st now|i now|i now|i now|tag|]; cbn [note step].
  - unfold timer_new. destruct (get_handle N big tiny tag (the_timing p)) as [h t'] eqn:E.
    destruct R as [R F]. destruct (rel_get_handle _ _ _ _ _ _ R E) as (R' & f & m & l).
    eexists; exists b; split; [reflexivity|]. split; [|cbn; lia]. split; cbn [the_timing objects known_objects].
    + destruct R'; constructor; auto.
    + apply Forall2_app.
      * eapply forall2_mono; [|exact F]. intros ko o ho. eapply rel_obj_mono; eauto.
      * constructor; [|constructor]. cbn. generalize (r_range _ _ _ R' _ _ f).
        destruct st; cbn; intros hh; repeat split; auto; try lia.
  - generalize (rel_lookup s p b i R). destruct (nth_error (known_objects s) i) as [[k|]|].
    2,3: intros ->; reflexivity.
    intros (x & -> & ho & hi). cbn [bind]. destruct R as [R F].
    eexists; exists b; split; [reflexivity|]. split; [|cbn; lia]. split; cbn [the_timing objects known_objects].
    + destruct R; constructor; auto.
    + apply forall2_set; auto.
      destruct ho as (h1 & h2 & h3 & h4 & h5 & h6). cbn. repeat split; auto.
  - generalize (rel_lookup s p b i R). destruct (nth_error (known_objects s) i) as [[k|]|].
    2,3: intros ->; reflexivity.
    intros (x & -> & ho & hi). cbn [bind]. destruct R as [R F]. unfold timer_stop.
    set (s' := Sheet _ _ _).
    destruct (rel_add s s' (the_timing p) b k x (seconds (now - started_at x)) R ho eq_refl) as (t' & -> & R' & em & el); auto.
    { cbn. destruct ho as (-> & _). reflexivity. }
    cbn [bind fst snd]. eexists; exists b; split; [reflexivity|].
    split; [|cbn; rewrite app_length; cbn; lia]. split; cbn [the_timing objects known_objects]; auto.
    apply forall2_set; auto.
    + eapply forall2_mono; [|exact F]. intros ko o ho'. eapply rel_obj_mono; eauto; try lia. now rewrite em.
    + destruct ho as (h1 & h2 & h3 & h4 & h5 & h6). cbn. rewrite em, el. repeat split; auto.
  - generalize (rel_lookup s p b i R). destruct (nth_error (known_objects s) i) as [[k|]|].
    2,3: intros ->; reflexivity.
    intros (x & -> & ho & hi). cbn [bind]. destruct R as [R F]. unfold timer_destroy.
    assert (er : is_timing x = k_running k) by (destruct ho as (_ & h2 & _); exact h2). rewrite er.
    destruct (k_running k).
    + unfold timer_stop. set (s' := Sheet _ _ _).
      destruct (rel_add s s' (the_timing p) b k x (seconds (now - started_at x)) R ho eq_refl) as (t' & -> & R' & em & el); auto.
      { cbn. destruct ho as (-> & _). reflexivity. }
      cbn [bind fst snd]. eexists; exists b; split; [reflexivity|].
      split; [|cbn; rewrite app_length; cbn; lia]. split; cbn [the_timing objects known_objects]; auto.
      apply forall2_set; cbn; auto.
      eapply forall2_mono; [|exact F]. intros ko o ho'. eapply rel_obj_mono; eauto; try lia. now rewrite em.
    + cbn [bind]. eexists; exists b; split; [reflexivity|]. split; [|cbn; lia]. split; cbn [the_timing objects known_objects].
      * destruct R; constructor; auto.
      * apply forall2_set; cbn; auto.
  - unfold query. destruct (get_handle N big tiny tag (the_timing p)) as [h t'] eqn:E.
    destruct R as [R F]. destruct (rel_get_handle _ _ _ _ _ _ R E) as (R' & f & m & l).
    unfold accumulator. generalize (r_range _ _ _ R' _ _ f); intros hh.
    destruct (nth_error (timers t') h) eqn:En. 2: { apply nth_error_None in En. lia. }
    cbn [bind snd]. eexists; exists b; split; [reflexivity|]. split; [|lia]. split; cbn [the_timing objects]; auto.
    eapply forall2_mono; [|exact F]. intros ko o ho. eapply rel_obj_mono; eauto.
  - destruct R as [R F]. eexists; exists (length (timers (the_timing p))); split; [reflexivity|].
    split; [|cbn; lia]. split; cbn [the_timing objects known_objects].
    + constructor; cbn; try discriminate; try contradiction; try lia.
      * intros tg. unfold times_of. cbn [measured resets].
        assert (hm := r_meas _ _ _ R). induction (measured s) as [|m r IH]; auto.
        cbn. destruct (Nat.eqb_spec (snd (fst m)) (S (resets s))) as [e|].
        { specialize (hm m (or_introl eq_refl)). lia. }
        rewrite andb_false_r. apply IH; [cbn in hl; lia|]. intros; apply hm; now right.
      * apply (r_old _ _ _ R).
      * intros m Hin. apply (r_meas _ _ _ R) in Hin. lia.
    + eapply forall2_mono; [|exact F]. intros [k|] [x|]; cbn; auto.
      intros (h1 & h2 & h3 & h4 & h5 & h6). repeat split; auto; lia.
Qed.

Lemma rel_run es : forall s p b, rel s p b ->
  Z.of_nat (length (measured s) + length es) <= int_max ->
  match notes s es with
  | Some s' => exists p' b', run N big tiny p es = Ok p' /\ rel s' p' b'
  | None => run N big tiny p es = UB
  end.
Proof.
  induction es as [|e r IH]; intros s p b R hl; cbn [notes run].
  - exists p, b. auto.
  - cbn [length] in hl. generalize (rel_step s p b e R ltac:(lia)).
    destruct (note s e) as [s'|].
    + intros (p' & b' & -> & R' & l'). cbn [bind]. apply (IH s' p' b' R'). lia.
    + intros ->. reflexivity.
Qed.

Lemma rel_query s p b tag : rel s p b -> exists a t',
  query N big tiny tag (the_timing p) = Ok (a, t') /\ acc_run N new (times_of tag s) = Ok a.
Proof.
  intros [R _]. unfold query. destruct (get_handle N big tiny tag (the_timing p)) as [h t'] eqn:E.
  destruct (rel_get_handle _ _ _ _ _ _ R E) as (R' & f & _ & _).
  generalize (r_times _ _ _ R' tag). rewrite f. intros (a & n & r).
  exists a, t'. unfold accumulator. rewrite n. auto.
Qed.

Lemma rel_tag_of s t b tag h : rel_t s t b -> find_tag tag (tag_map t) = Some h -> get_tag h t = tag.
Proof.
  intros R f. apply (r_inj _ _ _ R _ _ h); [|exact f].
  unfold get_tag. assert (Hin := in_find _ _ _ f).
  assert (G : In (tag_of h (tag_map t), h) (tag_map t)).
  { clear R f. induction (tag_map t) as [|[u g] r IH]; [destruct Hin|]. cbn.
    destruct (Nat.eqb_spec g h) as [->|ne]; [now left|].
    destruct Hin as [[= <- <-]|Hin]; [congruence|]. right; auto. }
  apply (r_tag _ _ _ R) in G. exact G.
Qed.

Lemma tag_of_missing h m : (forall tag, ~ In (tag, h) m) -> tag_of h m = EmptyString.
Proof.
  induction m as [|[u g] r IH]; cbn; auto. intros H. destruct (Nat.eqb_spec g h) as [->|ne].
  - destruct (H u). now left.
  - apply IH. intros tag Hin. apply (H tag). now right.
Qed.
End P.

Lemma acc_run_numbers N big tiny xs a : (0 < N)%nat -> Z.of_nat (length xs) <= int_max ->
  acc_run N (acc_new N big tiny) xs = Ok a ->
  totalsamples a = Z.of_nat (length xs) /\ asum a = total xs.
Proof.
  intros hN hl e.
  destruct (acc_run_ok N big tiny hN xs [] (acc_new N big tiny) (acc_inv_new N big tiny hN)) as (a' & e' & I).
  { cbn [length Nat.add]. lia. }
  rewrite e in e'. injection e' as <-. cbn [app] in I. split; [apply (inv_t _ _ _ _ _ I)|apply (inv_s _ _ _ _ _ I)].
Qed.

Lemma printed_small s : (0 <= s < 60)%R -> printed_seconds s = s.
Proof.
  intros h. unfold printed_seconds, fmod. destruct (Rle_dec 0 (s / 60)) as [L|L]; [|lra].
  assert (H := base_Int_part (s / 60)). assert (Int_part (s / 60) = 0).
  { assert (IZR (Int_part (s/60)) < 1)%R by lra. assert (-1 < IZR (Int_part (s/60)))%R by lra.
    apply (lt_IZR _ 1) in H0. apply (lt_IZR (-1)) in H1. lia. }
  rewrite H0. lra.
Qed.

Lemma printed_range s : (0 <= s)%R -> (0 <= printed_seconds s < 60)%R.
Proof.
  intros h. unfold printed_seconds, fmod. destruct (Rle_dec 0 (s / 60)) as [L|L]; [|lra].
  assert (H := base_Int_part (s / 60)). lra.
Qed.
