(** C60: named timers. *)

From Coq Require Import Reals ZArith List Bool String Lia Lra.
From Verif Require Import Outcome Handlers HandlersSpec HandlersProofs Timers TimersSpec TimersProofs.
Import ListNotations.
Open Scope Z_scope.

(** A program that only uses timers that exist never leaves the vector of statistics, and
    whoever asks for a tag gets the statistics (C45) of exactly the times measured by timers
    made for that tag since the last reset, in their order: their number, their sum, and by
    the last part everything else the accumulator reports.  A program that uses a timer
    outside of its life is undefined. *)
Theorem C60_statistics : forall N big tiny es, (0 < N)%nat -> Z.of_nat (List.length es) <= int_max ->
  match notes blank es with
  | Some s => exists p, run N big tiny prog_new es = Ok p /\
      forall tag, exists a t, query N big tiny tag (the_timing p) = Ok (a, t) /\
        totalsamples a = Z.of_nat (List.length (times_of tag s)) /\
        asum a = total (times_of tag s) /\
        acc_run N (acc_new N big tiny) (times_of tag s) = Ok a
  | None => run N big tiny prog_new es = UB
  end.
Proof.
  intros N big tiny es hN hl.
  generalize (rel_run N big tiny hN es blank prog_new 0 (rel_blank N big tiny)).
  destruct (notes blank es) as [s|] eqn:En; [|intros H; apply H; cbn; lia].
  intros H. destruct (H ltac:(cbn; lia)) as (p & b & hr & R). exists p. split; auto.
  intros tag. destruct (rel_query N big tiny hN s p b tag R) as (a & t & hq & ha).
  exists a, t. split; auto.
  enough (HL : Z.of_nat (List.length (times_of tag s)) <= int_max).
  { destruct (acc_run_numbers _ _ _ _ _ hN HL ha). auto. }
  assert (HM : forall es s0, notes s0 es = Some s ->
    (List.length (measured s) <= List.length (measured s0) + List.length es)%nat).
  { clear. induction es as [|e r IH]; cbn [notes List.length]; intros s0.
    - intros [= <-]. lia.
    - destruct (note s0 e) as [s1|] eqn:E1; [|discriminate]. intros H. apply IH in H.
      enough (List.length (measured s1) <= S (List.length (measured s0)))%nat by lia.
      destruct e as [tag0 st now|i now|i now|i now|tag0|]; cbn in E1;
        try destruct (nth_error (known_objects s0) i) as [[k|]|]; try discriminate;
        injection E1 as <-; cbn; try lia.
      + rewrite app_length. cbn. lia.
      + destruct (k_running k); [rewrite app_length; cbn|]; lia. }
  generalize (times_length N hN tag s), (HM es blank En). cbn [measured blank List.length]. lia.
Qed.
Print Assumptions C60_statistics.

(** Whatever happened before: a tag and the handle given out for it determine each other,
    and the column width of the table is enough for every tag. *)
Theorem C60_handles : forall N big tiny es p, (0 < N)%nat -> Z.of_nat (List.length es) <= int_max ->
  run N big tiny prog_new es = Ok p ->
  forall tag h t, get_handle N big tiny tag (the_timing p) = (h, t) ->
    get_tag h t = tag /\ get_handle N big tiny tag t = (h, t) /\ (h < List.length (timers t))%nat /\
    (forall tag', tag' <> tag -> fst (get_handle N big tiny tag' t) <> h) /\
    (String.length tag <= max_tag t)%nat.
Proof.
  intros N big tiny es p hN hl hr tag h t hg.
  generalize (rel_run N big tiny hN es blank prog_new 0 (rel_blank N big tiny)).
  destruct (notes blank es) as [s|]; [|intros H; rewrite H in hr by (cbn; lia); discriminate].
  intros H. destruct (H ltac:(cbn; lia)) as (p' & b & hr' & R & _). rewrite hr in hr'. injection hr' as <-.
  destruct (rel_get_handle N big tiny hN _ _ _ _ _ _ R hg) as (R' & f & _ & _).
  split; [|split; [|split; [|split]]].
  - exact (rel_tag_of N big tiny s t b tag h R' f).
  - unfold get_handle. now rewrite f.
  - apply (r_range _ _ _ _ _ _ R' _ _ f).
  - intros tag' ne. unfold get_handle. destruct (find_tag tag' (tag_map t)) as [g|] eqn:E; cbn [fst].
    + intros ->. apply ne. exact (r_inj _ _ _ _ _ _ R' _ _ _ E f).
    + generalize (r_range _ _ _ _ _ _ R' _ _ f). lia.
  - exact (r_max _ _ _ _ _ _ R' _ _ f).
Qed.
Print Assumptions C60_handles.

(** A handle stays the handle of its tag until the next reset. *)
Theorem C60_stable : forall N big tiny p e p' tag h, e <> Reset ->
  step N big tiny p e = Ok p' ->
  fst (get_handle N big tiny tag (the_timing p)) = h -> find_tag tag (tag_map (the_timing p)) <> None ->
  fst (get_handle N big tiny tag (the_timing p')) = h /\ find_tag tag (tag_map (the_timing p')) <> None.
Proof.
  intros N big tiny p e p' tag h ne hs.
  assert (M : forall t tg g t', get_handle N big tiny tg t = (g, t') -> forall u k,
    find_tag u (tag_map t) = Some k -> find_tag u (tag_map t') = Some k).
  { intros t tg g t'. unfold get_handle. destruct (find_tag tg (tag_map t)) eqn:E; intros [= <- <-]; auto.
    intros u k Hu. cbn. destruct (String.eqb_spec tg u) as [Et|]; auto. rewrite Et in E. congruence. }
  assert (A : forall t k x t', add_time N k x t = Ok t' -> tag_map t' = tag_map t).
  { intros t k x t'. unfold add_time. destruct (nth_error (timers t) k); [|discriminate].
    destruct (acc_add N a x); cbn [bind]; try discriminate. intros [= <-]. reflexivity. }
  assert (K : forall k, find_tag tag (tag_map (the_timing p)) = Some k ->
    find_tag tag (tag_map (the_timing p')) = Some k).
  { intros k Hk. destruct e as [tg st now|i now|i now|i now|tg|]; cbn [step] in hs.
    - unfold timer_new in hs. destruct (get_handle N big tiny tg (the_timing p)) eqn:E.
      injection hs as <-. cbn [the_timing]. exact (M _ _ _ _ E _ _ Hk).
    - destruct (object p i); cbn [bind] in hs; try discriminate. injection hs as <-. exact Hk.
    - destruct (object p i); cbn [bind] in hs; try discriminate. unfold timer_stop in hs.
      destruct (add_time N _ _ _) eqn:E; cbn [bind] in hs; try discriminate. injection hs as <-.
      cbn [the_timing snd]. now rewrite (A _ _ _ _ E).
    - destruct (object p i); cbn [bind] in hs; try discriminate. unfold timer_destroy, timer_stop in hs.
      destruct (is_timing _).
      + destruct (add_time N _ _ _) eqn:E; cbn [bind] in hs; try discriminate. injection hs as <-.
        cbn [the_timing snd]. now rewrite (A _ _ _ _ E).
      + cbn [bind] in hs. injection hs as <-. exact Hk.
    - unfold query in hs. destruct (get_handle N big tiny tg (the_timing p)) eqn:E.
      destruct (accumulator _ _); cbn [bind] in hs; try discriminate. injection hs as <-.
      cbn [the_timing snd]. exact (M _ _ _ _ E _ _ Hk).
    - congruence. }
  unfold get_handle. destruct (find_tag tag (tag_map (the_timing p))) as [k|]; [|congruence].
  rewrite (K k eq_refl). cbn [fst]. intros ->. intros _. split; congruence.
Qed.
Print Assumptions C60_stable.

(** Two timers, a tag each, one of them destroyed while it runs. *)
Definition two_timers : list event :=
  [New "a" false 1000000000; New "b" true 1500000000; Start 1 2000000000;
   Stop 0 3000000000; Query "c"; Destroy 1 2500000000; Start 0 4000000000; Stop 0 5000000000].
Example C60_statistics_ex : exists s, notes blank two_timers = Some s /\
  times_of "a" s = [duration 3000000000 1000000000; duration 5000000000 4000000000] /\
  times_of "b" s = [duration 2500000000 2000000000] /\ times_of "c" s = [].
Proof. eexists. repeat split. Qed.
Example C60_misuse_ex : notes blank [New "a" false 0; Destroy 0 1; Stop 0 2] = None.
Proof. reflexivity. Qed.

(** A timer that lives through a reset keeps measuring for the old handle: its time is in no
    statistics that can be asked for by tag. *)
Example C60_reset_ex : exists s, notes blank [New "a" false 0; Reset; Stop 0 7] = Some s /\ times_of "a" s = [].
Proof. eexists. repeat split. Qed.

(** "What a tag reports is time during which its timers ran" is false: a timer that was
    constructed stopped and never started adds the time since the epoch of the clock. *)
Theorem C60_never_started_refuted : exists es s,
  (forall i now, ~ In (Start i now) es) /\ (forall tag now, ~ In (New tag false now) es) /\
  notes blank es = Some s /\ (total (times_of "a" s) = 1700000000)%R.
Proof.
  exists [New "a" true (17 * 10 ^ 17); Stop 0 (17 * 10 ^ 17)].
  eexists. split; [|split; [|split; [reflexivity|]]].
  - intros i now [H|[H|[]]]; discriminate.
  - intros tag now [H|[H|[]]]; discriminate.
  - unfold times_of, duration. cbn [measured filter resets fst snd map String.eqb Nat.eqb andb total app
      Ascii.eqb Bool.eqb k_tag k_resets k_start k_running known_objects].
    cbn. lra.
Qed.
Print Assumptions C60_never_started_refuted.

(** Stopping twice counts the same time twice: two seconds in which one passed. *)
Theorem C60_stop_twice_refuted : exists es s, notes blank es = Some s /\
  (forall e, In e es -> match e with
     | New _ _ now | Start _ now | Stop _ now | Destroy _ now => 0 <= now <= 1000000000
     | _ => True end) /\
  (total (times_of "a" s) = 2)%R.
Proof.
  exists [New "a" false 0; Stop 0 1000000000; Stop 0 1000000000].
  eexists. split; [reflexivity|]. split.
  - intros e [<-|[<-|[<-|[]]]]; cbn; lia.
  - unfold times_of, duration. cbn. lra.
Qed.
Print Assumptions C60_stop_twice_refuted.

(** The table prints the time only if it is less than a minute ... *)
Theorem C60_printed : forall s, (0 <= s)%R -> (printed_seconds s = s <-> (s < 60)%R).
Proof.
  intros s h. split; intros H.
  - rewrite <- H. apply (printed_range s h).
  - apply printed_small. lra.
Qed.
Print Assumptions C60_printed.

(** ... so that different times are printed alike. *)
Theorem C60_printed_refuted : exists s t, (0 <= s < t)%R /\ printed_seconds s = printed_seconds t.
Proof.
  exists 1%R, 61%R. split; [lra|]. rewrite printed_small by lra.
  unfold printed_seconds, fmod. destruct (Rle_dec 0 (61 / 60)) as [L|L]; [|lra].
  replace (Int_part (61 / 60)) with 1; [lra|].
  assert (H := base_Int_part (61 / 60)). 
  assert (IZR (Int_part (61/60)) < 2)%R by lra. assert (0 < IZR (Int_part (61/60)))%R by lra.
  apply (lt_IZR _ 2) in H0. apply (lt_IZR 0) in H1. lia.
Qed.
Print Assumptions C60_printed_refuted.
