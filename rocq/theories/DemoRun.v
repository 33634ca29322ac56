(** A short execution of the core machine for arbitrary numeric operations: initialise, four
    IMU readings 5 ms apart, one delayed measurement.  Used for examples only. *)

From Coq Require Import ZArith List Bool Lia.
From Verif Require Import Outcome SortedContainer Core CoreInv.
Import ListNotations.
Open Scope Z_scope.
Definition t5 (k : Z) : Z := 1000000000 + k * 5000000.
Lemma bind_ok : forall A B (x : res A) (f : A -> res B) a r, x = Ok a -> f a = r -> bind x f = r.
Proof. intros A B x f a r -> H. exact H. Qed.
Section Demo.
Variable O : ops.
Variable d : nat -> dec_begin.
Variables (a : Acc O) (w : Gyr O) (m : Meas O).
Hypothesis spike : acc_spike O a = false.
(** The propagated state before its covariance is predicted, and after. *)
Definition nxt0 (s : st O) : st O := mkst a w (propagate O 5000000 (s_acc s) (s_gyr s) (s_val s) a w) (cov_zero O).
Definition nxt (s : st O) : st O :=
  let v := propagate O 5000000 (s_acc s) (s_gyr s) (s_val s) a w in
  mkst a w v (predict_cov O 5000000 a w v (s_cov s)).
Definition cor (l : cont (st O)) (pm : bool) (t : Z) x y j gl : core O := mkcore true pm l [] [] t (ItAt t) x y j gl.

Ltac imu := 
  cbn [step]; unfold ProcessIMU, cor; cbn [negb initialized];
  eapply bind_ok; [lazy; reflexivity|]; cbv beta iota;
  rewrite spike; cbv beta iota zeta;
  match goal with |- (if ?b then _ else _) = _ => let b' := eval lazy in b in change b with b' end; cbv beta iota;
  match goal with |- (if ?b then _ else _) = _ => let b' := eval lazy in b in change b with b' end; cbv beta iota;
  match goal with |- (if ?b then _ else _) = _ => let b' := eval lazy in b in change b with b' end; cbv beta iota.
Ltac tst := match goal with |- (if ?b then _ else _) = _ => let b' := eval lazy in b in change b with b' end; cbv beta iota.
Ltac fin hn :=
  unfold imu_finish;
  eapply bind_ok; [
    unfold PropagatePOneStep; eapply bind_ok; [lazy; reflexivity|]; cbv beta; tst;
    eapply bind_ok; [lazy; reflexivity|]; eapply bind_ok; [lazy; reflexivity|];
    lazy; lazy in hn; rewrite hn; reflexivity|];
  lazy; reflexivity.
Lemma imu1 : forall s x y j gl, numeric_p O (s_val (nxt s)) = true -> exists x',
  step O d (cor [(t5 0, s)] false (t5 0) x y j gl) (CImu a w (t5 1)) = 
  Ok (cor [(t5 0, s); (t5 1, nxt s)] false (t5 1) x' y j gl, [PubPropagation (t5 1) (nxt s)]).
Proof. intros [a0 g0 v0 P0] x y j gl hn. eexists. imu. fin hn. Qed.
Lemma imu2 : forall s0 s x y j gl, numeric_p O (s_val (nxt s)) = true -> exists x',
  step O d (cor [(t5 0, s0); (t5 1, s)] false (t5 1) x y j gl) (CImu a w (t5 2)) = 
  Ok (cor [(t5 0, s0); (t5 1, s); (t5 2, nxt s)] false (t5 2) x' y j gl, [PubPropagation (t5 2) (nxt s)]).
Proof. intros s0 [a0 g0 v0 P0] x y j gl hn. eexists. imu. fin hn. Qed.
Lemma imu3 : forall s0 s1 s x y j gl, numeric_p O (s_val (nxt s)) = true -> exists x',
  step O d (cor [(t5 0, s0); (t5 1, s1); (t5 2, s)] false (t5 2) x y j gl) (CImu a w (t5 3)) = 
  Ok (cor [(t5 0, s0); (t5 1, s1); (t5 2, s); (t5 3, nxt s)] true (t5 3) x' y j gl, [PubPropagation (t5 3) (nxt s)]).
Proof. intros s0 s1 [a0 g0 v0 P0] x y j gl hn. eexists. imu. fin hn. Qed.
Lemma imu4 : forall s0 s1 s2 s x y j gl, numeric_p O (s_val (nxt s)) = true -> exists x',
  step O d (cor [(t5 0, s0); (t5 1, s1); (t5 2, s2); (t5 3, s)] true (t5 3) x y j gl) (CImu a w (t5 4)) = 
  Ok (cor [(t5 0, s0); (t5 1, s1); (t5 2, s2); (t5 3, s); (t5 4, nxt s)] true (t5 4) x' y j gl, [PubPropagation (t5 4) (nxt s)]).
Proof. intros s0 s1 s2 [a0 g0 v0 P0] x y j gl hn. eexists. imu. fin hn. Qed.

(** A measurement of the time of the fourth state. *)
Lemma meas4 : forall s0 s1 s2 s3 s4 x y gl v' P' g', numeric O (s_val s3) = true ->
  apply_meas O m gl (s_val s3) (s_cov s3) = (true, v', P', g') ->
  let s3' := mkst (s_acc s3) (s_gyr s3) v' P' in
  let v4 := propagate O 5000000 (s_acc s3) (s_gyr s3) v' (s_acc s4) (s_gyr s4) in
  let s4' := mkst (s_acc s4) (s_gyr s4) v4 (predict_cov O 5000000 (s_acc s4) (s_gyr s4) v4 P') in
  exists c,
  step O d (cor [(t5 0, s0); (t5 1, s1); (t5 2, s2); (t5 3, s3); (t5 4, s4)] true (t5 4) x y 0 gl) (CMeas (t5 3) m) = 
  Ok (c, [PubUpdate (t5 4) s4']) /\ states c = [(t5 0, s0); (t5 1, s1); (t5 2, s2); (t5 3, s3'); (t5 4, s4')].
Proof.
intros s0 s1 s2 s3 s4 x y gl v' P' g' hn ha s3' v4 s4'.
eexists. split.
- cbn [step]. unfold AddMeasurement. tst. tst. tst.
  destruct (Insert _ _ _) as [ms it] eqn:E. lazy in E. injection E as <- <-.
  eapply bind_ok.
  { cbn [skipn meas_loop]. refine (bind_ok _ _ _ _ (_, _) _ _ _); [|cbv beta iota; reflexivity]. 
    unfold meas_body. tst. eapply bind_ok.
    { unfold GetClosestState. eapply bind_ok; [lazy; reflexivity|]. eapply bind_ok; [lazy; reflexivity|].
      cbv beta. tst. 
      destruct (interpolate _ _ _ _) as [c1 tc] eqn:E. lazy in E. injection E as <- <-.
      eapply bind_ok; [lazy; reflexivity|]. cbv beta.
      match goal with |- match ?b with Some _ => _ | None => _ end = _ => let b' := eval lazy in b in change b with b' end. cbv beta iota.
      rewrite hn. cbv beta iota delta [negb].
      eapply bind_ok; [lazy; reflexivity|]. cbv beta. reflexivity. }
    cbv beta iota. tst. tst. 
    unfold apply_at. cbn [glob set_janitor]. 
    match goal with |- context [apply_meas O m ?g ?v ?P] => change (apply_meas O m g v P) with (apply_meas O m gl (s_val s3) (s_cov s3)) end. 
    rewrite ha. cbv beta iota zeta.
    eapply bind_ok; [lazy; reflexivity|]. eapply bind_ok; [lazy; reflexivity|].
    match goal with |- match ?b with [] => _ | _ => _ end = _ => let b' := eval lazy in b in change b with b' end. cbv beta iota.
    eapply bind_ok; [lazy; reflexivity|]. reflexivity. }
  cbv beta iota. cbn [negb]. eapply bind_ok; [lazy; reflexivity|]. lazy. reflexivity.
- lazy. reflexivity.
Qed.


Lemma run_cons : forall c k r c1 e1 c2 e2, step O d c k = Ok (c1, e1) -> run O d c1 r = Ok (c2, e2) ->
  run O d c (k :: r) = Ok (c2, e1 ++ e2).
Proof. intros c k r c1 e1 c2 e2 h1 h2. cbn [run]. rewrite h1. cbn [bind]. rewrite h2. reflexivity. Qed.
Lemma run_app : forall l r c c1 e1 c2 e2, run O d c l = Ok (c1, e1) -> run O d c1 r = Ok (c2, e2) ->
  run O d c (l ++ r) = Ok (c2, e1 ++ e2).
Proof.
induction l as [|k l IH]; intros r c c1 e1 c2 e2 h1 h2; cbn [run app] in *.
- injection h1 as <- <-. exact h2.
- destruct (step O d c k) as [[c' e]| |]; try discriminate h1. cbn [bind] in *.
  destruct (run O d c' l) as [[c'' e']| |] eqn:E; try discriminate h1. cbn [bind] in h1. injection h1 as <- <-.
  rewrite (IH r c' c'' e' c2 e2 E h2). cbn [bind]. rewrite app_assoc. reflexivity.
Qed.

(** The states of the execution. *)
Definition nth_st (s : st O) (k : nat) : st O := Nat.iter k nxt s.
Definition demo_calls (s : st O) : list (call O) :=
  [CInit (t5 0) s; CImu a w (t5 1); CImu a w (t5 2); CImu a w (t5 3); CImu a w (t5 4)].

Lemma demo_imu : forall s g, (forall k, (k <= 4)%nat -> numeric_p O (s_val (nth_st s k)) = true) ->
  exists x y, run O d (core_new O g) (demo_calls s) =
    Ok (cor [(t5 0, s); (t5 1, nth_st s 1); (t5 2, nth_st s 2); (t5 3, nth_st s 3); (t5 4, nth_st s 4)] true (t5 4) x y 0 (glob_reset O),
        [PubPropagation (t5 1) (nth_st s 1); PubPropagation (t5 2) (nth_st s 2);
         PubPropagation (t5 3) (nth_st s 3); PubPropagation (t5 4) (nth_st s 4)]).
Proof.
intros s g hn. unfold demo_calls.
destruct (imu1 s (acc_zero O) (acc_zero O) 0 (glob_reset O) (hn 1%nat ltac:(lia))) as [x1 e1].
destruct (imu2 s (nth_st s 1) x1 (acc_zero O) 0 (glob_reset O) (hn 2%nat ltac:(lia))) as [x2 e2].
destruct (imu3 s (nth_st s 1) (nth_st s 2) x2 (acc_zero O) 0 (glob_reset O) (hn 3%nat ltac:(lia))) as [x3 e3].
destruct (imu4 s (nth_st s 1) (nth_st s 2) (nth_st s 3) x3 (acc_zero O) 0 (glob_reset O) (hn 4%nat ltac:(lia))) as [x4 e4].
exists x4, (acc_zero O).
change [PubPropagation (t5 1) (nth_st s 1); PubPropagation (t5 2) (nth_st s 2); PubPropagation (t5 3) (nth_st s 3); PubPropagation (t5 4) (nth_st s 4)]
  with (([] : list (event O)) ++ ([PubPropagation (t5 1) (nth_st s 1)] ++ ([PubPropagation (t5 2) (nth_st s 2)] ++ ([PubPropagation (t5 3) (nth_st s 3)] ++ ([PubPropagation (t5 4) (nth_st s 4)] ++ []))))).
eapply run_cons; [reflexivity|]. eapply run_cons; [exact e1|]. eapply run_cons; [exact e2|].
eapply run_cons; [exact e3|]. eapply run_cons; [exact e4|]. reflexivity.
Qed.

(** With a measurement of the time of the fourth state. *)
Lemma demo_meas : forall s g v' P' g', (forall k, (k <= 4)%nat -> numeric_p O (s_val (nth_st s k)) = true) ->
  numeric O (s_val (nth_st s 3)) = true ->
  apply_meas O m (glob_reset O) (s_val (nth_st s 3)) (s_cov (nth_st s 3)) = (true, v', P', g') ->
  let v4 := propagate O 5000000 a w v' a w in
  let s4' := mkst a w v4 (predict_cov O 5000000 a w v4 P') in
  exists c ev, run O d (core_new O g) (demo_calls s ++ [CMeas (t5 3) m]) = Ok (c, ev ++ [PubUpdate (t5 4) s4']) /\
    In (t5 3, mkst a w v' P') (states c).
Proof.
intros s g v' P' g' hn hn3 ha v4 s4'.
destruct (demo_imu s g hn) as (x & y & e).
destruct (meas4 s (nth_st s 1) (nth_st s 2) (nth_st s 3) (nth_st s 4) x y (glob_reset O) v' P' g' hn3 ha) as (c & e' & hc).
exists c. eexists. split; [eapply run_app; [exact e|]|].
- change [PubUpdate (t5 4) s4'] with ([PubUpdate (t5 4) s4'] ++ []). eapply run_cons; [exact e'|reflexivity].
- rewrite hc. right. right. right. left. reflexivity.
Qed.
End Demo.
