(** A small concrete instance of the core machine, used for non-vacuity
    examples and for the executable counterexamples.  State values record which
    measurements were fused into the state, covariances record which
    measurements were fused into the covariance. *)

From Coq Require Import ZArith List Bool.
From Verif Require Import Outcome SortedContainer Core.
Import ListNotations.
Open Scope Z_scope.

Record logmeas := { lm_id : Z; lm_accept : bool }.

Definition log_ops : ops := {|
  Val := list Z;
  Cov := list Z;
  Acc := Z;
  Gyr := Z;
  Meas := logmeas;
  Glob := unit;
  Ext := list Z;
  cov_zero := [];
  acc_zero := 0;
  acc_spike := fun a => 50 <? Z.abs a;
  lerp_acc := fun a b dt dp => a + (b - a) * dp / dt;
  lerp_gyr := fun a b dt dp => a + (b - a) * dp / dt;
  propagate := fun _ _ _ v _ _ => v;
  predict_cov := fun _ _ _ _ P => P;
  ext_val := fun x v => v;
  numeric := fun _ => true;
  numeric_p := fun _ => true;
  apply_meas := fun m g v P =>
    if lm_accept m then (true, v ++ [lm_id m], P ++ [lm_id m], g) else (false, v, P, g);
  glob_reset := tt
|}.

Definition ms : Z := second / 1000.
Definition ex_d : nat -> dec_begin :=
  fun n => match n with 0%nat => DecUB | 1%nat => DecBegin | 2%nat => DecBegin | _ => DecEnd end.

Definition s_init : st log_ops := @mkst log_ops 9 0 [] [].
Definition cI : call log_ops := @CInit log_ops (1000 * ms) s_init.
Definition cU (t : Z) : call log_ops := @CImu log_ops 9 0 (t * ms).
Definition cM (t10 id : Z) : call log_ops :=
  @CMeas log_ops (t10 * ms / 10) {| lm_id := id; lm_accept := true |}.
Definition cR (t10 id : Z) : call log_ops :=
  @CMeas log_ops (t10 * ms / 10) {| lm_id := id; lm_accept := false |}.

Definition warm : list (call log_ops) := cI :: map cU [1010; 1020; 1030; 1040].

Definition final (l : list (call log_ops)) :=
  match run log_ops ex_d (core_new log_ops tt) l with
  | Ok (c, _) => Ok (map (fun e => (fst e / ms, s_val (snd e), s_cov (snd e))) (states c))
  | UB => UB
  | Abort => Abort
  end.
