(** Accelerometer vectors of the core machine.  Definitions only.

    - norm and spike test: msf_core_inl.h lines 146 and 247
      ([a_m.norm() > 50]);
    - interpolation of the reading for a state that is inserted between two
      others: msf_core_inl.h lines 787-790.

    [vec_ops] is the numeric content of the machine with real acceleration
    vectors and everything else arbitrary. *)

From Coq Require Import Reals ZArith.
From Verif Require Import Core.
Open Scope R_scope.

Definition vec : Type := R * R * R.
Definition vnorm2 (a : vec) : R := let '(x, y, z) := a in x * x + y * y + z * z.
Definition vnorm (a : vec) : R := sqrt (vnorm2 a).

Definition vspike (a : vec) : bool := if Rlt_dec 50 (vnorm a) then true else false.

Definition lerp1 (a b : R) (dt dp : Z) : R := a + (b - a) / IZR dt * IZR dp.
Definition vlerp (a b : vec) (dt dp : Z) : vec :=
  let '(x, y, z) := a in let '(x', y', z') := b in
  (lerp1 x x' dt dp, lerp1 y y' dt dp, lerp1 z z' dt dp).

Definition vec_ops (Val Cov Gyr Meas Glob Ext : Type) (cov_zero : Cov)
  (lerp_gyr : Gyr -> Gyr -> Z -> Z -> Gyr)
  (propagate : Z -> vec -> Gyr -> Val -> vec -> Gyr -> Val)
  (predict_cov : Z -> vec -> Gyr -> Val -> Cov -> Cov)
  (ext_val : Ext -> Val -> Val) (numeric numeric_p : Val -> bool)
  (apply_meas : Meas -> Glob -> Val -> Cov -> bool * Val * Cov * Glob)
  (glob_reset : Glob) : ops :=
  {| Core.Val := Val; Core.Cov := Cov; Core.Acc := vec; Core.Gyr := Gyr;
     Core.Meas := Meas; Core.Glob := Glob; Core.Ext := Ext;
     Core.cov_zero := cov_zero; Core.acc_zero := (0, 0, 0); Core.acc_spike := vspike;
     Core.lerp_acc := vlerp; Core.lerp_gyr := lerp_gyr; Core.propagate := propagate;
     Core.predict_cov := predict_cov; Core.ext_val := ext_val; Core.numeric := numeric;
     Core.numeric_p := numeric_p; Core.apply_meas := apply_meas;
     Core.glob_reset := glob_reset |}.
