(** The real numbers of the Coq library as a MathComp real field, so that the
    matrix results apply to the navigation model.  Not part of the modelled
    code. *)

From Coq Require Import Reals Lra ClassicalEpsilon FunctionalExtensionality.
From mathcomp Require Import all_ssreflect all_algebra.
Import GRing.Theory Num.Theory Order.TTheory.

Set Implicit Arguments.
Unset Strict Implicit.
Unset Printing Implicit Defensive.

Local Open Scope R_scope.

Definition eqr (x y : R) : bool := if Req_EM_T x y then true else false.
Definition ler (x y : R) : bool := if Rle_dec x y then true else false.
Definition ltr (x y : R) : bool := if Rlt_dec x y then true else false.

Lemma eqrP : Equality.axiom eqr.
Proof. by move=> x y; rewrite /eqr; case: Req_EM_T => h; constructor. Qed.
Canonical R_eqMixin := EqMixin eqrP.
Canonical R_eqType := Eval hnf in EqType R R_eqMixin.

Lemma lerP x y : reflect (x <= y) (ler x y).
Proof. by rewrite /ler; case: Rle_dec => h; constructor. Qed.
Lemma ltrP x y : reflect (x < y) (ltr x y).
Proof. by rewrite /ltr; case: Rlt_dec => h; constructor. Qed.

Fact R_inhabited : inhabited R. Proof. exact (inhabits 0). Qed.
Definition pickR (P : pred R) (n : nat) : option R :=
  let x := epsilon R_inhabited (fun x => P x) in if P x then Some x else None.
Fact pickR_some P n x : pickR P n = Some x -> P x.
Proof. by rewrite /pickR; case: (boolP (P _)) => // Px [<-]. Qed.
Fact pickR_ex (P : pred R) : (exists x : R, P x) -> exists n, pickR P n.
Proof. by rewrite /pickR; move=> /(epsilon_spec R_inhabited (fun x => P x)) -> ; exists 0%N. Qed.
Fact pickR_ext (P Q : pred R) : P =1 Q -> pickR P =1 pickR Q.
Proof. by move=> /functional_extensionality ->. Qed.
Definition R_choiceMixin : choiceMixin R := Choice.Mixin pickR_some pickR_ex pickR_ext.
Canonical R_choiceType := Eval hnf in ChoiceType R R_choiceMixin.

Fact addA : associative Rplus. Proof. by move=> x y z; ring. Qed.
Fact addC : commutative Rplus. Proof. by move=> x y; ring. Qed.
Fact add0 : left_id 0 Rplus. Proof. by move=> x; ring. Qed.
Fact addN : left_inverse 0 Ropp Rplus. Proof. by move=> x; ring. Qed.
Definition R_zmodMixin := ZmodMixin addA addC add0 addN.
Canonical R_zmodType := Eval hnf in ZmodType R R_zmodMixin.

Fact mulA : associative Rmult. Proof. by move=> x y z; ring. Qed.
Fact mulC : commutative Rmult. Proof. by move=> x y; ring. Qed.
Fact mul1 : left_id 1 Rmult. Proof. by move=> x; ring. Qed.
Fact mulD : left_distributive Rmult Rplus. Proof. by move=> x y z; ring. Qed.
Fact one0 : 1 != 0 :> R. Proof. by apply/eqP; lra. Qed.
Definition R_ringMixin := ComRingMixin mulA mulC mul1 mulD one0.
Canonical R_ringType := Eval hnf in RingType R R_ringMixin.
Canonical R_comRingType := Eval hnf in ComRingType R mulC.

Definition invr (x : R) : R := if x == 0 then 0 else / x.
Fact mulV : GRing.Field.axiom invr.
Proof.
move=> x x0; rewrite /invr (negbTE x0).
change (/ x * x = 1). by apply: Rinv_l; apply/eqP.
Qed.
Fact inv0 : invr 0 = 0. Proof. by rewrite /invr eqxx. Qed.
Definition R_unitRingMixin := FieldUnitMixin mulV inv0.
Canonical R_unitRingType := Eval hnf in UnitRingType R R_unitRingMixin.
Canonical R_comUnitRingType := Eval hnf in [comUnitRingType of R].
Fact R_field_axiom : GRing.Field.mixin_of R_unitRingType. Proof. by []. Qed.
Definition R_idomainMixin := FieldIdomainMixin R_field_axiom.
Canonical R_idomainType := Eval hnf in IdomainType R R_idomainMixin.
Canonical R_fieldType := Eval hnf in FieldType R R_field_axiom.

Section Order.
Fact le_add (x y : R) : ler 0 x -> ler 0 y -> ler 0 (x + y).
Proof. by move=> /lerP h1 /lerP h2; apply/lerP; lra. Qed.
Fact le_mul (x y : R) : ler 0 x -> ler 0 y -> ler 0 (x * y).
Proof. by move=> /lerP h1 /lerP h2; apply/lerP; apply: Rmult_le_pos. Qed.
Fact le_anti (x : R) : ler 0 x -> ler x 0 -> x = 0.
Proof. by move=> /lerP h1 /lerP h2; lra. Qed.
Fact le_sub (x y : R) : ler 0 (y - x) = ler x y.
Proof. by apply/lerP/lerP; lra. Qed.
Fact le_total (x : R) : ler 0 x || ler x 0.
Proof.
case: (Rle_dec 0 x) => h; first by apply/orP; left; apply/lerP.
by apply/orP; right; apply/lerP; lra.
Qed.
Fact norm_opp (x : R) : Rabs (- x) = Rabs x. Proof. exact: Rabs_Ropp. Qed.
Fact norm_ge0 (x : R) : ler 0 x -> Rabs x = x.
Proof. by move=> /lerP h; apply: Rabs_pos_eq. Qed.
Fact lt_def (x y : R) : ltr x y = (y != x) && ler x y.
Proof.
apply/ltrP/andP; first by move=> h; split; [apply/eqP; lra|apply/lerP; lra].
by move=> [/eqP h1 /lerP h2]; lra.
Qed.
End Order.

Definition R_orderMixin :=
  @RealLeMixin R_idomainType ler ltr Rabs le_add le_mul le_anti le_sub le_total norm_opp norm_ge0 lt_def.
Canonical R_porderType := POrderType ring_display R R_orderMixin.
Canonical R_latticeType := LatticeType R R_orderMixin.
Canonical R_distrLatticeType := DistrLatticeType R R_orderMixin.
Canonical R_orderType := OrderType R R_orderMixin.
Canonical R_numDomainType := NumDomainType R R_orderMixin.
Canonical R_normedZmodType := NormedZmodType R R R_orderMixin.
Canonical R_numFieldType := Eval hnf in [numFieldType of R].
Canonical R_realDomainType := Eval hnf in [realDomainType of R].
Canonical R_realFieldType := Eval hnf in [realFieldType of R].

(** Reading the MathComp operations as those of the Coq library. *)
Lemma RaddE (x y : R) : @GRing.add R_zmodType x y = Rplus x y. Proof. by []. Qed.
Lemma RoppE (x : R) : @GRing.opp R_zmodType x = Ropp x. Proof. by []. Qed.
Lemma RmulE (x y : R) : @GRing.mul R_ringType x y = Rmult x y. Proof. by []. Qed.
Lemma R0E : @GRing.zero R_zmodType = R0. Proof. by []. Qed.
Lemma R1E : @GRing.one R_ringType = R1. Proof. by []. Qed.
Lemma RleE (x y : R) : reflect (Rle x y) (@Order.le _ R_porderType x y).
Proof. exact: lerP. Qed.
Lemma RltE (x y : R) : reflect (Rlt x y) (@Order.lt _ R_porderType x y).
Proof. exact: ltrP. Qed.
