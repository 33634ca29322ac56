(** C74: what the type traits give for every type. *)

From Coq Require Import List Bool Arith.
From Verif Require Import TypeTraits.
Import ListNotations.

(** ** Specification: const and reference of a type as two questions *)
Definition referred (t : ty) : core := match t with Obj _ o | LRef _ o | RRef _ o => o end.
(** the object, or the object referred to, may not be written *)
Definition readonly (t : ty) : bool := match t with Obj c _ | LRef c _ | RRef c _ => c end.
Definition rvalue (t : ty) : Prop := exists c o, t = RRef c o.
Definition lvalue (t : ty) : Prop := exists c o, t = LRef c o.
Definition object (t : ty) : Prop := exists c o, t = Obj c o.

Ltac types := repeat match goal with
  | t : ty |- _ => destruct t as [[|] [|[|]]|[|] [|[|]]|[|] [|[|]]]
  end.
Ltac noref := match goal with H : ~ rvalue _ |- _ => try (exfalso; apply H; eexists; eexists; reflexivity) end.

(** No use of a trait is ambiguous. *)
Theorem C74_unambiguous : forall t,
  choose strip_reference t <> None /\ choose strip_const_reference t <> None /\ choose strip_const_ptr t <> None /\
  choose add_reference t <> None /\ choose add_const_reference t <> None /\ choose add_pointer t <> None /\
  choose add_const_ptr t <> None /\ choose is_reference_type t <> None /\ choose is_pointer_type t <> None.
Proof. intros t; types; repeat split; discriminate. Qed.
Print Assumptions C74_unambiguous.

(** Stripping gives the object referred to, with or without its const; rvalue references (C++11) stay. *)
Theorem C74_strip : forall t, ~ rvalue t ->
  result strip_reference t = Some (Obj (readonly t) (referred t)) /\
  result strip_const_reference t = Some (Obj false (referred t)).
Proof. intros t H; types; noref; split; reflexivity. Qed.
Print Assumptions C74_strip.
Theorem C74_strip_refuted : exists t,
  result strip_reference t <> Some (Obj (readonly t) (referred t)) /\
  result strip_const_reference t <> Some (Obj false (referred t)).
Proof. exists (RRef true (Class 0)); split; discriminate. Qed.
Print Assumptions C74_strip_refuted.

(** Adding gives a reference to the same object, or to the same object not to be written. *)
Theorem C74_add : forall t,
  result add_reference t = Some (LRef (readonly t) (referred t)) /\
  (~ rvalue t -> result add_const_reference t = Some (LRef true (referred t))).
Proof. intros t; types; (split; [reflexivity|intros H; noref; reflexivity]). Qed.
Print Assumptions C74_add.
(** From an rvalue reference AddConstReference gives a reference through which one can write. *)
Theorem C74_add_refuted : exists t u, result add_const_reference t = Some u /\ readonly u = false.
Proof. exists (RRef false (Class 0)), (LRef false (Class 0)); split; reflexivity. Qed.
Print Assumptions C74_add_refuted.

(** Stripping undoes adding, whichever was added. *)
Theorem C74_round : forall c o f, In f [add_reference; add_const_reference] -> exists u,
  result f (Obj c o) = Some u /\ value is_reference_type u = Some true /\
  result strip_const_reference u = Some (Obj false o) /\
  (f = add_reference -> result strip_reference u = Some (Obj c o)).
Proof.
intros c o f [<-|[<-|[]]]; destruct c, o as [|[|]]; eexists; (split; [reflexivity|]); (split; [reflexivity|]);
  (split; [reflexivity|]); (intros E; try reflexivity; discriminate E).
Qed.
Print Assumptions C74_round.

(** IsReferenceType answers for lvalue references. *)
Theorem C74_is_reference : forall t, (value is_reference_type t = Some true <-> lvalue t) /\
  (value is_reference_type t = Some false <-> ~ lvalue t).
Proof.
intros [c o|c o|c o]; (assert (E : lvalue (LRef c o)) by (eexists; eexists; reflexivity)).
1,3: match goal with |- context [lvalue ?x] => assert (N : ~ lvalue x) by (intros (? & ? & D); discriminate D) end.
all: destruct c, o as [|[|]]; split; split; intros H; try reflexivity; try discriminate H; tauto.
Qed.
Print Assumptions C74_is_reference.

(** Pointers that are not const themselves: stripped to what they point to, left as they are, or made
    pointers to const. *)
Theorem C74_pointer : forall c o,
  value is_pointer_type (Obj false (Ptr c o)) = Some true /\
  result strip_const_ptr (Obj false (Ptr c o)) = Some (Obj false o) /\
  result add_pointer (Obj false (Ptr c o)) = Some (Obj false (Ptr c o)) /\
  result add_const_ptr (Obj false (Ptr c o)) = Some (Obj false (Ptr true o)).
Proof. intros [|] o; repeat split. Qed.
Print Assumptions C74_pointer.
(** Objects that are no pointers. *)
Theorem C74_no_pointer : forall c n,
  value is_pointer_type (Obj c (Class n)) = Some false /\
  result strip_const_ptr (Obj c (Class n)) = Some (Obj false (Class n)) /\
  result add_pointer (Obj c (Class n)) = Some (Obj false (Ptr c (Class n))) /\
  result add_const_ptr (Obj c (Class n)) = Some (Obj false (Ptr true (Class n))).
Proof. intros [|] n; repeat split. Qed.
Print Assumptions C74_no_pointer.
(** A pointer that is const itself passes as no pointer: it is not stripped, and another one is added. *)
Theorem C74_const_pointer_refuted : forall c o,
  value is_pointer_type (Obj true (Ptr c o)) = Some false /\
  result strip_const_ptr (Obj true (Ptr c o)) = Some (Obj false (Ptr c o)) /\
  result add_pointer (Obj true (Ptr c o)) = Some (Obj false (Ptr true (Ptr c o))).
Proof. intros [|] o; repeat split. Qed.
Print Assumptions C74_const_pointer_refuted.
(** The pointer to a reference does not compile; stripping leaves references alone. *)
Theorem C74_pointer_to_reference : forall t, ~ object t ->
  result add_pointer t = None /\ result add_const_ptr t = None /\ result strip_const_ptr t = Some t /\
  value is_pointer_type t = Some false.
Proof.
intros t H; destruct t as [c o|c o|c o]; [exfalso; apply H; eexists; eexists; reflexivity|..];
  destruct c, o as [|[|]]; repeat split.
Qed.
Print Assumptions C74_pointer_to_reference.

(** SameType is equality. *)
Theorem C74_same : forall t u, same_type t u = true <-> t = u.
Proof.
assert (C : forall a b, core_eqb a b = true <-> a = b).
{ induction a as [n|c o IH]; intros [m|d p]; cbn; try (split; discriminate).
  - rewrite Nat.eqb_eq; split; congruence.
  - rewrite andb_true_iff, eqb_true_iff, IH; split; [intros [-> ->]; reflexivity|intros [= -> ->]; auto]. }
intros [c o|c o|c o] [d p|d p|d p]; cbn; try (split; discriminate);
  (rewrite andb_true_iff, eqb_true_iff, C; split; [intros [-> ->]; reflexivity|intros [= -> ->]; auto]).
Qed.
Print Assumptions C74_same.

(** The comparisons of the state lists: two types count as the same variable exactly if they are so up
    to const and reference. *)
Theorem C74_same_stripped : forall t u, ~ rvalue t -> ~ rvalue u -> forall t' u',
  result strip_const_reference t = Some t' -> result strip_const_reference u = Some u' ->
  (same_type t' u' = true <-> referred t = referred u).
Proof.
intros t u Ht Hu t' u'.
destruct (C74_strip t Ht) as [_ ->], (C74_strip u Hu) as [_ ->]; intros [= <-] [= <-]; rewrite C74_same.
split; congruence.
Qed.
Print Assumptions C74_same_stripped.

Example C74_ex : (* const double&, double*, const double* const *)
  result strip_const_reference (LRef true (Class 1)) = Some (Obj false (Class 1)) /\
  result strip_reference (LRef true (Class 1)) = Some (Obj true (Class 1)) /\
  result add_const_reference (Obj false (Ptr false (Class 1))) = Some (LRef true (Ptr false (Class 1))) /\
  result strip_const_ptr (Obj true (Ptr true (Class 1))) = Some (Obj false (Ptr true (Class 1))) /\
  ~ rvalue (LRef true (Class 1)) /\ ~ object (LRef true (Class 1)) /\
  same_type (Obj false (Class 1)) (Obj true (Class 1)) = false.
Proof. repeat split; intros (? & ? & E); discriminate E. Qed.
