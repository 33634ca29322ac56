(** Lemmas about [EvalPlot]. *)

From Coq Require Import Reals ZArith List Bool Lia Lra Permutation Sorted.
From Verif Require Import Eval EvalPlot.
Import ListNotations.
Local Open Scope R_scope.

Lemma int_part_unique (x : R) (k : Z) : IZR k <= x < IZR k + 1 -> Int_part x = k.
Proof.
intros [h1 h2]; destruct (base_Int_part x) as [h3 h4].
assert (a : (Int_part x < k + 1)%Z) by (apply lt_IZR; rewrite plus_IZR; lra).
assert (b : (k < Int_part x + 1)%Z) by (apply lt_IZR; rewrite plus_IZR; lra).
lia.
Qed.
Lemma int_part_bounds x : IZR (Int_part x) <= x < IZR (Int_part x) + 1.
Proof. destruct (base_Int_part x); lra. Qed.

Lemma max_cons x y r : column_max (x :: y :: r) = Rmax x (column_max (y :: r)).
Proof. reflexivity. Qed.
Lemma max_shift d xs : xs <> [] -> column_max (map (fun x => x - d) xs) = column_max xs - d.
Proof.
induction xs as [|x [|y r] ih]; intros ne; [contradiction|reflexivity|].
change (map (fun x => x - d) (x :: y :: r)) with ((x - d) :: (y - d) :: map (fun x => x - d) r).
rewrite !max_cons; change ((y - d) :: map (fun x => x - d) r) with (map (fun x => x - d) (y :: r)).
rewrite ih by discriminate; unfold Rmax; destruct (Rle_dec (x - d) (column_max (y :: r) - d)), (Rle_dec x (column_max (y :: r))); lra.
Qed.
Lemma max_in xs : xs <> [] -> In (column_max xs) xs.
Proof.
induction xs as [|x [|y r] ih]; intros ne; [contradiction|left; reflexivity|].
rewrite max_cons; unfold Rmax; destruct (Rle_dec x (column_max (y :: r))); [right; apply ih; discriminate|left; reflexivity].
Qed.
Lemma max_ge xs x : In x xs -> x <= column_max xs.
Proof.
induction xs as [|z [|y r] ih]; intros h; [contradiction|destruct h as [->|[]]; apply Rle_refl|].
rewrite max_cons; destruct h as [->|h]; [apply Rmax_l|apply Rle_trans with (2 := Rmax_r _ _); now apply ih].
Qed.

Lemma insert_perm x l : Permutation (x :: l) (insert x l).
Proof.
induction l as [|y r ih]; cbn; [reflexivity|]; destruct (Rle_dec x y); [reflexivity|].
transitivity (y :: x :: r); [apply perm_swap|now constructor].
Qed.
Lemma sort_perm xs : Permutation xs (sorted_column xs).
Proof. induction xs as [|x r ih]; cbn; [reflexivity|]; transitivity (x :: sorted_column r); [now constructor|apply insert_perm]. Qed.
Lemma insert_sorted x l : StronglySorted Rle l -> StronglySorted Rle (insert x l).
Proof.
induction 1 as [|y r hs ih hf]; cbn; [repeat constructor|]; destruct (Rle_dec x y) as [h|h].
- constructor; [now constructor|]; constructor; [exact h|]; apply Forall_impl with (2 := hf); intros z; lra.
- constructor; [exact ih|]; apply Forall_forall; intros z hz.
  apply (Permutation_in z (Permutation_sym (insert_perm x r))) in hz; destruct hz as [<-|hz]; [lra|].
  exact (proj1 (Forall_forall _ _) hf z hz).
Qed.
Lemma sort_sorted xs : StronglySorted Rle (sorted_column xs).
Proof. induction xs as [|x r ih]; cbn; [constructor|now apply insert_sorted]. Qed.
Lemma sort_length xs : length (sorted_column xs) = length xs.
Proof. symmetry; apply Permutation_length, sort_perm. Qed.
Lemma sort_head xs : xs <> [] -> In (nth 0 (sorted_column xs) 0) xs /\ forall x, In x xs -> nth 0 (sorted_column xs) 0 <= x.
Proof.
intros ne; assert (p := sort_perm xs); assert (s := sort_sorted xs); destruct (sorted_column xs) as [|y r].
- apply Permutation_sym, Permutation_nil in p; contradiction.
- cbn; split; [apply (Permutation_in y (Permutation_sym p)); left; reflexivity|].
  intros x hx; apply (Permutation_in x p) in hx; destruct hx as [<-|hx]; [apply Rle_refl|].
  inversion s as [|y' r' _ hf]; exact (proj1 (Forall_forall _ _) hf x hx).
Qed.

(** The places of the sorted values *)
Lemma prctile_first xs p : xs <> [] -> p * INR (length xs) < 50 -> prctile xs p = Some (nth 0 (sorted_column xs) 0).
Proof.
intros ne h; unfold prctile; rewrite sort_length; cbv zeta.
assert (hl : (0 < length xs)%nat) by (destruct xs; [contradiction|cbn; lia]).
replace (Z.of_nat (length xs) =? 0)%Z with false by (symmetry; apply Z.eqb_neq; lia).
replace (Int_part _ <? 1)%Z with true; [reflexivity|]; symmetry; apply Z.ltb_lt.
rewrite <- INR_IZR_INZ; destruct (int_part_bounds (p * INR (length xs) / 100 + 1 / 2)) as [b _].
apply lt_IZR; lra.
Qed.
Lemma prctile_last xs p : xs <> [] -> 100 * INR (length xs) - 50 <= p * INR (length xs) ->
  prctile xs p = Some (nth (length xs - 1) (sorted_column xs) 0).
Proof.
intros ne h; unfold prctile; rewrite sort_length; cbv zeta.
assert (hl : (0 < length xs)%nat) by (destruct xs; [contradiction|cbn; lia]).
replace (Z.of_nat (length xs) =? 0)%Z with false by (symmetry; apply Z.eqb_neq; lia).
rewrite <- INR_IZR_INZ; assert (b := int_part_bounds (p * INR (length xs) / 100 + 1 / 2)).
set (k := Int_part (p * INR (length xs) / 100 + 1 / 2)) in *.
assert (hk : (Z.of_nat (length xs) <= k)%Z).
{ apply Z.lt_succ_r, lt_IZR; unfold Z.succ; rewrite plus_IZR, <- INR_IZR_INZ; lra. }
replace (k <? 1)%Z with false by (symmetry; apply Z.ltb_ge; lia).
now replace (Z.of_nat (length xs) <=? k)%Z with true by (symmetry; apply Z.leb_le; exact hk).
Qed.
Lemma prctile_between xs p j t : (S j < length xs)%nat -> 0 <= t < 1 ->
  p * INR (length xs) = 100 * (INR j + 1 / 2 + t) ->
  prctile xs p = Some (nth j (sorted_column xs) 0 + t * (nth (S j) (sorted_column xs) 0 - nth j (sorted_column xs) 0)).
Proof.
intros hj ht h; unfold prctile; rewrite sort_length; cbv zeta.
replace (Z.of_nat (length xs) =? 0)%Z with false by (symmetry; apply Z.eqb_neq; lia).
rewrite <- INR_IZR_INZ.
replace (Int_part (p * INR (length xs) / 100 + 1 / 2)) with (Z.of_nat (S j)).
- replace (Z.of_nat (S j) <? 1)%Z with false by (symmetry; apply Z.ltb_ge; lia).
  replace (Z.of_nat (length xs) <=? Z.of_nat (S j))%Z with false by (symmetry; apply Z.leb_gt; lia).
  replace (Z.to_nat (Z.of_nat (S j) - 1)) with j by lia; rewrite Nat2Z.id, <- INR_IZR_INZ, S_INR.
  f_equal; f_equal; f_equal; lra.
- symmetry; apply int_part_unique; rewrite <- INR_IZR_INZ, S_INR; lra.
Qed.
