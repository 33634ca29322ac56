(** C72: the numbers behind the evaluation plots. *)

From Coq Require Import Reals ZArith List Bool Lia Lra Psatz Permutation Sorted.
From Verif Require Import Eval EvalPlot EvalPlotProofs.
Import ListNotations.
Local Open Scope R_scope.

(** ** Specification *)
Definition average (xs : list R) : R := fold_right Rplus 0 xs / INR (length xs).
Definition least (m : R) (xs : list R) : Prop := In m xs /\ forall x, In x xs -> m <= x.
(** [v] is the [p]-th percentile of [xs] *)
Definition percentile (xs : list R) (p v : R) : Prop :=
  exists s, Permutation xs s /\ StronglySorted Rle s /\
    let n := INR (length xs) in
    (p * n < 50 -> v = nth 0 s 0) /\
    (100 * n - 50 <= p * n -> v = nth (length xs - 1) s 0) /\
    (forall j t, (S j < length xs)%nat -> 0 <= t < 1 -> p * n = 100 * (INR j + 1 / 2 + t) ->
       v = nth j s 0 + t * (nth (S j) s 0 - nth j s 0)).

(** ** Bins *)

(** The bins are the stretches of ten metres from the start up to the greatest distance, as many as
    were made room for. *)
Theorem C72_bins : forall rows M, In M (map w_dist rows) -> (forall r, In r rows -> w_dist r <= M) -> 0 <= M ->
  (forall i, nth_error (centres rows) i = if lt_dec i (length (centres rows)) then Some (10 * INR i + 5) else None) /\
  Z.of_nat (length (centres rows)) = num_bins rows /\
  10 * INR (length (centres rows)) <= M < 10 * INR (length (centres rows)) + 10.
Proof.
intros rows M hM hmax h0.
assert (ne : map w_dist rows <> []) by (intros e; rewrite e in hM; destruct hM).
assert (eM : column_max (map w_dist rows) = M).
{ apply Rle_antisym; [|apply max_ge, hM].
  assert (h := max_in _ ne); apply in_map_iff in h; destruct h as (r & <- & hr); exact (hmax r hr). }
assert (ec : column_max (map (fun r => w_dist r - bin_size / 2) rows) = M - 5).
{ rewrite <- (map_map w_dist (fun x => x - bin_size / 2)), max_shift, eM by exact ne; unfold bin_size; lra. }
assert (b := int_part_bounds (M / 10)).
assert (hn : (Int_part ((M - 5 - bin_size / 2) / bin_size) + 1 = Int_part (M / 10))%Z).
{ rewrite (int_part_unique _ (Int_part (M / 10) - 1)); [lia|]; rewrite minus_IZR; unfold bin_size; lra. }
assert (hp : (0 <= Int_part (M / 10))%Z).
{ assert (k : (0 < Int_part (M / 10) + 1)%Z) by (apply lt_IZR; rewrite plus_IZR; lra); lia. }
assert (hl : length (centres rows) = Z.to_nat (Int_part (M / 10))).
{ unfold centres, colon; rewrite map_length, seq_length, ec, hn; reflexivity. }
split; [|split].
- intros i; destruct (lt_dec i (length (centres rows))) as [hi|hi]; [|apply nth_error_None; lia].
  unfold centres, colon; rewrite ec, hn; rewrite hl in hi.
  erewrite map_nth_error; [|rewrite nth_error_nth' with (d := 0%nat) by (rewrite seq_length; exact hi); rewrite seq_nth by exact hi; reflexivity].
  f_equal; cbn [Nat.add]; unfold bin_size; lra.
- rewrite hl, Z2Nat.id by exact hp; unfold num_bins; rewrite eM; reflexivity.
- rewrite hl, INR_IZR_INZ, Z2Nat.id by exact hp; lra.
Qed.
Print Assumptions C72_bins.

(** A row is counted in a bin exactly if its distance is strictly inside the stretch; so in no
    more than one bin; and in none exactly if the distance is a multiple of ten metres or
    beyond the last full stretch. *)
Theorem C72_rows : forall rows r, In r rows -> 0 <= w_dist r -> 
  (forall i c, nth_error (centres rows) i = Some c ->
     (In r (box c rows) <-> 10 * INR i < w_dist r < 10 * INR i + 10)) /\
  (forall i j c d, nth_error (centres rows) i = Some c -> nth_error (centres rows) j = Some d ->
     In r (box c rows) -> In r (box d rows) -> i = j) /\
  ((exists i c, nth_error (centres rows) i = Some c /\ In r (box c rows)) <->
   (forall z, w_dist r <> 10 * IZR z) /\ exists z r', In r' rows /\ w_dist r < 10 * IZR z <= w_dist r').
Proof.
intros rows r hr h0.
assert (ne : map w_dist rows <> []) by (destruct rows; [destruct hr|discriminate]).
set (M := column_max (map w_dist rows)).
assert (hM : In M (map w_dist rows)) by (apply max_in, ne).
assert (hmax : forall r', In r' rows -> w_dist r' <= M) by (intros r' h'; apply max_ge, in_map, h').
destruct (C72_bins rows M hM hmax) as (B1 & _ & B3); [apply Rle_trans with (1 := h0); now apply hmax|].
assert (I : forall i c, nth_error (centres rows) i = Some c ->
     (In r (box c rows) <-> 10 * INR i < w_dist r < 10 * INR i + 10)).
{ intros i c hc; rewrite B1 in hc; destruct (lt_dec i (length (centres rows))); [|discriminate]; injection hc as <-.
  unfold box; rewrite filter_In; unfold in_box, bin_size.
  destruct (Rlt_dec (10 * INR i + 5 - 10 / 2) (w_dist r)), (Rlt_dec (w_dist r) (10 * INR i + 5 + 10 / 2)); cbn;
    split; intros hh; try (destruct hh; discriminate); try (split; [exact hr|reflexivity]); try lra. }
split; [exact I|]; split.
- intros i j c d hc hd h1 h2; apply (I i c hc) in h1; apply (I j d hd) in h2.
  assert (a : (i < S j)%nat) by (apply INR_lt; rewrite S_INR; lra).
  assert (b : (j < S i)%nat) by (apply INR_lt; rewrite S_INR; lra); lia.
- split.
  + intros (i & c & hc & hb); assert (hb' := proj1 (I i c hc) hb); split.
    * intros z e; rewrite e in hb'; rewrite INR_IZR_INZ in hb'.
      assert (a : (Z.of_nat i < z)%Z) by (apply lt_IZR; lra).
      assert (b : (z < Z.of_nat i + 1)%Z) by (apply lt_IZR; rewrite plus_IZR; lra); lia.
    * apply in_map_iff in hM; destruct hM as (r' & er & hr'); exists (Z.of_nat (S i)), r'; split; [exact hr'|].
      rewrite er, <- INR_IZR_INZ, S_INR; split; [lra|].
      rewrite B1 in hc; destruct (lt_dec i (length (centres rows))) as [hi|]; [|discriminate].
      apply le_INR in hi; rewrite S_INR in hi; lra.
  + intros (nm & z & r' & hr' & h1 & h2).
    assert (b := int_part_bounds (w_dist r / 10)); set (k := Int_part (w_dist r / 10)) in *.
    assert (hk : (0 <= k)%Z) by (assert (0 < k + 1)%Z by (apply lt_IZR; rewrite plus_IZR; lra); lia).
    assert (ek : INR (Z.to_nat k) = IZR k) by (rewrite INR_IZR_INZ, Z2Nat.id by exact hk; reflexivity).
    assert (hl : (Z.to_nat k < length (centres rows))%nat).
    { apply INR_lt; rewrite ek.
      assert (kz : (k < z)%Z) by (apply lt_IZR; lra).
      assert (zl : IZR z < INR (length (centres rows)) + 1) by (assert (q := hmax r' hr'); lra).
      rewrite INR_IZR_INZ in *; apply IZR_lt.
      assert (z < Z.of_nat (length (centres rows)) + 1)%Z by (apply lt_IZR; rewrite plus_IZR; exact zl); lia. }
    exists (Z.to_nat k), (10 * INR (Z.to_nat k) + 5).
    assert (hc : nth_error (centres rows) (Z.to_nat k) = Some (10 * INR (Z.to_nat k) + 5)).
    { rewrite B1; destruct (lt_dec (Z.to_nat k) (length (centres rows))); [reflexivity|contradiction]. }
    split; [exact hc|]; apply (I _ _ hc); rewrite ek; split; [|lra].
    assert (n := nm k); destruct (Rle_lt_or_eq_dec (10 * IZR k) (w_dist r)) as [q|q]; [lra|exact q|symmetry in q; contradiction].
Qed.
Print Assumptions C72_rows.

(** "Every row up to the last full stretch is counted" is false. *)
Theorem C72_border_refuted : exists rows r, In r rows /\ 0 < w_dist r /\ w_dist r <= 10 * INR (length (centres rows)) /\
  forall c, In c (centres rows) -> ~ In r (box c rows).
Proof.
set (a := Row 0 10 1 0 0 []); set (b := Row 0 20 1 0 0 []).
exists [a; b], a; split; [left; reflexivity|]; split; [cbn; lra|].
destruct (C72_bins [a; b] 20) as (_ & _ & h); [cbn; auto|intros r [<-|[<-|[]]]; cbn; lra|lra|].
split; [cbn [w_dist a]; lra|].
intros c hc hb; apply In_nth_error in hc; destruct hc as [i hi].
destruct (C72_rows [a; b] a) as (h1 & _); [left; reflexivity|cbn; lra|].
apply (h1 i c hi) in hb; cbn [w_dist a] in hb; rewrite INR_IZR_INZ in hb.
assert (p : (Z.of_nat i < 1)%Z) by (apply lt_IZR; lra).
assert (q : (1 < Z.of_nat i + 1)%Z) by (apply lt_IZR; rewrite plus_IZR; lra); lia.
Qed.
Print Assumptions C72_border_refuted.

(** ** Values *)

Lemma sum_scaled (f : row -> R) c u rows :
  column_sum (map (fun x => x * u) (map (fun r => f r / c) rows)) = fold_right Rplus 0 (map f rows) * (u / c).
Proof. induction rows as [|r rs ih]; cbn; [lra|]; unfold column_sum in ih; rewrite ih; unfold Rdiv; ring. Qed.

(** What is plotted for a bin that is not empty: the average error over the middle distance of the
    bin, with two percentiles of the errors over that distance. *)
Theorem C72_values : forall column u c rows, 0 < c -> box c rows <> [] ->
  let errors := map column (box c rows) in
  let b := bar_of column u c rows in
  b_mean b = Some (average errors * u / c) /\
  (exists l, b_low b = Some l /\ percentile (map (fun e => e / c * u) errors) (5 / 100) l) /\
  (exists h, b_high b = Some h /\ percentile (map (fun e => e / c * u) errors) (95 / 100) h).
Proof.
intros column u c rows hc ne errors b.
assert (E : map (fun x => x * u) (entries column c rows) = map (fun e => e / c * u) errors).
{ unfold entries, errors; rewrite !map_map; reflexivity. }
assert (P : forall xs p, xs <> [] -> exists v, prctile xs p = Some v /\ percentile xs p v).
{ intros xs p nx.
  assert (hv : exists v, prctile xs p = Some v).
  { unfold prctile; rewrite sort_length; cbv zeta; destruct (Z.eqb_spec (Z.of_nat (length xs)) 0) as [e|e].
    - destruct xs; [contradiction|cbn in e; lia].
    - destruct (_ <? 1)%Z; [eauto|]; destruct (_ <=? _)%Z; eauto. }
  destruct hv as [v hv]; exists v; split; [exact hv|]; exists (sorted_column xs).
  split; [apply sort_perm|]; split; [apply sort_sorted|]; cbv zeta; split; [|split].
  - intros h; rewrite (prctile_first xs p nx h) in hv; congruence.
  - intros h; rewrite (prctile_last xs p nx h) in hv; congruence.
  - intros j t hj ht h; rewrite (prctile_between xs p j t hj ht h) in hv; congruence. }
assert (nx : map (fun e => e / c * u) errors <> []) by (unfold errors; destruct (box c rows); [contradiction|discriminate]).
split; [|split].
- unfold b, bar_of; cbn [b_mean]; unfold column_mean, entries, average.
  destruct (box c rows) as [|r0 rs] eqn:B; [contradiction|].
  destruct (map (fun x => x * u) (map (fun r => column r / c) (r0 :: rs))) eqn:Q; [discriminate|]; rewrite <- Q.
  rewrite sum_scaled, !map_length; unfold errors; rewrite map_length.
  f_equal; unfold Rdiv; ring.
- unfold b, bar_of; cbn [b_low]; rewrite E; apply P, nx.
- unfold b, bar_of; cbn [b_high]; rewrite E; apply P, nx.
Qed.
Print Assumptions C72_values.

(** The percentiles are given as fractions where [prctile] wants percent: with up to 52 rows in a bin
    both are the least of the errors. *)
Theorem C72_both_least : forall column u c rows, 0 < c -> 0 < u -> (0 < length (box c rows) <= 52)%nat ->
  exists m, least m (map column (box c rows)) /\
    b_low (bar_of column u c rows) = Some (m / c * u) /\ b_high (bar_of column u c rows) = Some (m / c * u).
Proof.
intros column u c rows hc hu [hl1 hl2].
set (xs := map (fun x => x * u) (entries column c rows)).
assert (lx : length xs = length (box c rows)) by (unfold xs, entries; rewrite !map_length; reflexivity).
assert (nx : xs <> []) by (intros e; rewrite e in lx; cbn in lx; lia).
destruct (sort_head xs nx) as [h1 h2].
assert (hn : INR (length xs) <= 52) by (rewrite lx; replace 52 with (INR 52) by (rewrite INR_IZR_INZ; reflexivity); now apply le_INR).
assert (hp := pos_INR (length xs)).
unfold bar_of; cbn [b_low b_high]; fold xs.
rewrite (prctile_first xs (5 / 100) nx) by lra; rewrite (prctile_first xs (95 / 100) nx) by lra.
assert (X : xs = map (fun r => column r / c * u) (box c rows)) by (unfold xs, entries; apply map_map).
set (m0 := nth 0 (sorted_column xs) 0) in *; clearbody m0.
rewrite X in h1; apply in_map_iff in h1; destruct h1 as (r & er & hr).
exists (column r); split; [split|].
- now apply in_map.
- intros y hy; apply in_map_iff in hy; destruct hy as (r' & <- & hr').
  assert (q : m0 <= column r' / c * u).
  { apply h2; rewrite X; apply (in_map (fun r => column r / c * u)), hr'. }
  rewrite <- er in q; apply Rmult_le_reg_r in q; [|exact hu].
  apply Rmult_le_reg_r with (/ c); [now apply Rinv_0_lt_compat|exact q].
- rewrite <- er; split; reflexivity.
Qed.
Print Assumptions C72_both_least.

(** So "95 percent of the errors are at most the upper value" is false, *)
Theorem C72_upper_refuted : exists rows h, length rows = 2%nat /\ (forall r, In r rows -> In r (box 5 rows)) /\
  b_high (bar_of w_trans 1 5 rows) = Some h /\
  exists r, In r rows /\ h < w_trans r / 5.
Proof.
set (a := Row 0 4 1 0 0 []); set (b := Row 0 6 3 0 0 []).
assert (B : box 5 [a; b] = [a; b]).
{ unfold box; cbn [filter]; unfold in_box, bin_size; cbn [w_dist a b].
  repeat (destruct (Rlt_dec _ _); [|exfalso; lra]); reflexivity. }
destruct (C72_both_least w_trans 1 5 [a; b]) as (m & [hm hl] & _ & e); [lra|lra|rewrite B; cbn; lia|].
exists [a; b], (m / 5 * 1); split; [reflexivity|]; split; [intros r hr; rewrite B; exact hr|]; split; [exact e|].
exists b; split; [right; left; reflexivity|]; cbn [w_trans b].
rewrite B in hl; assert (q := hl 1 (or_introl eq_refl)); lra.
Qed.
Print Assumptions C72_upper_refuted.

(** and the bar drawn around the average does not reach from the lower to the upper value:
    [errorbar] takes lengths.  With up to 52 rows it reaches as far above as below. *)
Theorem C72_drawn : forall column u c rows s, 0 < c -> 0 < u -> (0 < length (box c rows) <= 52)%nat ->
  exists m, least m (map column (box c rows)) /\
    let a := average (map column (box c rows)) in
    drawn s (bar_of column u c rows) = Some ((a - m) * u / c * s, (a + m) * u / c * s).
Proof.
intros column u c rows s hc hu hl.
destruct (C72_both_least column u c rows hc hu hl) as (m & hm & e1 & e2); exists m; split; [exact hm|].
destruct (C72_values column u c rows hc) as (e3 & _); [destruct (box c rows); [cbn in hl; lia|discriminate]|].
cbv zeta; unfold drawn; rewrite e1, e2, e3; f_equal; f_equal; unfold Rdiv; ring.
Qed.
Print Assumptions C72_drawn.

(** A bin with the errors 1 and 3 over 5 metres: 20 to 60 percent, drawn 20 to 60 as well; with the
    errors 2 and 2 there is nothing to show but the bar is as long as the value. *)
Example C72_drawn_ex :
  let a := Row 0 4 1 0 0 [] in let b := Row 0 6 3 0 0 [] in let d := Row 0 7 2 0 0 [] in
  drawn 100 (bar_of w_trans 1 5 [a; b]) = Some (20, 60) /\
  drawn 100 (bar_of w_trans 1 5 [d]) = Some (0, 80).
Proof.
intros a b d.
assert (B : box 5 [a; b] = [a; b]).
{ unfold box; cbn [filter]; unfold in_box, bin_size; cbn [w_dist a b].
  repeat (destruct (Rlt_dec _ _); [|exfalso; lra]); reflexivity. }
assert (D : box 5 [d] = [d]).
{ unfold box; cbn [filter]; unfold in_box, bin_size; cbn [w_dist d].
  repeat (destruct (Rlt_dec _ _); [|exfalso; lra]); reflexivity. }
split.
- destruct (C72_drawn w_trans 1 5 [a; b] 100) as (m & [hm hl] & e); [lra|lra|rewrite B; cbn; lia|].
  rewrite e, B; rewrite B in hm, hl; cbn in hm, hl.
  assert (q := hl 1 (or_introl eq_refl)); assert (m = 1) as -> by (destruct hm as [hm|[hm|[]]]; lra).
  unfold average; cbn; f_equal; f_equal; lra.
- destruct (C72_drawn w_trans 1 5 [d] 100) as (m & [hm hl] & e); [lra|lra|rewrite D; cbn; lia|].
  rewrite e, D; rewrite D in hm; cbn in hm; destruct hm as [hm|[]]; subst m.
  unfold average; cbn; f_equal; f_equal; lra.
Qed.

(** The errors are put in relation to the middle of the bin, not to the distance of the row: a
    factor between [1 - 5 / c] and [1 + 5 / c]. *)
Theorem C72_relative : forall rows i c r, nth_error (centres rows) i = Some c -> In r (box c rows) -> In r rows -> 0 <= w_dist r ->
  0 <= w_trans r ->
  (1 - 5 / c) * (w_trans r / w_dist r) <= w_trans r / c <= (1 + 5 / c) * (w_trans r / w_dist r).
Proof.
intros rows i c r hc hb hr h0 ht.
destruct (C72_rows rows r hr h0) as (h1 & _); apply (h1 i c hc) in hb.
assert (ne : map w_dist rows <> []) by (destruct rows; [destruct hr|discriminate]).
destruct (C72_bins rows (column_max (map w_dist rows))) as (B & _);
  [apply max_in, ne|intros r' h'; apply max_ge, in_map, h'|apply Rle_trans with (1 := h0), max_ge, in_map, hr|].
rewrite B in hc; destruct (lt_dec i (length (centres rows))); [|discriminate]; injection hc as <-.
assert (hi := pos_INR i); set (k := INR i) in *; set (d := w_dist r) in *; set (e := w_trans r) in *.
replace ((1 - 5 / (10 * k + 5)) * (e / d)) with (e / (10 * k + 5) * (10 * k / d)) by (field; lra).
replace ((1 + 5 / (10 * k + 5)) * (e / d)) with (e / (10 * k + 5) * ((10 * k + 10) / d)) by (field; lra).
assert (q : 0 <= e / (10 * k + 5)) by (apply Rmult_le_pos; [exact ht|left; apply Rinv_0_lt_compat; lra]).
assert (hd : 0 < d) by lra.
assert (d1 : 10 * k / d <= 1) by (apply Rmult_le_reg_r with d; [exact hd|]; unfold Rdiv; rewrite Rmult_assoc, Rinv_l by lra; lra).
assert (d2 : 1 <= (10 * k + 10) / d) by (apply Rmult_le_reg_r with d; [exact hd|]; unfold Rdiv; rewrite Rmult_assoc, Rinv_l by lra; lra).
set (g := e / (10 * k + 5)) in *; split; nra.
Qed.
Print Assumptions C72_relative.

(** In the first bin that can be any factor: one percent of error after one metre counts as 0.2. *)
Theorem C72_relative_refuted : exists rows r, In r rows /\ In r (box 5 rows) /\ w_trans r / w_dist r = 1 / 100 /\
  b_mean (bar_of w_trans 1 5 rows) = Some (1 / 500).
Proof.
set (a := Row 0 1 (1 / 100) 0 0 []); exists [a], a; split; [left; reflexivity|].
assert (B : box 5 [a] = [a]).
{ unfold box; cbn [filter]; unfold in_box, bin_size; cbn [w_dist a].
  repeat (destruct (Rlt_dec _ _); [|exfalso; lra]); reflexivity. }
split; [rewrite B; left; reflexivity|]; split; [cbn; lra|].
destruct (C72_values w_trans 1 5 [a]) as (e & _); [lra|rewrite B; discriminate|].
rewrite e, B; unfold average; cbn; f_equal; lra.
Qed.
Print Assumptions C72_relative_refuted.

(** The three methods are drawn side by side inside the bin. *)
Theorem C72_places : forall c, place 1 c = c - 2 /\ place 2 c = c /\ place 3 c = c + 2.
Proof. intros c; unfold place; cbn; repeat split; lra. Qed.
Print Assumptions C72_places.

(** The curve labelled three sigma lies between three times the root of the trace of the position
    covariance and the root of three times that. *)
Theorem C72_three_sigma : forall r x y z l, w_var r = x :: y :: z :: l -> 0 <= x -> 0 <= y -> 0 <= z ->
  3 * sqrt (x + y + z) <= three_sigma r <= sqrt 3 * (3 * sqrt (x + y + z)).
Proof.
intros r x y z l e hx hy hz; unfold three_sigma; rewrite e; cbn [nth].
assert (a := sqrt_pos x); assert (b := sqrt_pos y); assert (c := sqrt_pos z).
assert (a2 := sqrt_sqrt x hx); assert (b2 := sqrt_sqrt y hy); assert (c2 := sqrt_sqrt z hz).
set (u := sqrt x) in *; set (v := sqrt y) in *; set (w := sqrt z) in *.
assert (ss : 0 <= u + v + w) by lra.
assert (m1 := Rmult_le_pos u v a b); assert (m2 := Rmult_le_pos u w a c); assert (m3 := Rmult_le_pos v w b c).
assert (k1 := Rle_0_sqr (u - v)); assert (k2 := Rle_0_sqr (u - w)); assert (k3 := Rle_0_sqr (v - w)); unfold Rsqr in k1, k2, k3.
split.
- assert (q : sqrt (x + y + z) <= u + v + w); [|lra].
  rewrite <- (sqrt_square (u + v + w) ss); apply sqrt_le_1_alt; clearbody u v w; subst x y z; lra.
- assert (q : u + v + w <= sqrt 3 * sqrt (x + y + z)); [|lra].
  rewrite <- sqrt_mult by lra; rewrite <- (sqrt_square (u + v + w) ss); apply sqrt_le_1_alt; clearbody u v w; subst x y z; lra.
Qed.
Print Assumptions C72_three_sigma.

(** ** Paths *)

(** Sum of the squares of the differences of two columns *)
Fixpoint square_error (xs gs : list R) : R :=
  match xs, gs with x :: xr, g :: gr => (x - g) * (x - g) + square_error xr gr | _, _ => 0 end.

Lemma error_shift o t xs gs : length xs = length gs ->
  square_error (map (fun x => x - t) xs) gs =
  square_error (map (fun x => x - o) xs) gs + 2 * (o - t) * column_sum (map (fun p => fst p - snd p) (combine xs gs))
  + (t * t - o * o) * INR (length xs).
Proof.
revert gs; induction xs as [|x xs ih]; intros [|g gs] hl; try discriminate; [cbn; ring|].
cbn [map square_error combine column_sum fold_right fst snd]; rewrite (ih gs) by (cbn in hl; lia).
cbn [length]; rewrite S_INR; unfold column_sum; ring.
Qed.

(** A path is shifted as a whole, and no shift brings it nearer to the truth. *)
Theorem C72_aligned : forall xs gs, xs <> [] -> length xs = length gs ->
  exists o, aligned xs gs = Some (map (fun x => x - o) xs) /\
    forall t, square_error (map (fun x => x - o) xs) gs <= square_error (map (fun x => x - t) xs) gs /\
      (t <> o -> square_error (map (fun x => x - o) xs) gs < square_error (map (fun x => x - t) xs) gs).
Proof.
intros xs gs ne hl; set (ds := map (fun p => fst p - snd p) (combine xs gs)).
assert (ld : length ds = length xs) by (unfold ds; rewrite map_length, combine_length, hl; lia).
assert (hp : 0 < INR (length xs)) by (apply (lt_INR 0); destruct xs; [contradiction|cbn; lia]).
set (o := column_sum ds / INR (length xs)); exists o.
assert (ho : offset xs gs = Some o).
{ unfold offset, column_mean; fold ds; destruct ds as [|d0 dr] eqn:E.
  - destruct xs; [contradiction|discriminate].
  - unfold o; rewrite <- ld; reflexivity. }
split; [unfold aligned; rewrite ho; reflexivity|]; intros t.
rewrite (error_shift o t xs gs hl); fold ds.
assert (es : column_sum ds = o * INR (length xs)) by (unfold o; field; lra); rewrite es.
assert (sq : 2 * (o - t) * (o * INR (length xs)) + (t * t - o * o) * INR (length xs) = (t - o) * (t - o) * INR (length xs)) by ring.
split.
- assert (k := Rle_0_sqr (t - o)); unfold Rsqr in k; assert (m := Rmult_le_pos _ _ k (Rlt_le _ _ hp)); lra.
- intros n; assert (k : 0 < (t - o) * (t - o)) by (apply Rlt_0_sqr; lra).
  assert (m := Rmult_lt_0_compat _ _ k hp); lra.
Qed.
Print Assumptions C72_aligned.

Example C72_aligned_ex : aligned [1; 2; 6] [0; 1; 2] = Some [-1; 0; 4].
Proof. unfold aligned, offset; cbn; f_equal; f_equal; [lra|f_equal; [lra|f_equal; lra]]. Qed.

Example C72_ex : let rows := [Row 0 4 1 0 0 [1; 4; 9]; Row 0 12 2 0 0 []; Row 0 25 3 0 0 []] in
  length (centres rows) = 2%nat /\ three_sigma (Row 0 4 1 0 0 [1; 4; 9]) = 18.
Proof.
intros rows; split.
- destruct (C72_bins rows 25) as (_ & _ & h); [cbn; auto|intros r [<-|[<-|[<-|[]]]]; cbn; lra|lra|].
  rewrite INR_IZR_INZ in h.
  assert (p : (Z.of_nat (length (centres rows)) < 3)%Z) by (apply lt_IZR; lra).
  assert (q : (1 < Z.of_nat (length (centres rows)))%Z) by (apply lt_IZR; lra); lia.
- unfold three_sigma; cbn [w_var nth]; replace 4 with (2 * 2) by lra; replace 9 with (3 * 3) by lra.
  rewrite sqrt_1, !sqrt_square by lra; lra.
Qed.
