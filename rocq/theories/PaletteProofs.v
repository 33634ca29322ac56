(** Lemmas about [Palette]. *)

From Coq Require Import Reals ZArith Lra Lia List Bool Psatz.
From Verif Require Import Outcome Palette.
Import ListNotations.
Local Open Scope Z_scope.

(** ** Loops *)
Lemma loop_inv {T : Type} (I : Z -> T -> Prop) body : forall n a s,
  (forall i s, a <= i < a + Z.of_nat n -> I i s -> exists s', body i s = Ok s' /\ I (i + 1) s') ->
  I a s -> exists s', loop n a body s = Ok s' /\ I (a + Z.of_nat n) s'.
Proof.
induction n as [|n IH]; intros a s hb h.
- exists s; split; [reflexivity|]; now rewrite Z.add_0_r.
- destruct (hb a s) as [s1 [e h1]]; [lia|exact h|].
  destruct (IH (a + 1) s1) as [s2 [e2 h2]]; [|exact h1|].
  + intros i s0 hi; apply hb; lia.
  + exists s2; split.
    * cbn [loop]; rewrite e; exact e2.
    * replace (a + Z.of_nat (S n)) with (a + 1 + Z.of_nat n) by lia; exact h2.
Qed.

Lemma write_ok p k f : 0 <= k < 256 -> write p k f = Ok (fun j => if j =? k then f (p j) else p j).
Proof. intros h; unfold write; rewrite (proj2 (Z.leb_le _ _)), (proj2 (Z.ltb_lt _ _)); try lia; reflexivity. Qed.

Lemma fill_ok entry (c : Z -> color) : (forall i, 0 <= i < 256 -> entry i = Ok (c i)) ->
  exists p, fill entry = Ok p /\ (forall j, 0 <= j < 256 -> p j = c j) /\ (forall j, ~ 0 <= j < 256 -> p j = black).
Proof.
intros h.
destruct (@loop_inv colors (fun i p => (forall j, 0 <= j < i -> p j = c j) /\ (forall j, ~ 0 <= j < i -> p j = black))
  (fun i p => let* c := entry i in write p i (fun _ => c)) 256 0 blank) as [p [e [h1 h2]]].
- intros i p hi [h1 h2]; rewrite h by lia; cbn [bind]; rewrite write_ok by lia.
  eexists; split; [reflexivity|]; split; intros j hj; destruct (Z.eqb_spec j i) as [->|ne].
  + reflexivity.
  + apply h1; lia.
  + exfalso; lia.
  + apply h2; lia.
- split; [intros j hj; lia|reflexivity].
- exists p; split; [exact e|]; split; [exact h1|exact h2].
Qed.

(** ** Conversions *)
Lemma toward_zero_spec x k : (0 <= x)%R -> (IZR k <= x < IZR k + 1)%R -> toward_zero x = k.
Proof.
intros h0 [h1 h2]; unfold toward_zero; destruct (Rle_dec 0 x) as [_|n]; [|lra].
destruct (base_Int_part x) as [h3 h4].
assert (IZR k < IZR (Int_part x + 1))%R by (rewrite plus_IZR; lra).
assert (IZR (Int_part x) < IZR (k + 1))%R by (rewrite plus_IZR; lra).
apply lt_IZR in H; apply lt_IZR in H0; lia.
Qed.
Lemma toward_zero_bound x : (0 <= x)%R -> (IZR (toward_zero x) <= x < IZR (toward_zero x) + 1)%R.
Proof.
intros h0; unfold toward_zero; destruct (Rle_dec 0 x) as [_|n]; [|lra].
destruct (base_Int_part x); lra.
Qed.
Lemma to_range_ok lo hi x : lo <= 0 -> 255 <= hi -> (0 <= x <= 255)%R ->
  to_range lo hi x = Ok (toward_zero x) /\ 0 <= toward_zero x <= 255.
Proof.
intros hl hh [h0 h1]; destruct (toward_zero_bound x h0) as [h2 h3].
assert (a : -1 < toward_zero x) by (apply lt_IZR; lra).
assert (b : toward_zero x <= 255) by (apply le_IZR; lra).
unfold to_range; rewrite !(proj2 (Z.leb_le _ _)) by lia; split; [reflexivity|lia].
Qed.
Lemma toward_zero_le x y : (0 <= x <= y)%R -> toward_zero x <= toward_zero y.
Proof.
intros [h0 h1]; destruct (toward_zero_bound x h0); destruct (toward_zero_bound y) as [h2 h3]; [lra|].
assert (toward_zero x < toward_zero y + 1); [apply lt_IZR; rewrite plus_IZR; lra|lia].
Qed.
Lemma toward_zero_ge k x : (0 <= IZR k <= x)%R -> k <= toward_zero x.
Proof.
intros h; destruct (toward_zero_bound x) as [h2 h3]; [lra|].
assert (k < toward_zero x + 1); [apply lt_IZR; rewrite plus_IZR; lra|lia].
Qed.
Lemma wrap_id k : 0 <= k <= 255 -> wrap k = k.
Proof. intros h; unfold wrap; apply Z.mod_small; lia. Qed.

Lemma quotient_bound a b : 0 < b -> (IZR (a / b) <= IZR a / IZR b < IZR (a / b) + 1)%R.
Proof.
intros hb; assert (h := Z.div_mod a b); assert (m := Z.mod_pos_bound a b hb).
assert (hb' : (0 < IZR b)%R) by (apply (IZR_lt 0); lia).
split.
- apply Rmult_le_reg_r with (IZR b); [exact hb'|].
  unfold Rdiv; rewrite Rmult_assoc, Rinv_l, Rmult_1_r by lra; rewrite <- mult_IZR; apply IZR_le; nia.
- apply Rmult_lt_reg_r with (IZR b); [exact hb'|].
  unfold Rdiv; rewrite Rmult_assoc, Rinv_l, Rmult_1_r by lra; rewrite <- plus_IZR, <- mult_IZR; apply IZR_lt; nia.
Qed.

(** ** The logarithmic curve *)
Lemma pow_one x : (0 <= x)%R -> pow x 1 = x.
Proof.
intros h; unfold pow; destruct (Req_EM_T x 0) as [e|n]; [now rewrite e|].
apply Rpower_1; lra.
Qed.
Lemma IZR_range i : 0 <= i < 256 -> (0 <= IZR i <= 255)%R.
Proof. intros h; split; [apply (IZR_le 0)|apply (IZR_le i 255)]; lia. Qed.
Lemma ln10_pos : (0 < ln 10)%R.
Proof. rewrite <- ln_1; apply ln_increasing; lra. Qed.
Lemma gamma_eq i : 0 <= i < 256 -> gamma_log i = (ln (1 + 9 * (IZR i / 255)) / ln 10 * 255)%R.
Proof.
intros h; assert (r := IZR_range i h); unfold gamma_log; rewrite pow_one by lra.
replace (IZR i / 255 * 9 + 1)%R with (1 + 9 * (IZR i / 255))%R by ring; reflexivity.
Qed.
Lemma gamma_mono i j : 0 <= i -> i <= j -> j < 256 -> (gamma_log i <= gamma_log j)%R.
Proof.
intros h1 h2 h3; rewrite !gamma_eq by lia; assert (p := ln10_pos).
assert (r := IZR_range i ltac:(lia)); assert (le := IZR_le _ _ h2).
apply Rmult_le_compat_r; [lra|]; unfold Rdiv; apply Rmult_le_compat_r; [left; now apply Rinv_0_lt_compat|].
destruct (Req_dec (IZR i) (IZR j)) as [e|n]; [rewrite e; lra|].
left; apply ln_increasing; lra.
Qed.
Lemma gamma_0 : gamma_log 0 = 0%R.
Proof.
rewrite gamma_eq by lia; replace (1 + 9 * (0 / 255))%R with 1%R by lra; rewrite ln_1; lra.
Qed.
Lemma gamma_255 : gamma_log 255 = 255%R.
Proof.
rewrite gamma_eq by lia; assert (p := ln10_pos).
replace (1 + 9 * (255 / 255))%R with 10%R by lra; field; lra.
Qed.
Lemma gamma_range i : 0 <= i < 256 -> (0 <= gamma_log i <= 255)%R.
Proof.
intros h; split.
- rewrite <- gamma_0; apply gamma_mono; lia.
- rewrite <- gamma_255; apply gamma_mono; lia.
Qed.
(** The curve lies above the straight line. *)
Lemma gamma_above i : 0 <= i < 256 -> (IZR i <= gamma_log i)%R.
Proof.
intros h; assert (r := IZR_range i h); rewrite gamma_eq by exact h; assert (p := ln10_pos).
set (x := (IZR i / 255)%R); assert (hx : (0 <= x <= 1)%R) by (unfold x; lra).
set (L := ln 10) in *; assert (eL : exp L = 10%R) by (unfold L; apply exp_ln; lra).
assert (k : (exp (x * L) <= 1 + 9 * x)%R).
{ assert (e1 := exp_ineq1_le ((1 - x) * L)); assert (e0 := exp_ineq1_le (- (x * L))).
  assert (c := exp_pos (x * L)).
  assert (m1 : (exp (x * L) * (1 + (1 - x) * L) <= 10)%R).
  { replace 10%R with (exp (x * L) * exp ((1 - x) * L))%R
      by (rewrite <- exp_plus, <- eL; f_equal; ring).
    apply Rmult_le_compat_l; lra. }
  assert (m0 : (exp (x * L) * (1 + - (x * L)) <= 1)%R).
  { replace 1%R with (exp (x * L) * exp (- (x * L)))%R at 2
      by (rewrite <- exp_plus, Rplus_opp_r; apply exp_0).
    apply Rmult_le_compat_l; lra. }
  assert (s1 : (x * (exp (x * L) * (1 + (1 - x) * L)) <= x * 10)%R) by (apply Rmult_le_compat_l; lra).
  assert (s0 : ((1 - x) * (exp (x * L) * (1 + - (x * L))) <= (1 - x) * 1)%R) by (apply Rmult_le_compat_l; lra).
  assert (id : (x * (exp (x * L) * (1 + (1 - x) * L)) + (1 - x) * (exp (x * L) * (1 + - (x * L))) = exp (x * L))%R) by ring.
  lra. }
assert (k2 : (x * L <= ln (1 + 9 * x))%R).
{ destruct k as [k|k].
  - left; rewrite <- (ln_exp (x * L)); apply ln_increasing; [apply exp_pos|exact k].
  - right; rewrite <- k, ln_exp; reflexivity. }
replace (IZR i) with (x * 255)%R by (unfold x; field).
apply Rmult_le_compat_r; [lra|].
apply Rmult_le_reg_r with L; [exact p|].
unfold Rdiv; rewrite Rmult_assoc, Rinv_l by lra; lra.
Qed.

(** ** The sine palettes *)
Lemma wave_range d : (0 <= wave d <= 255)%R.
Proof. unfold wave; destruct (SIN_bound (d * deg2rad)); lra. Qed.
Lemma waves_ok i dr dg db : waves i dr dg db =
  Ok (Color (toward_zero (wave db)) (toward_zero (wave dg)) (toward_zero (wave dr))).
Proof.
unfold waves, to_int.
destruct (to_range_ok (-2147483648) 2147483647 (wave dr)) as [-> h1]; [lia|lia|apply wave_range|].
destruct (to_range_ok (-2147483648) 2147483647 (wave dg)) as [-> h2]; [lia|lia|apply wave_range|].
destruct (to_range_ok (-2147483648) 2147483647 (wave db)) as [-> h3]; [lia|lia|apply wave_range|].
cbn [bind]; now rewrite !wrap_id by lia.
Qed.

(** ** The last palette *)
(** the three pieces of [vals] as one *)
Definition tooth (k : Z) : Z := Z.max 0 (Z.min k (Z.min 64 (191 - k))).

Lemma vec_set_ok v k x : 0 <= k < 192 -> vec_set v k x = Ok (fun j => if j =? k then x else v j).
Proof.
intros h; unfold vec_set, nvals; rewrite (proj2 (Z.leb_le _ _)), (proj2 (Z.ltb_lt _ _)) by lia; reflexivity.
Qed.
Lemma vec_get_ok v k : 0 <= k < 192 -> vec_get v k = Ok (v k).
Proof.
intros h; unfold vec_get, nvals; rewrite (proj2 (Z.leb_le _ _)), (proj2 (Z.ltb_lt _ _)) by lia; reflexivity.
Qed.

Lemma ramp_ok f v a : 0 <= a -> a + 64 <= 192 ->
  exists w, ramp f (v, a) = Ok (w, a + 64) /\
    (forall j, a <= j < a + 64 -> w j = (IZR (f (j - a)%Z) / 64)%R) /\ (forall j, ~ a <= j < a + 64 -> w j = v j).
Proof.
intros h0 h1.
destruct (@loop_inv (vec * Z) (fun i s => snd s = a + i /\
    (forall j, a <= j < a + i -> fst s j = (IZR (f (j - a)%Z) / 64)%R) /\ (forall j, ~ a <= j < a + i -> fst s j = v j))
  (fun i s => let '(v, idx) := s in let* v' := vec_set v idx (IZR (f i) / IZR nsep)%R in Ok (v', idx + 1)) 64 0 (v, a))
  as [[w k] [e [h2 [h3 h4]]]].
- intros i [w k] hi [h2 [h3 h4]]; cbn [fst snd] in *; subst k.
  rewrite vec_set_ok by lia; cbn [bind]; eexists; split; [reflexivity|]; cbn [fst snd]; split; [lia|].
  split; intros j hj; destruct (Z.eqb_spec j (a + i)) as [->|ne].
  + replace (a + i - a) with i by lia; reflexivity.
  + apply h3; lia.
  + exfalso; lia.
  + apply h4; lia.
- cbn [fst snd]; split; [lia|]; split; [intros j hj; lia|reflexivity].
- cbn [fst snd] in *; exists w; unfold ramp; rewrite e; subst k; split; [reflexivity|]; split; [exact h3|exact h4].
Qed.

Lemma jet_vals_ok : exists v, jet_vals = Ok v /\ forall k, 0 <= k < 192 -> v k = (IZR (tooth k) / 64)%R.
Proof.
unfold jet_vals.
destruct (ramp_ok (fun i => i) zeros 0) as [v1 [e1 [h1 _]]]; [lia|lia|].
rewrite e1; cbn [bind fst snd].
destruct (@loop_inv vec (fun i v => forall j, 0 <= j < i -> v j = (IZR (tooth j) / 64)%R)
  (fun k v => vec_set v k 1%R) 64 64 v1) as [v2 [e2 h2]].
- intros i v hi hv; rewrite vec_set_ok by lia; eexists; split; [reflexivity|].
  intros j hj; cbn beta; destruct (Z.eqb_spec j i) as [->|ne]; [|apply hv; lia].
  replace (tooth i) with 64 by (unfold tooth; lia); lra.
- intros j hj; rewrite h1 by lia; unfold tooth; do 2 f_equal; lia.
- replace (0 + 64) with 64 by reflexivity; rewrite e2; cbn [bind].
  destruct (ramp_ok (fun n => nsep - 1 - n) v2 (64 + nsep)) as [v3 [e3 [h3 h4]]]; [unfold nsep; lia|unfold nsep; lia|].
  rewrite e3; cbn [bind fst]; exists v3; split; [reflexivity|].
  intros k hk; unfold nsep in *; destruct (Z_lt_le_dec k 128) as [lt|ge].
  + rewrite h4 by lia; apply h2; lia.
  + rewrite h3 by lia; unfold tooth; do 2 f_equal; lia.
Qed.

Definition step (k : Z) : Z := tooth k * 255 / 64.
Lemma tooth_range k : 0 <= tooth k <= 64.
Proof. unfold tooth; lia. Qed.
Lemma step_range k : 0 <= step k <= 255.
Proof.
assert (h := tooth_range k); unfold step; split; [apply Z.div_pos; lia|].
apply Z.div_le_upper_bound; lia.
Qed.
Lemma to_uchar_tooth k : to_uchar (IZR (tooth k) / 64 * 255) = Ok (step k).
Proof.
assert (h := tooth_range k); assert (b := quotient_bound (tooth k * 255) 64 ltac:(lia)); fold (step k) in b.
assert (e : (IZR (tooth k) / 64 * 255 = IZR (tooth k * 255) / 64)%R) by (rewrite mult_IZR; field).
assert (hr : (0 <= IZR (tooth k) <= 64)%R) by (split; [apply (IZR_le 0)|apply (IZR_le _ 64)]; lia).
destruct (to_range_ok 0 255 (IZR (tooth k) / 64 * 255)) as [e1 _]; [lia|lia|lra|].
unfold to_uchar; rewrite e1; f_equal; apply toward_zero_spec; [lra|]; rewrite e; exact b.
Qed.

Lemma in_colors_true k : 0 <= k < 256 -> in_colors k = true.
Proof. intros h; unfold in_colors; now rewrite (proj2 (Z.leb_le _ _)), (proj2 (Z.ltb_lt _ _)) by lia. Qed.
Lemma in_colors_false k : ~ 0 <= k < 256 -> in_colors k = false.
Proof.
intros h; unfold in_colors; destruct (Z.leb_spec 0 k); [|reflexivity]; destruct (Z.ltb_spec k 256); [lia|reflexivity].
Qed.
Lemma jet_g_eq i : jet_g i = 31 + i.
Proof. unfold jet_g, nsep; replace (64 / 2) with 32 by reflexivity; lia. Qed.
Lemma jet_r_eq i : jet_r i = 95 + i.
Proof. unfold jet_r; rewrite jet_g_eq; unfold nsep; lia. Qed.
Lemma jet_b_eq i : jet_b i = i - 33.
Proof. unfold jet_b; rewrite jet_g_eq; unfold nsep; lia. Qed.

Definition warm_inv (i : Z) (s : colors * Z * Z) : Prop :=
  snd (fst s) = Z.min i 161 /\ snd s = i /\
  forall j, fst (fst s) j = Color 0 (if (31 <=? j) && (j <? 31 + i) then step (j - 31) else 0)
                                 (if (95 <=? j) && (j <? Z.min (95 + i) 256) then step (j - 95) else 0).
Lemma warm_ok v : (forall k, 0 <= k < 192 -> v k = (IZR (tooth k) / 64)%R) ->
  exists s, loop 192 0 (jet_warm v) (blank, 0, 0) = Ok s /\ warm_inv 192 s.
Proof.
intros hv; apply loop_inv.
- intros i [[p a] b] hi [ha [hb hp]]; cbn [fst snd] in *; subst a b; unfold jet_warm.
  rewrite jet_r_eq, jet_g_eq, (in_colors_true (31 + i)) by lia.
  destruct (Z_lt_le_dec i 161) as [lt|ge].
  + rewrite in_colors_true by lia; rewrite Z.min_l by lia.
    rewrite (vec_get_ok v i), hv by lia; cbn [bind]; rewrite to_uchar_tooth; cbn [bind].
    rewrite write_ok by lia; cbn [bind]; rewrite write_ok by lia; cbn [bind].
    eexists; split; [reflexivity|]; unfold warm_inv; cbn [fst snd]; split; [lia|]; split; [lia|].
    intros j; destruct (Z.eqb_spec j (31 + i)) as [e1|n1]; destruct (Z.eqb_spec j (95 + i)) as [e2|n2];
      unfold set_green, set_red; rewrite hp; cbn [blue green red]; f_equal;
      repeat match goal with |- context [Z.leb ?a ?b] => destruct (Z.leb_spec a b) | |- context [Z.ltb ?a ?b] => destruct (Z.ltb_spec a b) end;
      cbn [andb]; try reflexivity; try lia; f_equal; lia.
  + rewrite in_colors_false by lia; cbn [bind].
    rewrite (vec_get_ok v i), hv by lia; cbn [bind]; rewrite to_uchar_tooth; cbn [bind].
    rewrite write_ok by lia; cbn [bind].
    eexists; split; [reflexivity|]; unfold warm_inv; cbn [fst snd]; split; [lia|]; split; [lia|].
    intros j; destruct (Z.eqb_spec j (31 + i)) as [e1|n1];
      unfold set_green; rewrite hp; cbn [blue green red]; f_equal;
      repeat match goal with |- context [Z.leb ?a ?b] => destruct (Z.leb_spec a b) | |- context [Z.ltb ?a ?b] => destruct (Z.ltb_spec a b) end;
      cbn [andb]; try reflexivity; try lia; f_equal; lia.
- split; [reflexivity|]; split; [reflexivity|]; cbn [fst]; intros j; unfold black; f_equal;
    repeat match goal with |- context [Z.leb ?a ?b] => destruct (Z.leb_spec a b) | |- context [Z.ltb ?a ?b] => destruct (Z.ltb_spec a b) end;
    cbn [andb]; try reflexivity; lia.
Qed.

Lemma count_ok : jet_count = Ok 159.
Proof.
destruct (@loop_inv Z (fun i n => n = Z.max 0 (i - 33)) (fun i n => Ok (if in_colors (jet_b i) then n + 1 else n)) 192 0 0)
  as [n [e h]].
- intros i n hi hn; eexists; split; [reflexivity|]; rewrite jet_b_eq.
  destruct (Z_lt_le_dec i 33); [rewrite in_colors_false by lia; lia|rewrite in_colors_true by lia; lia].
- reflexivity.
- unfold jet_count; rewrite e, h; reflexivity.
Qed.

Lemma cold_ok v p : (forall k, 0 <= k < 192 -> v k = (IZR (tooth k) / 64)%R) ->
  exists q a, loop 192 0 (jet_cold v 159) (p, 0) = Ok (q, a) /\
  forall j, q j = if (0 <=? j) && (j <? 159) then set_blue (step (32 + j)) (p j) else p j.
Proof.
intros hv.
destruct (@loop_inv (colors * Z) (fun i s => snd s = Z.max 0 (i - 33) /\
   forall j, fst s j = if (0 <=? j) && (j <? i - 33) then set_blue (step (32 + j)) (p j) else p j)
   (jet_cold v 159) 192 0 (p, 0)) as [[q a] [e [_ h]]].
- intros i [q a] hi [ha hq]; cbn [fst snd] in *; subst a; unfold jet_cold; rewrite jet_b_eq.
  destruct (Z_lt_le_dec i 33) as [lt|ge].
  + rewrite in_colors_false by lia; eexists; split; [reflexivity|]; cbn [fst snd]; split; [lia|].
    intros j; rewrite hq.
    destruct (Z.leb_spec 0 j); cbn [andb]; [|reflexivity].
    destruct (Z.ltb_spec j (i - 33)); destruct (Z.ltb_spec j (i + 1 - 33)); try reflexivity; lia.
  + rewrite in_colors_true by lia; replace (nvals - 1 - 159 + Z.max 0 (i - 33)) with (i - 1) by (unfold nvals; lia).
    rewrite (vec_get_ok v), hv by lia; cbn [bind]; rewrite to_uchar_tooth; cbn [bind]; rewrite write_ok by lia; cbn [bind].
    eexists; split; [reflexivity|]; cbn [fst snd]; split; [lia|].
    intros j; destruct (Z.eqb_spec j (i - 33)) as [->|ne]; rewrite hq.
    * destruct (Z.leb_spec 0 (i - 33)); [|lia]; destruct (Z.ltb_spec (i - 33) (i - 33)); [lia|].
      destruct (Z.ltb_spec (i - 33) (i + 1 - 33)); [|lia]; cbn [andb]; do 2 f_equal; lia.
    * destruct (Z.leb_spec 0 j); cbn [andb]; [|reflexivity].
      destruct (Z.ltb_spec j (i - 33)); destruct (Z.ltb_spec j (i + 1 - 33)); try reflexivity; lia.
- cbn [fst snd]; split; [reflexivity|]; intros j.
  destruct (Z.leb_spec 0 j); destruct (Z.ltb_spec j (0 - 33)); cbn [andb]; try reflexivity; lia.
- exists q, a; split; [exact e|exact h].
Qed.

Lemma step_out k : k <= 0 \/ 191 <= k -> step k = 0.
Proof. intros h; unfold step; replace (tooth k) with 0 by (unfold tooth; lia); reflexivity. Qed.

Lemma jet_ok : exists p, jet = Ok p /\
  (forall j, 0 <= j < 256 -> p j = Color (step (32 + j)) (step (j - 31)) (step (j - 95))) /\
  (forall j, ~ 0 <= j < 256 -> p j = black).
Proof.
unfold jet; destruct jet_vals_ok as [v [-> hv]]; cbn [bind].
destruct (warm_ok v hv) as [[[p a] b] [-> [_ [_ hp]]]]; cbn [bind fst] in *.
rewrite count_ok; cbn [bind].
destruct (cold_ok v p hv) as [q [c [-> hq]]]; cbn [bind fst].
exists q; split; [reflexivity|]; split; intros j hj; rewrite hq, hp; unfold set_blue; cbn [green red].
- destruct (Z.leb_spec 0 j); [|lia]; destruct (Z.ltb_spec j 159); cbn [andb]; f_equal;
    repeat match goal with |- context [Z.leb ?a ?b] => destruct (Z.leb_spec a b) | |- context [Z.ltb ?a ?b] => destruct (Z.ltb_spec a b) end;
    cbn [andb]; try reflexivity; try lia; symmetry; apply step_out; lia.
- unfold black; destruct (Z.leb_spec 0 j); destruct (Z.ltb_spec j 159); cbn [andb]; try lia; f_equal;
    repeat match goal with |- context [Z.leb ?a ?b] => destruct (Z.leb_spec a b) | |- context [Z.ltb ?a ?b] => destruct (Z.ltb_spec a b) end;
    cbn [andb]; try reflexivity; lia.
Qed.
