(** C70: the colour palettes. *)

From Coq Require Import Reals ZArith Lra Lia List Bool.
From Verif Require Import Outcome Palette PaletteProofs.
Local Open Scope Z_scope.

(** ** Every palette is defined, on 0 to 255 and nowhere else *)
Definition byte (k : Z) : Prop := 0 <= k <= 255.
Definition inside (j : Z) : Prop := 0 <= j <= 255.

(** The entry the palettes hold at an index *)
Definition look (t : palette_type) (j : Z) (c : color) : Prop :=
  exists p, get_palette t = Ok p /\ p j = c.

Lemma look_one t j c d : look t j c -> look t j d -> c = d.
Proof. intros [p [e1 e2]] [q [e3 e4]]; rewrite e1 in e3; injection e3 as e; subst q; congruence. Qed.

Definition entry_of (t : palette_type) (i : Z) : color :=
  let w d := toward_zero (wave d) in
  match t with
  | LinearRed => Color 0 0 i
  | GammaLogRed => Color 0 0 (toward_zero (gamma_log i))
  | InversionRed => Color 0 0 (255 - i)
  | Linear => Color i i i
  | GammaLog => Color (toward_zero (gamma_log i)) (toward_zero (gamma_log i)) (toward_zero (gamma_log i))
  | Inversion => Color (255 - i) (255 - i) (255 - i)
  | FalseColor1 => Color (w (hue i 140)) (w (hue i 60)) (w (pos_part (hue i (-120))))
  | FalseColor2 => Color (w (hue i 0)) (w (hue i 240)) (w (hue i 120))
  | FalseColor3 => Color (w (hue i 120)) (w (hue i 0)) (w (hue i 240))
  | FalseColor4 => Color (step (32 + i)) (step (i - 31)) (step (i - 95))
  end.

Lemma palette_ok t : exists p, get_palette t = Ok p /\
  (forall j, 0 <= j < 256 -> p j = entry_of t j) /\ (forall j, ~ 0 <= j < 256 -> p j = black).
Proof.
destruct t; cbn [get_palette entry_of]; [..|apply jet_ok]; apply fill_ok; intros i hi.
- now rewrite wrap_id by lia.
- unfold to_uchar; destruct (to_range_ok 0 255 (gamma_log i)) as [-> _]; [lia|lia|now apply gamma_range|reflexivity].
- now rewrite wrap_id by lia.
- now rewrite wrap_id by lia.
- unfold to_uchar; destruct (to_range_ok 0 255 (gamma_log i)) as [-> _]; [lia|lia|now apply gamma_range|reflexivity].
- now rewrite wrap_id by lia.
- apply waves_ok.
- apply waves_ok.
- apply waves_ok.
Qed.
Lemma look_entry t j : inside j -> look t j (entry_of t j).
Proof. intros h; destruct (palette_ok t) as [p [e [h1 _]]]; exists p; split; [exact e|apply h1; unfold inside in h; lia]. Qed.
Lemma look_inv t j c : inside j -> look t j c -> c = entry_of t j.
Proof. intros h l; exact (look_one t j c _ l (look_entry t j h)). Qed.

Lemma wave_byte d : byte (toward_zero (wave d)).
Proof. destruct (to_range_ok 0 255 (wave d)) as [_ h]; [lia|lia|apply wave_range|exact h]. Qed.
Lemma gamma_byte i : inside i -> byte (toward_zero (gamma_log i)).
Proof.
intros h; destruct (to_range_ok 0 255 (gamma_log i)) as [_ b]; [lia|lia| |exact b].
apply gamma_range; unfold inside in h; lia.
Qed.

Theorem C70_total t : exists p, get_palette t = Ok p /\
  forall j, (inside j -> byte (blue (p j)) /\ byte (green (p j)) /\ byte (red (p j))) /\
            (~ inside j -> p j = Color 0 0 0).
Proof.
destruct (palette_ok t) as [p [e [h1 h2]]]; exists p; split; [exact e|].
intros j; split; intros h.
- rewrite h1 by (unfold inside in h; lia).
  destruct t; cbn [entry_of blue green red]; repeat split; try apply wave_byte; try (now apply gamma_byte);
    try apply step_range; unfold byte, inside in *; try lia.
  all: apply (gamma_byte j) || idtac; unfold inside; lia.
- apply h2; unfold inside in h; lia.
Qed.
Print Assumptions C70_total.

(** ** Straight, reversed and logarithmic *)
Theorem C70_straight j : inside j ->
  look Linear j (Color j j j) /\ look LinearRed j (Color 0 0 j) /\
  look Inversion j (Color (255 - j) (255 - j) (255 - j)) /\ look InversionRed j (Color 0 0 (255 - j)).
Proof. intros h; repeat split; now apply look_entry. Qed.
Print Assumptions C70_straight.

(** A reversed palette is the straight one read backwards. *)
Theorem C70_reversed j c : inside j ->
  (look Inversion j c <-> look Linear (255 - j) c) /\ (look InversionRed j c <-> look LinearRed (255 - j) c).
Proof.
intros h; assert (h' : inside (255 - j)) by (unfold inside in *; lia).
split; split; intros l; apply look_inv in l; try assumption; subst c; cbn [entry_of];
  match goal with |- look ?t ?i _ => exact (look_entry t i ltac:(assumption)) | _ => idtac end.
all: replace (Color _ _ _) with (entry_of Inversion j) by reflexivity; now apply look_entry.
Qed.
Print Assumptions C70_reversed.

(** The red palettes keep one channel of the grey ones. *)
Theorem C70_red_of_grey j c : inside j ->
  (look LinearRed j c <-> exists g, look Linear j g /\ c = Color 0 0 (red g)) /\
  (look InversionRed j c <-> exists g, look Inversion j g /\ c = Color 0 0 (red g)) /\
  (look GammaLogRed j c <-> exists g, look GammaLog j g /\ c = Color 0 0 (red g)).
Proof.
intros h.
assert (k : forall t u, entry_of t j = Color 0 0 (red (entry_of u j)) ->
  (look t j c <-> exists g, look u j g /\ c = Color 0 0 (red g))).
{ intros t u e; split.
  - intros l; apply look_inv in l; [|exact h]; exists (entry_of u j); split; [now apply look_entry|congruence].
  - intros [g [l ->]]; apply look_inv in l; [|exact h]; subst g; rewrite <- e; now apply look_entry. }
repeat split; try (apply k; reflexivity).
Qed.
Print Assumptions C70_red_of_grey.

(** The logarithmic curve runs from 0 to 255 without falling, above the straight one, and its
    entry is the integer part of [255 log10 (1 + 9 j / 255)]. *)
Theorem C70_log j c : inside j -> look GammaLog j c ->
  blue c = red c /\ green c = red c /\
  (IZR (red c) <= 255 * (ln (1 + 9 * IZR j / 255) / ln 10) < IZR (red c) + 1)%R /\ j <= red c /\
  (j = 0 -> red c = 0) /\ (j = 255 -> red c = 255) /\
  (forall i d, 0 <= i <= j -> look GammaLog i d -> red d <= red c).
Proof.
intros h l; apply look_inv in l; [|exact h]; subst c; cbn [entry_of blue green red]; unfold inside in h.
assert (r := gamma_range j ltac:(lia)).
split; [reflexivity|]; split; [reflexivity|]; split; [|split; [|split; [|split]]].
- replace (255 * (ln (1 + 9 * IZR j / 255) / ln 10))%R with (gamma_log j); [apply toward_zero_bound; lra|].
  rewrite gamma_eq by lia; replace (9 * (IZR j / 255))%R with (9 * IZR j / 255)%R by (unfold Rdiv; ring).
  unfold Rdiv; ring.
- apply toward_zero_ge; split; [apply (IZR_le 0); lia|apply gamma_above; lia].
- intros ->; rewrite gamma_0; apply toward_zero_spec; lra.
- intros ->; rewrite gamma_255; apply toward_zero_spec; lra.
- intros i d hi l; apply look_inv in l; [|unfold inside; lia]; subst d; cbn [entry_of red].
  apply toward_zero_le; split; [apply gamma_range; lia|apply gamma_mono; lia].
Qed.
Print Assumptions C70_log.

(** ** The sine palettes *)
(** An angle in degrees as a brightness; the factor is the one of the source, not pi / 180 *)
Definition shade (a : R) (k : Z) : Prop :=
  let s := (255 * (1 + sin (a * (1745329 / 100000000))) / 2)%R in (IZR k <= s < IZR k + 1)%R.
Definition turn (j : Z) : R := (360 * IZR j / 255)%R.

Lemma shade_wave a b : a = b -> shade a (toward_zero (wave b)).
Proof.
intros ->; unfold shade; replace (255 * (1 + sin (b * (1745329 / 100000000))) / 2)%R with (wave b)
  by (unfold wave, deg2rad; lra).
apply toward_zero_bound, wave_range.
Qed.
Lemma hue_turn j s : hue j s = (turn j + s)%R.
Proof. unfold hue, turn; lra. Qed.

Theorem C70_sines j c1 c2 c3 : inside j -> look FalseColor1 j c1 -> look FalseColor2 j c2 -> look FalseColor3 j c3 ->
  (shade (Rmax 0 (turn j - 120)) (red c1) /\ shade (turn j + 60) (green c1) /\ shade (turn j + 140) (blue c1)) /\
  (shade (turn j + 120) (red c2) /\ shade (turn j + 240) (green c2) /\ shade (turn j) (blue c2)) /\
  (shade (turn j + 240) (red c3) /\ shade (turn j) (green c3) /\ shade (turn j + 120) (blue c3)).
Proof.
intros h l1 l2 l3; apply look_inv in l1, l2, l3; try exact h; subst c1 c2 c3; cbn [entry_of blue green red].
assert (k : shade (Rmax 0 (turn j - 120)) (toward_zero (wave (pos_part (hue j (-120)))))).
2: { repeat match goal with |- _ /\ _ => split end; try exact k; apply shade_wave; rewrite hue_turn; ring. }
apply shade_wave; unfold pos_part, Rmax; rewrite hue_turn; destruct (Rlt_dec 0 (turn j + -120)); destruct (Rle_dec 0 (turn j - 120)); lra.
Qed.
Print Assumptions C70_sines.

(** The third palette is the second with the channels turned round. *)
Theorem C70_turned j c2 c3 : inside j -> look FalseColor2 j c2 -> look FalseColor3 j c3 ->
  red c3 = green c2 /\ green c3 = blue c2 /\ blue c3 = red c2.
Proof. intros h l2 l3; apply look_inv in l2, l3; try exact h; subst c2 c3; repeat split. Qed.
Print Assumptions C70_turned.

(** ** The last palette *)
(** up for 64 steps, flat for 64, down to zero in 64 *)
Definition hump (k : Z) : Z :=
  if k <? 0 then 0 else if k <? 64 then k else if k <? 128 then 64 else if k <? 192 then 191 - k else 0.
Definition level (k c : Z) : Prop := 64 * c <= 255 * hump k < 64 * (c + 1).

Lemma level_step k : level k (step k).
Proof.
unfold level; replace (hump k) with (tooth k).
- unfold step; assert (d := Z.div_mod (tooth k * 255) 64); assert (m := Z.mod_pos_bound (tooth k * 255) 64); lia.
- unfold hump, tooth; repeat match goal with |- context [Z.ltb ?a ?b] => destruct (Z.ltb_spec a b) end; lia.
Qed.
Lemma level_one k c d : level k c -> level k d -> c = d.
Proof. unfold level; lia. Qed.

(** The same hump for each channel, green 64 before red and blue 63 before green *)
Theorem C70_jet j c : inside j -> look FalseColor4 j c ->
  level (j - 95) (red c) /\ level (j - 31) (green c) /\ level (j + 32) (blue c).
Proof.
intros h l; apply look_inv in l; [|exact h]; subst c; cbn [entry_of blue green red].
rewrite (Z.add_comm 32 j); split; [|split]; apply level_step.
Qed.
Print Assumptions C70_jet.

Theorem C70_jet_exact j c : inside j ->
  (look FalseColor4 j c <-> level (j - 95) (red c) /\ level (j - 31) (green c) /\ level (j + 32) (blue c)).
Proof.
intros h; split; [now apply C70_jet|].
intros [h1 [h2 h3]]; destruct (C70_jet j _ h (look_entry FalseColor4 j h)) as [k1 [k2 k3]].
replace c with (entry_of FalseColor4 j); [now apply look_entry|].
destruct c as [b g r]; destruct (entry_of FalseColor4 j) as [b' g' r']; cbn [blue green red] in *.
f_equal; eapply level_one; eassumption.
Qed.
Print Assumptions C70_jet_exact.

(** The channels are not evenly spaced: the blue values are taken one place too early.  With
    [nvals - cntblue] instead of [nvals - 1 - cntblue] they would be 64 before the green ones. *)
Definition C70_even : Prop :=
  forall j c, inside j -> look FalseColor4 j c -> level (j - 31) (green c) /\ level (j + 33) (blue c).
Theorem C70_even_refuted : ~ C70_even.
Proof.
intros H; assert (i0 : inside 0) by (unfold inside; lia).
destruct (H 0 _ i0 (look_entry FalseColor4 0 i0)) as [_ h].
vm_compute in h; destruct h as [_ h]; discriminate h.
Qed.
Print Assumptions C70_even_refuted.

(** Hence the palette is not the same from both ends; shifted by one place it is. *)
Definition C70_mirror : Prop :=
  forall j c d, inside j -> look FalseColor4 j c -> look FalseColor4 (255 - j) d -> blue c = red d.
Theorem C70_mirror_refuted : ~ C70_mirror.
Proof.
intros H; assert (i0 : inside 0) by (unfold inside; lia); assert (i1 : inside 255) by (unfold inside; lia).
assert (h := H 0 _ _ i0 (look_entry FalseColor4 0 i0) (look_entry FalseColor4 255 i1)); vm_compute in h; discriminate h.
Qed.
Print Assumptions C70_mirror_refuted.

Theorem C70_mirror_shifted j c d : 0 <= j <= 254 -> look FalseColor4 j c -> look FalseColor4 (254 - j) d ->
  blue c = red d.
Proof.
intros h l m; destruct (C70_jet j c ltac:(unfold inside; lia) l) as [_ [_ h1]].
destruct (C70_jet (254 - j) d ltac:(unfold inside; lia) m) as [h2 _].
apply (level_one (j + 32)); [exact h1|].
unfold level in *; replace (hump (j + 32)) with (hump (254 - j - 95)); [exact h2|].
unfold hump; repeat match goal with |- context [Z.ltb ?a ?b] => destruct (Z.ltb_spec a b) end; lia.
Qed.
Print Assumptions C70_mirror_shifted.

(** Examples *)
Example C70_jet_ex : look FalseColor4 0 (Color 127 0 0) /\ look FalseColor4 127 (Color 127 255 127) /\
  look FalseColor4 255 (Color 0 0 123).
Proof. repeat split; apply C70_jet_exact; unfold inside, level, hump; cbn; lia. Qed.
Lemma ln_power (a : Z) (n : nat) : 0 < a -> (ln (IZR (a ^ Z.of_nat n)) = INR n * ln (IZR a))%R.
Proof.
intros h; rewrite <- pow_IZR; assert (p : (0 < IZR a)%R) by (apply (IZR_lt 0); lia).
induction n as [|n IH]; [cbn; rewrite ln_1; ring|].
rewrite S_INR; cbn [Rpow_def.pow]; rewrite ln_mult, IH; [ring|exact p|now apply pow_lt].
Qed.
(** A third of the way up the straight palette the logarithmic one is at three fifths. *)
Example C70_log_ex : look GammaLog 85 (Color 153 153 153).
Proof.
assert (e : toward_zero (gamma_log 85) = 153).
{ apply toward_zero_spec; [apply gamma_range; lia|].
  rewrite gamma_eq by lia; replace (1 + 9 * (85 / 255))%R with 4%R by field; assert (p := ln10_pos).
  assert (a : (INR 3 * ln 10 <= INR 5 * ln 4)%R).
  { rewrite <- (ln_power 10 3), <- (ln_power 4 5) by lia; left; apply ln_increasing.
    - apply (IZR_lt 0); reflexivity.
    - apply IZR_lt; reflexivity. }
  assert (b : (INR 255 * ln 4 < INR 154 * ln 10)%R).
  { rewrite <- (ln_power 10 154), <- (ln_power 4 255) by lia; apply ln_increasing.
    - apply (IZR_lt 0); reflexivity.
    - apply IZR_lt; reflexivity. }
  rewrite !INR_IZR_INZ in a, b; cbn [Z.of_nat Pos.of_succ_nat Pos.succ] in a, b.
  split; apply Rmult_le_reg_r with (ln 10) || apply Rmult_lt_reg_r with (ln 10); try exact p.
  all: replace (ln 4 / ln 10 * 255 * ln 10)%R with (255 * ln 4)%R by (field; lra); lra. }
replace (Color 153 153 153) with (entry_of GammaLog 85); [apply look_entry; unfold inside; lia|].
cbn [entry_of]; now rewrite e.
Qed.
Example C70_turned_ex : exists c2 c3, look FalseColor2 0 c2 /\ look FalseColor3 0 c3 /\ green c3 = 127 /\ blue c2 = 127.
Proof.
assert (i0 : inside 0) by (unfold inside; lia).
exists (entry_of FalseColor2 0), (entry_of FalseColor3 0); split; [now apply look_entry|]; split; [now apply look_entry|].
cbn [entry_of green blue]; split; (apply toward_zero_spec; [apply wave_range|]);
  unfold wave, hue; replace ((0 / 255 * 360 + 0) * deg2rad)%R with 0%R by field; rewrite sin_0; lra.
Qed.
Example C70_straight_ex : look Inversion 255 (Color 0 0 0) /\ look LinearRed 7 (Color 0 0 7).
Proof.
split.
- exact (proj1 (proj2 (proj2 (C70_straight 255 ltac:(unfold inside; lia))))).
- exact (proj1 (proj2 (C70_straight 7 ltac:(unfold inside; lia)))).
Qed.
