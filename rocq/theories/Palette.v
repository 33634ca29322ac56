(** The colour palettes of msf_core/src/lib/falsecolor.cc and msf_core/include/msf_core/
    falsecolor.h.  Definitions only; real arithmetic instead of float and double, so what
    rounding does at a value that is just an integer is left out.

    Undefined: writing [colors] or reading [vals] out of range, and converting a number whose
    integer part does not fit to [unsigned char] or [int]. *)

From Coq Require Import Reals ZArith List Bool.
From Verif Require Import Outcome.
Import ListNotations.
Local Open Scope Z_scope.

(** struct color, struct palette, falsecolor.h lines 20-43; the constructor sets all to 0 *)
Record color := Color { blue : Z; green : Z; red : Z }.
Definition black : color := Color 0 0 0.
Definition colors := Z -> color.
Definition blank : colors := fun _ => black.

Inductive palette_type :=
| LinearRed | GammaLogRed | InversionRed | Linear | GammaLog | Inversion
| FalseColor1 | FalseColor2 | FalseColor3 | FalseColor4.

(** [ret.colors[k] = ...] *)
Definition write (p : colors) (k : Z) (f : color -> color) : res colors :=
  if (0 <=? k) && (k <? 256) then Ok (fun j => if j =? k then f (p j) else p j) else UB.
Definition set_all (b g r : Z) (c : color) : color := Color b g r.
Definition set_red (v : Z) (c : color) : color := Color (blue c) (green c) v.
Definition set_green (v : Z) (c : color) : color := Color (blue c) v (red c).
Definition set_blue (v : Z) (c : color) : color := Color v (green c) (red c).

(** Conversion of a floating point number: towards zero, undefined out of range *)
Definition toward_zero (x : R) : Z := if Rle_dec 0 x then Int_part x else - Int_part (- x).
Definition to_range (lo hi : Z) (x : R) : res Z :=
  let k := toward_zero x in if (lo <=? k) && (k <=? hi) then Ok k else UB.
Definition to_uchar : R -> res Z := to_range 0 255.
Definition to_int : R -> res Z := to_range (-2147483648) 2147483647.
(** int to unsigned char *)
Definition wrap (k : Z) : Z := k mod 256.

(** [for (i = a; i < a + n; i++)] *)
Fixpoint loop {S : Type} (n : nat) (i : Z) (body : Z -> S -> res S) (s : S) : res S :=
  match n with
  | O => Ok s
  | S n' => let* s' := body i s in loop n' (i + 1) body s'
  end.
(** Every palette but the last fills the entries 0 to 255 in order. *)
Definition fill (entry : Z -> res color) : res colors :=
  loop 256 0 (fun i p => let* c := entry i in write p i (fun _ => c)) blank.

(** [pow(x, y)] for [x >= 0] and [y > 0] *)
Definition pow (x y : R) : R := if Req_EM_T x 0 then 0%R else Rpower x y.
(** lines 44 and 74 *)
Definition gamma_log (i : Z) : R := (ln (pow (IZR i / 255) 1 * 9 + 1) / ln 10 * 255)%R.

(** line 23 *)
Definition deg2rad : R := (1745329 / 100000000)%R.
(** [(sin(d * DEG2RAD) * 0.5 + 0.5) * 255.0] *)
Definition wave (d : R) : R := ((sin (d * deg2rad) * (1/2) + 1/2) * 255)%R.
Definition hue (i : Z) (shift : R) : R := (IZR i / 255 * 360 + shift)%R.
(** [x > 0 ? x : 0] *)
Definition pos_part (x : R) : R := if Rlt_dec 0 x then x else 0%R.
Definition waves (i : Z) (dr dg db : R) : res color :=
  let* r := to_int (wave dr) in let* g := to_int (wave dg) in let* b := to_int (wave db) in
  Ok (Color (wrap b) (wrap g) (wrap r)).

(** *** The last palette, lines 127-186 *)
Definition nsep : Z := 64.
Definition nvals : Z := 192.

(** [vals(k, 0)], a vector of [nvals] entries *)
Definition vec := Z -> R.
Definition zeros : vec := fun _ => 0%R.
Definition vec_set (v : vec) (k : Z) (x : R) : res vec :=
  if (0 <=? k) && (k <? nvals) then Ok (fun j => if j =? k then x else v j) else UB.
Definition vec_get (v : vec) (k : Z) : res R := if (0 <=? k) && (k <? nvals) then Ok (v k) else UB.

(** One of the two ramps: [vals(idx++, 0) = f(i) / nsep] *)
Definition ramp (f : Z -> Z) (s : vec * Z) : res (vec * Z) :=
  loop 64 0 (fun i s => let '(v, idx) := s in
                        let* v' := vec_set v idx (IZR (f i) / IZR nsep)%R in Ok (v', idx + 1)) s.
(** lines 141-152 *)
Definition jet_vals : res vec :=
  let* s := ramp (fun i => i) (zeros, 0) in
  let* v := loop 64 (snd s) (fun k v => vec_set v k 1%R) (fst s) in
  let* s := ramp (fun n => nsep - 1 - n) (v, snd s + nsep) in
  Ok (fst s).

(** lines 154-161; [ceil(nsep / 2)] divides integers *)
Definition jet_g (i : Z) : Z := nsep / 2 - 1 + i.
Definition jet_r (i : Z) : Z := jet_g i + nsep.
Definition jet_b (i : Z) : Z := jet_g i - nsep.
Definition in_colors (k : Z) : bool := (0 <=? k) && (k <? 256).

(** lines 163-172 *)
Definition jet_warm (v : vec) (i : Z) (s : colors * Z * Z) : res (colors * Z * Z) :=
  let '(p, idxr, idxg) := s in
  let* pr := (if in_colors (jet_r i) then
      let* x := vec_get v idxr in let* u := to_uchar (x * 255)%R in
      let* p' := write p (jet_r i) (set_red u) in Ok (p', idxr + 1)
    else Ok (p, idxr)) in
  let '(p, idxr) := pr in
  if in_colors (jet_g i) then
    let* x := vec_get v idxg in let* u := to_uchar (x * 255)%R in
    let* p' := write p (jet_g i) (set_green u) in Ok (p', idxr, idxg + 1)
  else Ok (p, idxr, idxg).

(** lines 174-179 *)
Definition jet_count : res Z := loop 192 0 (fun i n => Ok (if in_colors (jet_b i) then n + 1 else n)) 0.

(** lines 181-185 *)
Definition jet_cold (v : vec) (cnt i : Z) (s : colors * Z) : res (colors * Z) :=
  let '(p, idxb) := s in
  if in_colors (jet_b i) then
    let* x := vec_get v (nvals - 1 - cnt + idxb) in let* u := to_uchar (x * 255)%R in
    let* p' := write p (jet_b i) (set_blue u) in Ok (p', idxb + 1)
  else Ok (p, idxb).

Definition jet : res colors :=
  let* v := jet_vals in
  let* s := loop 192 0 (jet_warm v) (blank, 0, 0) in
  let* cnt := jet_count in
  let* s := loop 192 0 (jet_cold v cnt) (fst (fst s), 0) in
  Ok (fst s).

(** GetPalette, lines 24-189 *)
Definition get_palette (t : palette_type) : res colors :=
  match t with
  | LinearRed => fill (fun i => Ok (Color 0 0 (wrap i)))
  | GammaLogRed => fill (fun i => let* f := to_uchar (gamma_log i) in Ok (Color 0 0 f))
  | InversionRed => fill (fun i => Ok (Color 0 0 (wrap (255 - i))))
  | Linear => fill (fun i => Ok (Color (wrap i) (wrap i) (wrap i)))
  | GammaLog => fill (fun i => let* f := to_uchar (gamma_log i) in Ok (Color f f f))
  | Inversion => fill (fun i => Ok (Color (wrap (255 - i)) (wrap (255 - i)) (wrap (255 - i))))
  | FalseColor1 => fill (fun i => waves i (pos_part (hue i (-120))) (hue i 60) (hue i 140))
  | FalseColor2 => fill (fun i => waves i (hue i 120) (hue i 240) (hue i 0))
  | FalseColor3 => fill (fun i => waves i (hue i 240) (hue i 0) (hue i 120))
  | FalseColor4 => jet
  end.
