(** The numbers behind the plots of the evaluation, msf_eval/Matlab/evaluation.m lines 22-123,
    evaluation_cov.m line 32 and plot_paths.m, computed from the rows written by msf_eval ([Eval.row]).
    Definitions only; real arithmetic.  The Matlab functions follow their documentation.

    Left out: what is only layout (axes, colours, markers, legends) and the writing of the
    figure.  Rows of msf_eval have more than four columns, so line 80 always holds. *)

From Coq Require Import Reals ZArith List Bool.
From Verif Require Import Eval.
Import ListNotations.
Local Open Scope R_scope.

(** line 22 *)
Definition bin_size : R := 10.

(** [max] of a nonempty column *)
Fixpoint column_max (xs : list R) : R :=
  match xs with [] => 0 | [x] => x | x :: r => Rmax x (column_max r) end.

(** [mean] *)
Definition column_sum (xs : list R) : R := fold_right Rplus 0 xs.
(** not-a-number for an empty column *)
Definition column_mean (xs : list R) : option R :=
  match xs with [] => None | _ => Some (column_sum xs / INR (length xs)) end.

(** [a:d:b]: [a], [a + d], ... up to and not beyond [b] *)
Definition colon (a d b : R) : list R :=
  map (fun i => a + INR i * d) (seq 0 (Z.to_nat (Int_part ((b - a) / d) + 1))).

(** [sort] *)
Fixpoint insert (x : R) (l : list R) : list R :=
  match l with [] => [x] | y :: r => if Rle_dec x y then x :: l else y :: insert x r end.
Definition sorted_column (xs : list R) : list R := fold_right insert [] xs.

(** [prctile(x, p)]: [p] in percent.  The sorted values are the [100 (k - 0.5) / n]-th percentiles,
    between them it interpolates, outside it takes the first and the last.  Not-a-number for an
    empty column. *)
Definition prctile (xs : list R) (p : R) : option R :=
  let s := sorted_column xs in
  let n := Z.of_nat (length s) in
  let r := p * IZR n / 100 + 1 / 2 in
  let k := Int_part r in
  if (n =? 0)%Z then None
  else if (k <? 1)%Z then Some (nth 0 s 0)
  else if (n <=? k)%Z then Some (nth (length s - 1) s 0)
  else let a := nth (Z.to_nat (k - 1)) s 0 in
       let b := nth (Z.to_nat k) s 0 in
       Some (a + (r - IZR k) * (b - a)).

(** Line 51 and the preallocation of lines 53-65 *)
Definition num_bins (rows : list row) : Z := Int_part (column_max (map w_dist rows) / bin_size).

(** Line 68 *)
Definition centres (rows : list row) : list R :=
  colon (bin_size / 2) bin_size (column_max (map (fun r => w_dist r - bin_size / 2) rows)).

(** Line 69: the rows of a bin; the division of all their columns is in [entries] *)
Definition in_box (c : R) (r : row) : bool :=
  (if Rlt_dec (c - bin_size / 2) (w_dist r) then true else false) &&
  (if Rlt_dec (w_dist r) (c + bin_size / 2) then true else false).
Definition box (c : R) (rows : list row) : list row := filter (in_box c) rows.
Definition entries (column : row -> R) (c : R) (rows : list row) : list R :=
  map (fun r => column r / c) (box c rows).

(** Lines 71-84, for one column in the unit [u] (1, or 180 / pi for angles) *)
Record bar := Bar { b_low : option R; b_high : option R; b_mean : option R }.
Definition bar_of (column : row -> R) (u : R) (c : R) (rows : list row) : bar :=
  let xs := map (fun x => x * u) (entries column c rows) in
  Bar (prctile xs (5 / 100)) (prctile xs (95 / 100)) (column_mean xs).
Definition degrees : R := 180 / PI.

(** Line 86: the place of the [k]-th method on the axis *)
Definition place (k : nat) (c : R) : R := c + (INR k - 2) * 2.

(** [errorbar(x, y, neg, pos)], lines 93, 105 and 115: a line from [y - neg] to [y + pos] *)
Definition drawn (scale : R) (b : bar) : option (R * R) :=
  match b_low b, b_high b, b_mean b with
  | Some l, Some h, Some m => Some (m * scale - l * scale, m * scale + h * scale)
  | _, _, _ => None
  end.

(** evaluation_cov.m line 32 *)
Definition three_sigma (r : row) : R :=
  (sqrt (nth 0 (w_var r) 0) + sqrt (nth 1 (w_var r) 0) + sqrt (nth 2 (w_var r) 0)) * 3.

(** plot_paths.m lines 5-9: a coordinate of the estimated path [xs], shifted onto the true path [gs] *)
Definition offset (xs gs : list R) : option R := column_mean (map (fun p => fst p - snd p) (combine xs gs)).
Definition aligned (xs gs : list R) : option (list R) :=
  match offset xs gs with Some o => Some (map (fun x => x - o) xs) | None => None end.
