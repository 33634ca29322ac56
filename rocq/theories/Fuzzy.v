(** Failure detection by the non-drifting attitude: msf_checkFuzzyTracking.h and
    GetMedian (msf_tools.h lines 26-49), and the whole of ApplyCorrection
    (msf_core_inl.h lines 845-912).  Definitions only; real arithmetic. *)

From Coq Require Import Reals ZArith List Bool.
From Verif Require Import Outcome Geom StateList Propagate.
Import ListNotations.
Open Scope R_scope.

(** ** GetMedian.  [std::nth_element] is modelled by sorting; see
    [nth_element_median] in FuzzyProofs.v for any other implementation. *)
Fixpoint insert (x : R) (l : list R) : list R :=
  match l with
  | [] => [x]
  | y :: r => if Rle_dec x y then x :: l else y :: insert x r
  end.
Fixpoint sort (l : list R) : list R :=
  match l with [] => [] | x :: r => insert x (sort r) end.
Definition median (l : list R) : R :=
  match l with [] => 0 | _ => nth (length l / 2) (sort l) 0 end.

(** ** CheckFuzzyTracking *)

Definition nBuff : nat := 30.

(** nontemporaldrifting_inittimer_ and qbuff_ (rows in the order of coeffs()), lines
    34-37. *)
Record fuzzy := Fuzzy { timer : nat; qbuff : list quat }.

(** Reset and constructor, lines 42-50 *)
Definition fuzzy_new : fuzzy := Fuzzy 1 (repeat (Quat 0 0 0 0) nBuff).

(** [qbuff_.block<1,4>(row,0) = ...]: outside the matrix an Eigen assertion fails
    (undefined with assertions off). *)
Fixpoint set_row (l : list quat) (i : nat) (q : quat) : res (list quat) :=
  match l, i with
  | [], _ => UB
  | _ :: r, O => Ok (q :: r)
  | x :: r, S i' => let* r' := set_row r i' q in Ok (x :: r')
  end.

(** lines 80-88: [q.conjugate() * median], medians taken per coefficient *)
Definition median_quat (b : list quat) : quat :=
  Quat (median (map qw b)) (median (map qx b)) (median (map qy b)) (median (map qz b)).
Definition errq (q : quat) (b : list quat) : quat := qmul (qconj q) (median_quat b).

(** [max(vec.maxCoeff(), -vec.minCoeff()) / fabs(w) * 2 > thres], lines 90-91; a
    division by zero gives infinity (above every threshold) or, for 0/0, a
    not-a-number (comparison false). *)
Definition max_abs (q : quat) : R :=
  Rmax (Rmax (qx q) (Rmax (qy q) (qz q))) (- Rmin (qx q) (Rmin (qy q) (qz q))).
Definition exceeds (q : quat) (thres : R) : bool :=
  if Req_EM_T (qw q) 0 then (if Rlt_dec 0 (max_abs q) then true else false)
  else if Rlt_dec thres (max_abs q / Rabs (qw q) * 2) then true else false.

(** Check, lines 52-121.  [k] is the position of the non-drifting quaternion. *)
Definition check (k : nat) (f : fuzzy) (delay buff : state) (thres : R)
  : res (bool * fuzzy * state) :=
  let* q := get_quat delay k in
  if Nat.ltb nBuff (timer f) then
    if exceeds (errq q (qbuff f)) thres then
      let* s := for_each (copy_nonprop buff) delay in Ok (true, f, s)
    else
      let* b := set_row (qbuff f) (timer f - nBuff - 1) q in
      Ok (false, Fuzzy (timer f mod nBuff + nBuff + 1) b, delay)
  else
    let* b := set_row (qbuff f) (timer f - 1) q in
    Ok (false, Fuzzy (timer f + 1) b, delay).

(** ** ApplyCorrection, lines 845-912, once initialised: user correction hook [aug]
    (line 853), fixed biases, the correction, the user sanity check [san] (line 899) and
    the failure detector.  The result tells whether the detector fired. *)
Definition apply_correction_full (k : nat) (aug : list R -> list R)
  (san : state -> state -> list R -> state) (fixed_bias : bool) (b_w b_a : nat)
  (f : fuzzy) (data : list R) (thres : R) (s : state) : res (bool * fuzzy * state) :=
  let* s1 := apply_correction fixed_bias b_w b_a (aug data) s in
  check k f (san s1 s (aug data)) s thres.
