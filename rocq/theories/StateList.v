(** State variable lists and the compile-time index computations on them.
    Definitions only.

    Modelled: msf_fwds.h lines 25-40, msf_state.h lines 40-75,
    msf_tmp.h (line numbers at each definition),
    GenericState_T::Correct (msf_state_inl.h lines 69-79) and the correction
    part of MSF_Core::ApplyCorrection (msf_core_inl.h lines 850-896).

    A state variable type [StateVar_T<T, NAME, STATETYPE, OPTIONS>] is the record
    [svar] of its four template arguments; [SameType] on such types is equality
    of the records.  The type list (a boost::fusion vector) is a [list svar]; a
    fusion iterator is the remaining list; dereferencing the end iterator gives
    [mpl::void_] ([None]), as the fusion library does.  All integer values are in
    [Z] because the metaprograms use -1 as an error code. *)

From Coq Require Import Reals ZArith List Bool.
From Verif Require Import Outcome Geom.
Import ListNotations.
Open Scope Z_scope.

Inductive vkind := KVec (n : nat) | KQuat.
Inductive stype := CoreProp | CoreNoProp | Aux | AuxNonDrift.

Record svar := Svar { vkd : vkind; vname : Z; vtype : stype; vopt : Z }.

Definition svar_eq_dec : forall a b : svar, {a = b} + {a <> b}.
Proof. repeat decide equality. Defined.
Definition same_type (a b : svar) : bool := if svar_eq_dec a b then true else false.

(** ** Lengths per variable *)

(** CorrectionStateLengthForType, msf_tmp.h lines 132-157. *)
Definition corr_len (t : option svar) : Z :=
  match t with
  | None => 0
  | Some x => match vkd x with KVec n => Z.of_nat n | KQuat => 3 end
  end.

(** StateLengthForType, msf_tmp.h lines 159-182. *)
Definition state_len (t : option svar) : Z :=
  match t with
  | None => 0
  | Some x => match vkd x with KVec n => Z.of_nat n | KQuat => 4 end
  end.

(** CoreStateLengthForType, msf_tmp.h lines 184-239. *)
Definition core_state_len (t : option svar) : Z :=
  match t with
  | None => 0
  | Some x =>
    match vtype x, vkd x with
    | (CoreProp | CoreNoProp), KVec n => Z.of_nat n
    | (CoreProp | CoreNoProp), KQuat => 4
    | _, _ => 0
    end
  end.

(** CoreErrorStateLengthForType, msf_tmp.h lines 241-296. *)
Definition core_err_len (t : option svar) : Z :=
  match t with
  | None => 0
  | Some x =>
    match vtype x, vkd x with
    | (CoreProp | CoreNoProp), KVec n => Z.of_nat n
    | (CoreProp | CoreNoProp), KQuat => 3
    | _, _ => 0
    end
  end.

(** PropagatedCoreErrorStateLengthForType, msf_tmp.h lines 342-385. *)
Definition prop_err_len (t : option svar) : Z :=
  match t with
  | None => 0
  | Some x =>
    match vtype x, vkd x with
    | CoreProp, KVec n => Z.of_nat n
    | CoreProp, KQuat => 3
    | _, _ => 0
    end
  end.

(** GetEnumStateName, msf_tmp.h lines 387-411. *)
Definition enum_name (t : option svar) : Z :=
  match t with None => -1 | Some x => vname x end.

(** IsQuaternionType, msf_tmp.h lines 413-454. *)
Definition is_quat (t : option svar) : bool :=
  match t with Some x => match vkd x with KQuat => true | _ => false end | None => false end.

(** GetStateIsNonTemporalDrifting, msf_tmp.h lines 456-485. *)
Definition is_nondrift (t : option svar) : bool :=
  match t with Some x => match vtype x with AuxNonDrift => true | _ => false end | None => false end.

(** ** The list metaprograms

    All of them test for the end of the list one step late: the boolean passed to
    the recursive instantiation compares the CURRENT iterator with the end, so
    the end iterator itself is visited once (as [void_]). *)

(** CountStatesLinear, msf_tmp.h lines 487-511. *)
Fixpoint count_linear (cnt : option svar -> Z) (first : list svar) : Z :=
  match first with
  | x :: next => cnt (Some x) + count_linear cnt next
  | [] => cnt None + 0  (* the end iterator, then the terminating instance *)
  end.

(** CheckStateIndexing, msf_tmp.h lines 513-552. *)
Definition enum_or (t : option svar) (cur : Z) : Z :=
  if enum_name t =? -1 then cur else enum_name t.
Fixpoint index_errors (first : list svar) (cur : Z) : Z :=
  match first with
  | x :: next => (if enum_or (Some x) cur =? cur then 0 else 1) + index_errors next (cur + 1)
  | [] => (if enum_or None cur =? cur then 0 else 1) + 0
  end.

(** CheckCorrectIndexing, msf_tmp.h lines 666-684; an empty list stops at once. *)
Definition indexing_errors (l : list svar) : Z :=
  match l with [] => 0 | _ => index_errors l 0 end.

(** The static assertions demand this of every list. *)
Definition compiles (l : list svar) : Prop := indexing_errors l = 0.

(** CountStates, msf_tmp.h lines 728-744. *)
Definition count_states (cnt : option svar -> Z) (l : list svar) : Z :=
  (match l with [] => 0 | _ => count_linear cnt l end) + indexing_errors l.

(** ComputeStartIndex, msf_tmp.h lines 572-618: specialisations for
    (not found, end), (found, not end), (not found, not end).  The fourth
    combination has no specialisation and is never reached. *)
Fixpoint compute_start (cnt : option svar -> Z) (target : svar) (first : list svar)
         (found : bool) (cur : Z) : Z :=
  if found then 0
  else match first with
       | x :: next => cur + compute_start cnt target next (same_type x target) (cnt (Some x))
       | [] => cur + -1
       end.

(** GetStartIndex, msf_tmp.h lines 746-763. *)
Definition start_index (cnt : option svar -> Z) (l : list svar) (target : svar) : Z :=
  (match l with
   | [] => -1
   | x :: _ => compute_start cnt target l (same_type target x) 0
   end) + indexing_errors l.

(** GetEnumStateType, msf_tmp.h lines 555-569. *)
Definition enum_type (l : list svar) (i : nat) : option svar := nth_error l i.

(** FindBestNonTemporalDriftingStateImpl, msf_tmp.h lines 620-662. *)
Fixpoint find_best (first : list svar) (best : Z) (foundq : bool) : Z :=
  let visit t :=
    let isq := is_quat t && is_nondrift t in
    let ispos := is_nondrift t && negb foundq in
    let best' := if isq then enum_name t else if ispos then enum_name t else best in
    (best', foundq || isq) in
  match first with
  | x :: next => let '(b, f) := visit (Some x) in find_best next b f
  | [] => let '(b, _) := visit None in b
  end.

(** IndexOfBestNonTemporalDriftingState, msf_tmp.h lines 686-726. *)
Definition best_nondrift (l : list svar) : Z :=
  match l with [] => -1 | _ => find_best l (-1) false end.

(** ** Run-time values *)

Inductive value := VVec (x : list R) | VQuat (q : quat).

(** One state variable object: its type, value, noise block and reset flag
    (msf_state.h lines 40-75). The noise block is read by row and column. *)
Record inst := Inst { itype : svar; ival : value; iQ : nat -> nat -> R; ireset : bool }.

Definition state := list inst.
Definition types (s : state) : list svar := map itype s.

(** Values have the shape their type demands (guaranteed by the C++ types). *)
Definition shape_ok (i : inst) : Prop :=
  match vkd (itype i), ival i with
  | KVec n, VVec x => length x = n
  | KQuat, VQuat _ => True
  | _, _ => False
  end.

(** [data.block<len,1>(start,0)] on a vector of run-time data: leaving the
    vector is an Eigen assertion / undefined. *)
Definition block (data : list R) (start : Z) (len : nat) : res (list R) :=
  if (0 <=? start) && (start + Z.of_nat len <=? Z.of_nat (length data))
  then Ok (firstn len (skipn (Z.to_nat start) data)) else UB.

Definition multiplicative (x : svar) : bool := Z.odd (vopt x).

Fixpoint zip_with (f : R -> R -> R) (a b : list R) : list R :=
  match a, b with x :: a', y :: b' => f x y :: zip_with f a' b' | _, _ => [] end.

Definition to_v3 (l : list R) : v3 :=
  match l with [x; y; z] => V3 x y z | _ => v3zero end.

(** CorrectState, msf_tmp.h lines 913-958.  The start index of a quaternion is
    looked up with the default options, whatever options the variable has
    (line 941).  A multiplicative quaternion does not compile (lines 947-950). *)
Definition correct_one (l : list svar) (data : list R) (i : inst) : res inst :=
  match vkd (itype i), ival i with
  | KVec n, VVec x =>
    let start := start_index corr_len l (itype i) in
    let* d := block data start n in
    let x' := if multiplicative (itype i) then zip_with Rmult x d else zip_with Rplus x d in
    Ok (Inst (itype i) (VVec x') (iQ i) (ireset i))
  | KQuat, VQuat q =>
    let var_T := Svar KQuat (vname (itype i)) (vtype (itype i)) 0 in
    let start := start_index corr_len l var_T in
    let* d := block data start 3 in
    let qbuff := small_quat (to_v3 d) in
    Ok (Inst (itype i) (VQuat (qnormalize (qmul q qbuff))) (iQ i) (ireset i))
  | _, _ => UB
  end.

(** [boost::fusion::for_each] over the variables. *)
Fixpoint for_each (f : inst -> res inst) (s : state) : res state :=
  match s with
  | [] => Ok []
  | i :: s' => let* i' := f i in let* r := for_each f s' in Ok (i' :: r)
  end.

(** GenericState_T::Correct, msf_state_inl.h lines 69-79. *)
Definition correct (data : list R) (s : state) : res state :=
  for_each (correct_one (types s) data) s.

(** [correction(start + i) = 0] for [i < len]. *)
Definition zero_seg (start len : Z) (data : list R) : list R :=
  map (fun p => if (start <=? Z.of_nat (fst p)) && (Z.of_nat (fst p) <? start + len)
                then 0%R else snd p)
      (combine (seq 0 (length data)) data).

(** ApplyCorrection, msf_core_inl.h lines 850-896, without the user hooks and
    the failure detector (modelled separately): zero the bias corrections
    when the option is on, then correct every variable.  [b_w] and [b_a] are the
    positions the enum assigns to the biases. *)
Definition apply_correction (fixed_bias : bool) (b_w b_a : nat) (data : list R) (s : state) : res state :=
  let l := types s in
  if fixed_bias then
    match enum_type l b_a, enum_type l b_w with
    | Some ta, Some tw =>
      let data1 := zero_seg (start_index corr_len l ta) (corr_len (Some ta)) data in
      let data2 := zero_seg (start_index corr_len l tw) (corr_len (Some tw)) data1 in
      correct data2 s
    | _, _ => UB
    end
  else correct data s.

(** ResetState, msf_tmp.h lines 782-795. *)
Definition reset_one (i : inst) : inst :=
  Inst (itype i)
       (match vkd (itype i) with KVec n => VVec (repeat 0%R n) | KQuat => VQuat qone end)
       (iQ i) (ireset i).

(** [GetStateVariable<NAME>()] of another state of the same type. *)
Definition get_var (s : state) (name : Z) : option inst :=
  if name <? 0 then None else nth_error s (Z.to_nat name).

(** CopyInitStates, msf_tmp.h lines 800-814: the whole variable object is
    assigned (value, noise block and reset flag). *)
Definition copy_init (old : state) (i : inst) : res inst :=
  match get_var old (vname (itype i)) with
  | Some o => Ok (if ireset o then o else i)
  | None => UB
  end.

(** CopyNonPropagationStates, msf_tmp.h lines 820-849. *)
Definition copy_nonprop (old : state) (i : inst) : res inst :=
  match vtype (itype i) with
  | CoreProp => Ok i
  | _ => match get_var old (vname (itype i)) with Some o => Ok o | None => UB end
  end.

(** The state-variable part of PropagateState before integration,
    msf_core_inl.h lines 334-340. *)
Definition prepare_propagation (old new : state) : res state :=
  for_each (copy_nonprop old) (map reset_one new).

(** The state-variable part of MSF_InitMeasurement::Apply,
    msf_measurement_inl.h lines 205-209. *)
Definition apply_init (init target : state) : res state := for_each (copy_init init) target.

(** CopyQBlocksFromAuxiliaryStatesToQ, msf_tmp.h lines 854-908. A matrix is a
    function of row and column with a size; [write_block] is Eigen's block
    assignment. *)
Definition write_block (size : Z) (Q : Z -> Z -> R) (start : Z) (len : Z) (B : nat -> nat -> R)
  : res (Z -> Z -> R) :=
  if (0 <=? start) && (start + len <=? size)
  then Ok (fun r c =>
             if (start <=? r) && (r <? start + len) && (start <=? c) && (c <? start + len)
             then B (Z.to_nat (r - start)) (Z.to_nat (c - start)) else Q r c)
  else UB.

Definition copy_q_one (l : list svar) (Q : Z -> Z -> R) (i : inst) : res (Z -> Z -> R) :=
  match vtype (itype i) with
  | CoreProp | CoreNoProp => Ok Q
  | _ => write_block (count_states corr_len l) Q (start_index corr_len l (itype i))
                     (corr_len (Some (itype i))) (iQ i)
  end.

Fixpoint copy_q (l : list svar) (Q : Z -> Z -> R) (s : state) : res (Z -> Z -> R) :=
  match s with
  | [] => Ok Q
  | i :: s' => let* Q' := copy_q_one l Q i in copy_q l Q' s'
  end.

(** FullStatetoDoubleArray, msf_tmp.h lines 1135-1176, for one variable: the
    list of (index, value) assignments. *)
Definition to_array_one (l : list svar) (i : inst) : list (Z * R) :=
  let start := start_index state_len l (itype i) in
  match ival i with
  | VVec x => combine (map (fun k => start + Z.of_nat k) (seq 0 (length x))) x
  | VQuat q => [(start, qw q); (start + 1, qx q); (start + 2, qy q); (start + 3, qz q)]
  end.
Definition to_array (s : state) : list (Z * R) := flat_map (to_array_one (types s)) s.

(** CoreStatetoDoubleArray, msf_tmp.h lines 964-1040: the same for core variables
    only. *)
Definition is_core (t : svar) : bool := match vtype t with CoreProp | CoreNoProp => true | _ => false end.
Definition core_to_array (s : state) : list (Z * R) :=
  flat_map (fun i => if is_core (itype i) then to_array_one (types s) i else []) s.

(** GetIndicesInErrorState, msf_tmp.h lines 1045-1066: (name, start, length). *)
Definition indices_in_error_state (s : state) : list (Z * Z * Z) :=
  map (fun i => (vname (itype i), start_index corr_len (types s) (itype i), corr_len (Some (itype i)))) s.
