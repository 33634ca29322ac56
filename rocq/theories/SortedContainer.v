(** Model of msf_core::SortedContainer
    (msf_core/include/msf_core/msf_sortedContainer.h).  Definitions only.

    Simplifications:
    - time is [Z] nanoseconds instead of [double] seconds;
    - [std::map<double, shared_ptr<T>>] is an association list; an object is
      represented by its time and its payload, so [it->first] and
      [it->second->time] are one number (the code keeps them equal: [Insert]
      uses [value->time] as key, [UpdateTime] erases before it re-stamps);
    - an iterator obtained inside one query is a position [0..size];
      position [size] is [end()];
    - a [shared_ptr<T>&] result is [option]; [None] is the shared "invalid"
      object, whose time is INVALID_TIME (msf_types.h:49). *)

From Coq Require Import ZArith List.
From Verif Require Import Outcome.
Import ListNotations.
Open Scope Z_scope.

(** One second, in the time unit of the model. *)
Definition second : Z := 1000000000.

(** constants::INVALID_TIME = -1 (seconds), msf_types.h. *)
Definition INVALID_TIME : Z := - second.

(** What decrementing [begin()] does.  The C++ standard leaves it undefined
    ([DecUB]).  libstdc++'s red-black tree walks up from the leftmost node:
    it ends on the header, i.e. [end()] ([DecEnd]), unless the root has no left
    child, in which case it ends on [begin()] itself ([DecBegin]); the latter
    needs at most two elements. *)
Inductive dec_begin := DecUB | DecEnd | DecBegin.

(** The libstdc++ behaviour as a function of the size: with one element the
    root has no left child; with two it depends on which element is the root;
    with more the balanced root has a left child.  With no element [--begin()]
    dereferences the null root. *)
Definition libstdcxx (d : nat -> dec_begin) : Prop :=
  d 0%nat = DecUB /\ d 1%nat = DecBegin /\ d 2%nat <> DecUB /\
  forall n, (3 <= n)%nat -> d n = DecEnd.

(** The reading of the C++ standard. *)
Definition strict_cxx : nat -> dec_begin := fun _ => DecUB.

Section Container.
  Context {A : Type}.

  Definition cont := list (Z * A).

  (** ListT::begin / end / size. *)
  Definition pos_begin (c : cont) : nat := 0%nat.
  Definition pos_end (c : cont) : nat := length c.

  (** std::map::find: position of the key or [end()]. *)
  Fixpoint find_pos (t : Z) (c : cont) : nat :=
    match c with
    | [] => 0%nat
    | (k, _) :: r => if k =? t then 0%nat else S (find_pos t r)
    end.

  (** std::map::lower_bound: first key not less than [t]. *)
  Fixpoint lower_bound (t : Z) (c : cont) : nat :=
    match c with
    | [] => 0%nat
    | (k, _) :: r => if k <? t then S (lower_bound t r) else 0%nat
    end.

  (** std::map::upper_bound: first key greater than [t]. *)
  Fixpoint upper_bound (t : Z) (c : cont) : nat :=
    match c with
    | [] => 0%nat
    | (k, _) :: r => if k <=? t then S (upper_bound t r) else 0%nat
    end.

  (** [--it]. *)
  Definition it_dec (d : nat -> dec_begin) (c : cont) (p : nat) : res nat :=
    match p with
    | O => match d (length c) with
           | DecUB => UB
           | DecEnd => Ok (pos_end c)
           | DecBegin => Ok (pos_begin c)
           end
    | S q => Ok q
    end.

  (** [++it]: undefined at [end()]. *)
  Definition it_inc (c : cont) (p : nat) : res nat :=
    if (p <? length c)%nat then Ok (S p) else UB.

  (** [*it]: undefined at [end()]. *)
  Definition it_deref (c : cont) (p : nat) : res (Z * A) :=
    match nth_error c p with
    | Some e => Ok e
    | None => UB
    end.

  (** Insert, lines 89-99: std::map::insert keeps an existing element and
      returns its iterator. *)
  Fixpoint insert_list (t : Z) (a : A) (c : cont) : cont :=
    match c with
    | [] => [(t, a)]
    | (k, x) :: r =>
        if k <? t then (k, x) :: insert_list t a r
        else if k =? t then (k, x) :: r
        else (t, a) :: (k, x) :: r
    end.

  Definition Insert (c : cont) (t : Z) (a : A) : cont * nat :=
    let c' := insert_list t a c in (c', find_pos t c').

  (** Clear, lines 73-75. *)
  Definition Clear (c : cont) : cont := [].

  (** Size, lines 81-83. *)
  Definition Size (c : cont) : nat := length c.

  (** GetIteratorBeforeBegin, lines 111-114. *)
  Definition GetIteratorBeforeBegin (d : nat -> dec_begin) (c : cont) : res nat :=
    it_dec d c (pos_begin c).

  (** GetIteratorAtValue (both overloads), lines 129-159. *)
  Definition GetIteratorAtValue (c : cont) (t : Z) : nat :=
    let it := find_pos t c in
    if (it =? pos_end c)%nat then lower_bound t c else it.

  (** GetIteratorClosestBefore, lines 166-171. *)
  Definition GetIteratorClosestBefore (d : nat -> dec_begin) (c : cont) (t : Z) : res nat :=
    it_dec d c (lower_bound t c).

  (** GetIteratorClosestAfter, lines 178-182. *)
  Definition GetIteratorClosestAfter (c : cont) (t : Z) : nat :=
    upper_bound t c.

  (** GetIteratorClosest, lines 189-221. *)
  Definition GetIteratorClosest (d : nat -> dec_begin) (c : cont) (t : Z) : res nat :=
    let it_at := find_pos t c in
    if negb (it_at =? pos_end c)%nat then Ok it_at
    else
      let* tauMinus := GetIteratorClosestBefore d c t in
      let tauPlus := GetIteratorClosestAfter c t in
      let it_end := pos_end c in
      let* beforeBegin := GetIteratorBeforeBegin d c in
      if (tauMinus =? beforeBegin)%nat then Ok (pos_begin c)
      else if (tauMinus =? it_end)%nat then Ok tauPlus
      else if (tauPlus =? it_end)%nat then Ok tauMinus
      else
        let* eplus := it_deref c tauPlus in
        let* eminus := it_deref c tauMinus in
        if Z.abs (fst eplus - t) <? Z.abs (fst eminus - t) then Ok tauPlus
        else Ok tauMinus.

  (** The time of a returned object; the invalid object has INVALID_TIME. *)
  Definition otime (o : option (Z * A)) : Z :=
    match o with Some (k, _) => k | None => INVALID_TIME end.

  (** GetClosestBefore, lines 228-240.  ([lower_bound] on an empty map is
      [begin()==end()]; the emptiness test comes before any use.) *)
  Definition GetClosestBefore (c : cont) (t : Z) : option (Z * A) :=
    match c with
    | [] => None
    | _ => match lower_bound t c with
           | O => nth_error c 0
           | S p => nth_error c p
           end
    end.

  (** GetClosestAfter, lines 248-254. *)
  Definition GetClosestAfter (c : cont) (t : Z) : option (Z * A) :=
    nth_error c (upper_bound t c).

  (** GetValueAt, lines 262-268. *)
  Definition GetValueAt (c : cont) (t : Z) : option (Z * A) :=
    nth_error c (find_pos t c).

  (** GetClosest, lines 275-295. *)
  Definition GetClosest (c : cont) (t : Z) : option (Z * A) :=
    match GetValueAt c t with
    | Some e => Some e
    | None =>
        let tauMinus := GetClosestBefore c t in
        let tauPlus := GetClosestAfter c t in
        if otime tauMinus =? INVALID_TIME then tauPlus
        else if otime tauPlus =? INVALID_TIME then tauMinus
        else if Z.abs (otime tauPlus - t) <? Z.abs (otime tauMinus - t)
             then tauPlus else tauMinus
    end.

  (** GetLast, lines 318-326. *)
  Definition GetLast (c : cont) : option (Z * A) :=
    match c with [] => None | _ => nth_error c (pred (length c)) end.

  (** GetFirst, lines 333-341. *)
  Definition GetFirst (c : cont) : option (Z * A) :=
    match c with [] => None | e :: _ => Some e end.

  (** ClearOlderThan, lines 303-311: [erase(begin, it)] keeps the suffix. *)
  Definition ClearOlderThan (d : nat -> dec_begin) (c : cont) (age : Z) : res cont :=
    let newest := otime (GetLast c) in
    let oldest := otime (GetFirst c) in
    if newest - oldest <? age then Ok c
    else
      let* it := GetIteratorClosest d c (newest - age) in
      let* e := it_deref c it in
      let* b := it_deref c (pos_begin c) in
      if fst b <? fst e then Ok (skipn it c) else Ok c.

  (** std::map::erase(key). *)
  Fixpoint erase_key (t : Z) (c : cont) : cont :=
    match c with
    | [] => []
    | (k, x) :: r => if k =? t then r else (k, x) :: erase_key t r
    end.

  (** UpdateTime, lines 353-376: new content and the returned object. *)
  Definition UpdateTime (c : cont) (timeOld timeNew : Z) : cont * option (Z * A) :=
    match nth_error c (find_pos timeOld c) with
    | None => (c, GetClosest c timeOld)
    | Some (_, a) =>
        let (c', it) := Insert (erase_key timeOld c) timeNew a in
        (c', nth_error c' it)
    end.

  (** EchoBufferContentTimes, lines 383-390 (times only, no formatting). *)
  Definition EchoBufferContentTimes (c : cont) : list Z := map fst c.

  (** Histories of mutating operations. *)
  Inductive op :=
  | OpInsert (t : Z) (a : A)
  | OpUpdateTime (timeOld timeNew : Z)
  | OpClearOlderThan (age : Z)
  | OpClear.

  Definition run_op (d : nat -> dec_begin) (c : cont) (o : op) : res cont :=
    match o with
    | OpInsert t a => Ok (fst (Insert c t a))
    | OpUpdateTime told tnew => Ok (fst (UpdateTime c told tnew))
    | OpClearOlderThan age => ClearOlderThan d c age
    | OpClear => Ok (Clear c)
    end.

  (** A history; each operation carries the decrement behaviour in force at
      that moment (for two elements it depends on the tree shape). *)
  Fixpoint run_ops (c : cont) (l : list ((nat -> dec_begin) * op)) : res cont :=
    match l with
    | [] => Ok c
    | (d, o) :: r => let* c' := run_op d c o in run_ops c' r
    end.
End Container.

Arguments cont : clear implicits.
Arguments op : clear implicits.
