(** The type traits of msf_core/include/msf_core/msf_typetraits.h.  Definitions only.
    Simplification: types without volatile, arrays and functions; classes and arithmetic types
    are numbered. *)

From Coq Require Import List Bool Arith.
Import ListNotations.

(** Object types without their own const; [Ptr c o] points to [o], const if [c]. *)
Inductive core := Class (n : nat) | Ptr (c : bool) (o : core).
(** [o] or [const o], [o&] or [const o&], [o&&] or [const o&&] *)
Inductive ty := Obj (c : bool) (o : core) | LRef (c : bool) (o : core) | RRef (c : bool) (o : core).

(** The forms used as template arguments and as results: [T], [const T], [T&], [const T&], [T*],
    [const T*]. *)
Inductive form := FT | FConst | FRef | FConstRef | FPtr | FConstPtr.

(** Argument deduction: the [T] for which the form is the type, C++11 14.8.2.5. *)
Definition deduce (f : form) (t : ty) : option ty :=
  match f, t with
  | FT, _ => Some t
  | FConst, Obj true o => Some (Obj false o)
  | FRef, LRef c o => Some (Obj c o)
  | FConstRef, LRef true o => Some (Obj false o)
  | FPtr, Obj false (Ptr c o) => Some (Obj c o)
  | FConstPtr, Obj false (Ptr true o) => Some (Obj false o)
  | _, _ => None
  end.

(** The type written by the form: const on a reference is ignored, references to references
    collapse, pointers to references are ill-formed ([None]); C++11 8.3.2, 8.3.1. *)
Definition add_const (t : ty) : ty := match t with Obj _ o => Obj true o | _ => t end.
Definition add_ref (t : ty) : ty := match t with Obj c o | LRef c o | RRef c o => LRef c o end.
Definition add_ptr (t : ty) : option ty := match t with Obj c o => Some (Obj false (Ptr c o)) | _ => None end.
Definition write (f : form) (t : ty) : option ty :=
  match f with
  | FT => Some t
  | FConst => Some (add_const t)
  | FRef => Some (add_ref t)
  | FConstRef => Some (add_ref (add_const t))
  | FPtr => add_ptr t
  | FConstPtr => add_ptr (add_const t)
  end.

(** Partial ordering of the specialisations, C++11 14.5.5.2: [f] is at least as specialised as [g]. *)
Definition special (f g : form) : bool :=
  match f, g with
  | _, FT | FConst, FConst | FRef, FRef | FConstRef, FConstRef | FPtr, FPtr | FConstPtr, FConstPtr => true
  | FConstRef, FRef | FConstPtr, FPtr => true
  | _, _ => false
  end.

(** The specialisation chosen and its [T]; [None] if there is no most specialised one. *)
Definition matching {A} (l : list (form * A)) (t : ty) : list (form * A * ty) :=
  flat_map (fun fa => match deduce (fst fa) t with Some u => [(fa, u)] | None => [] end) l.
Definition choose {A} (l : list (form * A)) (t : ty) : option (A * ty) :=
  let m := matching l t in
  match find (fun x => forallb (fun y => special (fst (fst x)) (fst (fst y))) m) m with
  | Some (_, a, u) => Some (a, u)
  | None => None
  end.
(** [result_t] *)
Definition result (l : list (form * form)) (t : ty) : option ty :=
  match choose l t with Some (f, u) => write f u | None => None end.
(** [value] *)
Definition value (l : list (form * bool)) (t : ty) : option bool := option_map fst (choose l t).

(** The tables: template arguments of the primary template and of the specialisations, and what they
    define; lines 34-49, 51-66, 68-83, 86-101, 103-118, 120-135, 137-152, 154-171, 173-190. *)
Definition strip_reference := [(FT, FT); (FRef, FT); (FConst, FConst); (FConstRef, FConst)].
Definition strip_const_reference := [(FT, FT); (FRef, FT); (FConstRef, FT); (FConst, FT)].
Definition strip_const_ptr := [(FT, FT); (FPtr, FT); (FConstPtr, FT); (FConst, FT)].
Definition add_reference := [(FT, FRef); (FRef, FRef); (FConst, FConstRef); (FConstRef, FConstRef)].
Definition add_const_reference := [(FT, FConstRef); (FRef, FConstRef); (FConst, FConstRef); (FConstRef, FConstRef)].
Definition add_pointer := [(FT, FPtr); (FPtr, FPtr); (FConst, FConstPtr); (FConstPtr, FConstPtr)].
Definition add_const_ptr := [(FT, FConstPtr); (FPtr, FConstPtr); (FConst, FConstPtr); (FConstPtr, FConstPtr)].
Definition is_reference_type := [(FT, false); (FRef, true); (FConstRef, true)].
Definition is_pointer_type := [(FT, false); (FPtr, true); (FConstPtr, true)].

(** [SameType], lines 22-31: the specialisation [SameType<T, T>] matches if both arguments deduce the
    same [T]. *)
Fixpoint core_eqb (a b : core) : bool :=
  match a, b with
  | Class n, Class m => n =? m
  | Ptr c o, Ptr d p => eqb c d && core_eqb o p
  | _, _ => false
  end.
Definition ty_eqb (a b : ty) : bool :=
  match a, b with
  | Obj c o, Obj d p | LRef c o, LRef d p | RRef c o, RRef d p => eqb c d && core_eqb o p
  | _, _ => false
  end.
Definition same_type (a b : ty) : bool := ty_eqb a b.
