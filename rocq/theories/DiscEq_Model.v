(** Equality and copying of discretizations (bet/sample.py:2242-2250, 2305-2332,
    2494-2502). *)
From Coq Require Import List Arith Bool.
From Verif Require Import Err Equality_Model.
Import ListNotations.
Local Open Scope err_scope.

(** A sample set: its class and its fields. *)
Record eset := mk_eset { cls : nat; flds : list pyv }.
(** A pointer: None, an array, or a list of numbers (for instance set by hand); one
    row of width 1 per entry. *)
Inductive pointer_field := PtrNone | PtrArr (a : marr) | PtrList (l : marr).
(** The six sets in the order of sample_set_names and the pointers. *)
Record edisc := mk_edisc { sets : list (option eset); ptrs : list pointer_field }.

(** x != y for a set or None: sample_set_base.__eq__ (lines 302, 328-329) raises
    TypeError for objects of different classes; None != set asks the set. *)
Definition eset_eq (x y : option eset) : result bool :=
  match x, y with
  | None, None => Ok true
  | Some s, Some t => if Nat.eqb (cls s) (cls t) then set_eq (flds s) (flds t) else Raise PyTypeError
  | _, _ => Raise PyTypeError
  end.
(** Lines 2316-2329 for a pointer: arrays as for sample sets; the result of
    comparing two lists is a bool, [compare is bool] is never true, and a bool has
    no attribute any.  A list against an array gives an array, and its any() is a
    NumPy bool, which is not the object False; if the lengths do not fit the result
    is the bool False. *)
Definition ptr_eq (x y : pointer_field) : result bool :=
  match x, y with
  | PtrArr a, PtrArr b => Ok (negb (any_ne a b))
  | PtrArr a, PtrNone => Ok (Nat.eqb (size a) 0)
  | PtrArr a, PtrList b => Ok (negb (any_ne a b))
  | PtrList a, PtrArr b => match broadcast (mrows a) (mrows b) with Some _ => Ok true | None => Raise PyAttributeError end
  | PtrList _, _ => Raise PyAttributeError
  | PtrNone, PtrNone => Ok true
  | PtrNone, PtrArr b => truth_of_all_true (size b)
  | PtrNone, PtrList _ => Ok false
  end.
Fixpoint all_eq {A} (f : A -> A -> result bool) (l m : list A) : result bool :=
  match l, m with
  | x :: l', y :: m' => do b <- f x y ; if b then all_eq f l' m' else Ok false
  | _, _ => Ok true
  end.
(** Lines 2313-2330, both of class discretization *)
Definition disc_eq (d e : edisc) : result bool :=
  do b <- all_eq eset_eq (sets d) (sets e) ; if b then all_eq ptr_eq (ptrs d) (ptrs e) else Ok false.
(** copy.deepcopy *)
Definition copy_disc (fresh : nat -> nat) (d : edisc) : edisc :=
  mk_edisc (map (option_map (fun s => mk_eset (cls s) (copy_set fresh (flds s)))) (sets d)) (ptrs d).
