(** Equality and copying of sample sets (bet/sample.py:294-330, 1339-1362). *)
From Coq Require Import List Arith Bool QArith Qcanon.
From Verif Require Import Err Num Ext.
Import ListNotations.
Local Open Scope nat_scope.
Local Open Scope err_scope.

(** An array with up to two axes; a third axis (Jacobians) is flattened into
    the second.  shape = (length rows, width). *)
Record marr := mk_marr { mrows : list (list xnum); width : nat }.

(** Values of the object's fields: None, an array, a scalar/string/label list
    compared by value, a list of cluster maps, or an object compared by
    identity (for instance scipy's gaussian_kde inside _prob_parameters). *)
Inductive pyv :=
| PNone
| PArr (a : marr)
| PScalar (n : nat)
| PMaps (l : list marr)
| PObject (id : nat).

(** NumPy broadcasting of one axis: equal lengths, or one of them is 1. *)
Definition broadcast {A} (l m : list A) : option (list (A * A)) :=
  if length l =? length m then Some (combine l m)
  else match l, m with
       | [x], _ => Some (map (fun y => (x, y)) m)
       | _, [y] => Some (map (fun x => (x, y)) l)
       | _, _ => None
       end.

(** np.any(a != b).  Shapes that cannot be broadcast: the comparison yields the
    scalar True (NumPy < 1.25, which the code needs because of np.int). *)
Definition compatible_width (a b : marr) : bool :=
  (width a =? width b) || (width a =? 1) || (width b =? 1).
Definition row_any_ne (p : list xnum * list xnum) : bool :=
  match broadcast (fst p) (snd p) with
  | Some q => existsb (fun xy => xneb (fst xy) (snd xy)) q
  | None => true
  end.
Definition any_ne (a b : marr) : bool :=
  if compatible_width a b
  then match broadcast (mrows a) (mrows b) with
       | Some ps => existsb row_any_ne ps
       | None => true
       end
  else true.

(** np.array_equal *)
Definition array_equal (a b : marr) : bool :=
  (width a =? width b) && (length (mrows a) =? length (mrows b)) &&
  forallb (fun p => (length (fst p) =? length (snd p)) &&
                    forallb (fun xy => xeqb (fst xy) (snd xy)) (combine (fst p) (snd p)))
          (combine (mrows a) (mrows b)).

Definition size (a : marr) : nat := length (mrows a) * width a.

(** lines 312-317: the loop over self's cluster maps; IndexError if other's
    list is shorter. *)
Fixpoint maps_equal (l m : list marr) : result bool :=
  match l, m with
  | [], _ => Ok true
  | _ :: _, [] => Raise PyIndexError
  | a :: l', b :: m' => if array_equal a b then maps_equal l' m' else Ok false
  end.

(** One field, lines 304-327: Ok true means "no difference found".  A scalar
    compared with an array, and a truth test of an array with more than one
    entry, are as in NumPy (ValueError). *)
Definition truth_of_all_true (n : nat) : result bool :=   (* bool(array of n Trues) negated *)
  match n with 0 => Ok true | 1 => Ok false | _ => Raise PyValueError end.
Definition field_eq (x y : pyv) : result bool :=
  match x with
  | PArr a =>
      match y with
      | PArr b => Ok (negb (any_ne a b))
      | _ => Ok (size a =? 0)                 (* np.any(a != None); an array against a
                                                 number or string is simplified to this too *)
      end
  | PMaps l =>
      match y with PMaps m => maps_equal l m | _ => Ok false end
  | PNone =>
      match y with
      | PNone => Ok true
      | PArr b => truth_of_all_true (size b)
      | _ => Ok false
      end
  | PScalar n =>
      match y with
      | PScalar m => Ok (n =? m)
      | PArr b => truth_of_all_true (size b)
      | _ => Ok false
      end
  | PObject i =>
      match y with
      | PObject j => Ok (i =? j)
      | PArr b => truth_of_all_true (size b)
      | _ => Ok false
      end
  end.

(** sample_set_base.__eq__: the fields in the order of meta_fields, stopping at
    the first difference.  Both objects have the same class. *)
Fixpoint set_eq (s t : list pyv) : result bool :=
  match s, t with
  | x :: s', y :: t' =>
      do b <- field_eq x y ;
      if b then set_eq s' t' else Ok false
  | _, _ => Ok true
  end.

(** copy.deepcopy: arrays and values are duplicated, an object becomes a new
    object ([fresh] gives its identity). *)
Definition copy_field (fresh : nat -> nat) (x : pyv) : pyv :=
  match x with PObject i => PObject (fresh i) | _ => x end.
Definition copy_set (fresh : nat -> nat) (s : list pyv) : list pyv := map (copy_field fresh) s.
