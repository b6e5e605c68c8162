From Coq Require Import List Arith.
From Verif Require Import Err Ext Equality_Model.
Import ListNotations.

Definition no_nan (a : marr) : Prop := forall r x, In r (mrows a) -> In x r -> x <> NaN.
Definition plain_field (x : pyv) : Prop :=
  match x with
  | PArr a => no_nan a
  | PMaps l => forall a, In a l -> no_nan a
  | PObject _ => False
  | _ => True
  end.

(** Rows have the declared width. *)
Definition rectangular (a : marr) : Prop := forall r, In r (mrows a) -> length r = width a.
Definition same_shape (a b : marr) : Prop :=
  length (mrows a) = length (mrows b) /\ width a = width b.

(** Two fields hold the same thing, entry by entry. *)
Definition same_field (x y : pyv) : Prop :=
  match x, y with
  | PArr a, PArr b => mrows a = mrows b
  | _, _ => x = y
  end.
(** Pairs of fields whose comparison is meaningful: arrays of the same shape,
    lists of cluster maps of the same length, anything else that is no empty
    array. *)
Definition has_entries (a : marr) : Prop := mrows a <> [] /\ width a <> 0.
Definition comparable (x y : pyv) : Prop :=
  match x, y with
  | PArr a, PArr b => rectangular a /\ rectangular b /\ same_shape a b
  | PArr a, _ => has_entries a
  | _, PArr b => has_entries b
  | PMaps l, PMaps m => length l = length m
  | _, _ => True
  end.
(** A field without array: never set, or a number or text. *)
Definition no_array (x : pyv) : Prop := match x with PNone | PScalar _ => True | _ => False end.
