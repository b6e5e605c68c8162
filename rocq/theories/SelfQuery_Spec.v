From Coq Require Import List Arith QArith Qcanon.
From Verif Require Import Ext Query_Spec.
Import ListNotations.
Local Open Scope nat_scope.

(** v is the middle of the box with the given corners. *)
Definition middle_of (left right v : list Qc) : Prop :=
  length v = length left /\ length v = length right /\
  forall j l r c, nth_error left j = Some l -> nth_error right j = Some r -> nth_error v j = Some c -> (c - l = r - c)%Qc.
Definition has_width (left right : list Qc) : Prop :=
  forall j l r, nth_error left j = Some l -> nth_error right j = Some r -> (l < r)%Qc.
(** No point lies in two of the cells. *)
Definition no_overlap (d : nat) (contains : list Qc -> nat -> Prop) : Prop :=
  forall x i j, length x = d -> contains x i -> contains x j -> i = j.
Definition rows_have (d : nat) (m : list (list Qc)) : Prop := forall r, In r m -> length r = d.
(** The stored values: one row per cell, then a row of the given constant. *)
Definition stored_rows (d : nat) (vs : list (list xnum)) (n : nat) (fill : xnum) (good : nat -> list Qc -> Prop) : Prop :=
  length vs = S n /\ nth_error vs n = Some (repeat fill d) /\
  forall i, i < n -> exists v, nth_error vs i = Some (map Fin v) /\ good i v.
