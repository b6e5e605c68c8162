From Coq Require Import List Arith QArith Qcanon.
From Verif Require Import Util_Model Util_Spec Given_Model.
Import ListNotations.
Local Open Scope nat_scope.

Definition point := list Qc.
(** The array has one point per row. *)
Definition in_rows (a : nd) (d : nat) (pts : list point) : Prop :=
  well_formed a /\ shape a = [length pts; d] /\
  forall i p, nth_error pts i = Some p -> length p = d /\ forall j, j < d -> entry2 a i j = nth_error p j.
(** One point per column. *)
Definition in_columns (a : nd) (d : nat) (pts : list point) : Prop :=
  well_formed a /\ shape a = [d; length pts] /\
  forall i p, nth_error pts i = Some p -> length p = d /\ forall j, j < d -> entry2 a j i = nth_error p j.
(** A number, a vector (read as a column) or an array with two axes. *)
Definition plain (v : pyval) : Prop :=
  valid_input v /\ (length (shape (to_array v)) = 1 \/ length (shape (to_array v)) = 2).
(** The points that a user gives: one per row, or one per column if the rows do not
    have the right length. *)
Definition given (v : pyval) (d : nat) (pts : list point) : Prop :=
  in_rows (as_2d v) d pts \/ (in_columns (as_2d v) d pts /\ length pts <> d).
(** The number of columns and rows of the input do not fit. *)
Definition misfit (v : pyval) (d : nat) : Prop := exists n m, shape (as_2d v) = [n; m] /\ n <> d /\ m <> d.

Definition argument (c : gcall) : pyval := match c with GSet v => v | GAppend v => v end.
(** The samples after a history, newest call first: the last ones set and
    everything appended since. *)
Fixpoint samples_by (h : list (gcall * list point)) : option (list point) :=
  match h with
  | [] => None
  | (GSet _, p) :: _ => Some p
  | (GAppend _, p) :: h => option_map (fun q => q ++ p) (samples_by h)
  end.
