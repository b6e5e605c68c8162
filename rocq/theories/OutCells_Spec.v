From Coq Require Import List Arith QArith Qcanon.
From Verif Require Import Num.
Import ListNotations.
Local Open Scope nat_scope.

(** The output cells are subdivided: the new cell k is a part of the old cell
    [g k].  The probability of an old cell is the sum over its parts. *)
Definition part_sum (g : nat -> nat) (fine : list Qc) (i : nat) : Qc :=
  qsum (map snd (filter (fun e => g (fst e) =? i) (combine (seq 0 (length fine)) fine))).
Definition subdivides (g : nat -> nat) (coarse fine : list Qc) : Prop :=
  (forall k, k < length fine -> g k < length coarse) /\ forall i p, nth_error coarse i = Some p -> p = part_sum g fine i.
(** The samples of cell k, and those of all parts of cell i *)
Definition in_cell (cells : list nat) (values : list Qc) (k : nat) : Qc := qsum (map snd (filter (fun s => fst s =? k) (combine cells values))).
Definition in_parts (g : nat -> nat) (cells : list nat) (values : list Qc) (i : nat) : Qc :=
  qsum (map snd (filter (fun s => g (fst s) =? i) (combine cells values))).
