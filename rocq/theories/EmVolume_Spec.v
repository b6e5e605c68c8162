From Coq Require Import List Arith QArith Qcanon.
From Verif Require Import Num.
Import ListNotations.

(** How many of the points lie in input cell j, and how many lie in an input
    cell that is sent to output cell i. *)
Definition points_in {X} (cell : X -> nat) (pts : list X) (j : nat) : nat :=
  length (filter (fun x => Nat.eqb (cell x) j) pts).
Definition points_over {X} (cell : X -> nat) (output_cell : list nat) (pts : list X) (i : nat) : nat :=
  length (filter (fun x => match nth_error output_cell (cell x) with Some k => Nat.eqb k i | None => false end) pts).
(** The sum of the weights of the points that lie in cell j. *)
Definition weight_in {X} (cell : X -> nat) (pts : list X) (weights : list Qc) (j : nat) : Qc :=
  qsum (map snd (filter (fun xw => Nat.eqb (cell (fst xw)) j) (combine pts weights))).
