From Coq Require Import List Arith QArith Qcanon.
From Verif Require Import Num.
Import ListNotations.

(** Samples are pairs (cell, number).  The total of the numbers of the samples
    in a cell, and how many there are. *)
Definition total_in (samples : list (nat * Qc)) (i : nat) : Qc :=
  qsum (map snd (filter (fun s => Nat.eqb (fst s) i) samples)).
Definition number_in (ptrs : list nat) (i : nat) : nat := length (filter (fun k => Nat.eqb k i) ptrs).

Definition nonneg (l : list Qc) : Prop := forall x, In x l -> (0 <= x)%Qc.
(** The arrays have the same number of entries on every rank. *)
Definition same_lengths {A B} (a : list (list A)) (b : list (list B)) : Prop :=
  Forall2 (fun x y => length x = length y) a b.

(** Every cell of positive probability holds one of the points [pts] (given by
    the cells they lie in). *)
Definition all_hit (probs : list Qc) (pts : list nat) : Prop :=
  forall i p, nth_error probs i = Some p -> (0 < p)%Qc -> (0 < number_in pts i)%nat.
