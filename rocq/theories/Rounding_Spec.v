From Coq Require Import List Arith QArith Qcanon Permutation.
From Verif Require Import Num.
Import ListNotations.

(** A rounding with relative error at most u (no underflow; u is 2^-53 for
    numbers of 64 bits rounded to nearest). *)
Definition rounding (u : Qc) (rnd : Qc -> Qc) : Prop :=
  (0 <= u)%Qc /\ (u < 1)%Qc /\ forall x, (qabs (rnd x - x) <= u * qabs x)%Qc.
(** [s] results from adding the numbers of the list two by two in some order,
    with rounding after every addition. *)
Inductive sums (rnd : Qc -> Qc) : list Qc -> Qc -> Prop :=
| sum_none : sums rnd [] 0%Qc
| sum_one x : sums rnd [x] x
| sum_two l a b s t : a <> [] -> b <> [] -> Permutation l (a ++ b) -> sums rnd a s -> sums rnd b t -> sums rnd l (rnd (s + t)%Qc).
Definition adds (rnd : Qc -> Qc) (f : list Qc -> Qc) : Prop := forall l, sums rnd l (f l).
(** Two numbers agree up to the relative error e. *)
Definition close (e a b : Qc) : Prop := (a * (1 - e) <= b /\ b * (1 - e) <= a)%Qc.
