From Coq Require Import List Arith QArith Qcanon.
From Verif Require Import Num Rounding_Spec.
Import ListNotations.
Local Open Scope nat_scope.

(** Nonnegative numbers that differ by at most k relative errors u *)
Definition within (u : Qc) (k : nat) (a b : Qc) : Prop := (0 <= a /\ 0 <= b /\ a * (1 - u) ^ k <= b /\ b * (1 - u) ^ k <= a)%Qc.
Definition all_within (u : Qc) (k : nat) (l m : list Qc) : Prop := Forall2 (within u k) l m.
