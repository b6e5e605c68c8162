(** What the inversion by density ratios should compute. *)
From Coq Require Import ZArith List Arith Sorting.Sorted QArith Qcanon.
From Verif Require Import Err Num.
Import ListNotations.
Local Open Scope nat_scope.

(** [ptr] lists, in increasing order, the positions with label i. *)
Definition positions (labels : list Z) (i : nat) (ptr : list nat) : Prop :=
  StronglySorted lt ptr /\ forall k, In k ptr <-> nth_error labels k = Some (Z.of_nat i).
(** Number of samples with label i. *)
Definition count_label (labels : list Z) (i : nat) : nat := length (filter (Z.eqb (Z.of_nat i)) labels).
(** Labels 0 .. c-1 and the largest label is c-1: there are c clusters. *)
Definition clusters (labels : list Z) (c : nat) : Prop :=
  (forall l, In l labels -> (l < Z.of_nat c)%Z) /\ (c = 0 \/ In (Z.of_nat c - 1)%Z labels).

Definition is_max (l : list Qc) (m : Qc) : Prop := In m l /\ forall x, In x l -> (x <= m)%Qc.
Definition all_nonneg (l : list Qc) : Prop := forall x, In x l -> (0 <= x)%Qc.

(** Quadratic form of a matrix given by rows. *)
Definition entry (m : list (list Qc)) (i j : nat) : Qc := nth j (nth i m []) 0%Qc.
Definition quad (dim : nat) (m : list (list Qc)) (v : nat -> Qc) : Qc :=
  qsum (map (fun i => qsum (map (fun j => (v i * entry m i j * v j)%Qc) (seq 0 dim))) (seq 0 dim)).
Definition square (dim : nat) (m : list (list Qc)) : Prop := length m = dim /\ forall r, In r m -> length r = dim.

(** m is the largest ratio among the samples with label i. *)
Definition cluster_max {V} (values : list V) (labels : list Z) (ratio : nat -> V -> Qc) (i : nat) (m : Qc) : Prop :=
  (exists k v, nth_error labels k = Some (Z.of_nat i) /\ nth_error values k = Some v /\ m = ratio i v) /\
  forall k v, nth_error labels k = Some (Z.of_nat i) -> nth_error values k = Some v -> (ratio i v <= m)%Qc.
(** d is the number drawn for sample k: the draws of a cluster are given to its
    samples in increasing order. *)
Definition drawn_for (labels : list Z) (draws : nat -> list Qc) (k : nat) (d : Qc) : Prop :=
  exists i ptr p, positions labels i ptr /\ nth_error ptr p = Some k /\ nth_error (draws i) p = Some d.
(** Fraction of the labels that equal i. *)
Definition fraction (labels : list Z) (i : nat) : Qc := (qn (count_label labels i) / qn (length labels))%Qc.
(** z is an integer nearest to q. *)
Definition nearest (q : Qc) (z : Z) : Prop := (qabs (q - Q2Qc (inject_Z z)) <= Q2Qc (1 # 2))%Qc.
Definition integral (q : Qc) : Prop := exists z, q = Q2Qc (inject_Z z).

(** Every element as often as its count says, in order. *)
Fixpoint copies {A} (l : list A) (counts : list nat) : list A :=
  match l, counts with x :: r, c :: cs => repeat x c ++ copies r cs | _, _ => [] end.
