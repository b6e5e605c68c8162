(** Vocabulary for distributions fitted to stored samples. *)
From Coq Require Import ZArith List Arith QArith Qcanon.
From Verif Require Import Err Num Ext NumPy SampleSet_Model Disc_Model Inverse_Spec Density_Model Density_Spec.
Import ListNotations.
Local Open Scope nat_scope.

(** Points with weights.  m and c are their mean and covariance: the deviations
    cancel, and c is the average of the products of deviations. *)
Definition mass {A} (pts : list (A * Qc)) : Qc := qsum (map snd pts).
Definition is_moments (di : nat) (pts : list (list Qc * Qc)) (m : list Qc) (c : list (list Qc)) : Prop :=
  length m = di /\ square di c /\
  (forall i, i < di -> qsum (map (fun e => snd e * (axis i (fst e) - axis i m))%Qc pts) = 0%Qc) /\
  forall a b, a < di -> b < di -> (entry c a b * mass pts)%Qc = qsum (map (fun e => snd e * ((axis a (fst e) - axis a m) * (axis b (fst e) - axis b m)))%Qc pts).

(** The input samples of cluster j, weighted by observed over predicted density. *)
Definition quotient (p o : nat -> cell -> Qc) (j : nat) (y : cell) : Qc := (o j y / p j y)%Qc.
Definition cluster_points (xs : list (list Qc)) (ys : list cell) (ls : list Z) (p o : nat -> cell -> Qc) (j : nat) : list (list Qc * Qc) :=
  map (fun e => (fst e, quotient p o j (snd e))) (members (combine (combine xs ys) ls) j).
(** All input samples, weighted by ratio and part of the observations; samples with
    negative labels have the weight zero. *)
Definition all_points (xs : list (list Qc)) (ys : list cell) (ls ms : list Z) (p o : nat -> cell -> Qc) : list (list Qc * Qc) :=
  map (fun e => (fst (fst e), if (snd e <? 0)%Z then 0%Qc else (share ms (Z.to_nat (snd e)) * quotient p o (Z.to_nat (snd e)) (snd (fst e)))%Qc)) (combine (combine xs ys) ls).
(** The predicted density vanishes at no sample of cluster j; it vanishes at one, or
    the observed density vanishes at all of them. *)
Definition ratios_defined (ys : list cell) (ls : list Z) (p : nat -> cell -> Qc) (j : nat) : Prop :=
  forall y, In y (members (combine ys ls) j) -> p j y <> 0%Qc.
Definition ratios_useless (ys : list cell) (ls : list Z) (p o : nat -> cell -> Qc) (j : nat) : Prop :=
  (exists y, In y (members (combine ys ls) j) /\ p j y = 0%Qc) \/ (forall y, In y (members (combine ys ls) j) -> o j y = 0%Qc).
(** Mean and covariance of the mixture of K distributions with means m j and
    covariances c j, weighted by the parts of the observations. *)
Definition mixture_mean (ms : list Z) (K : nat) (m : nat -> list Qc) (i : nat) : Qc := qsum (map (fun j => (share ms j * axis i (m j))%Qc) (seq 0 K)).
Definition mixture_cov (ms : list Z) (K : nat) (m : nat -> list Qc) (c : nat -> list (list Qc)) (a b : nat) : Qc :=
  qsum (map (fun j => (share ms j * (entry (c j) a b + (axis a (m j) - mixture_mean ms K m a) * (axis b (m j) - mixture_mean ms K m b)))%Qc) (seq 0 K)).
(** Observations all belong to one of K clusters. *)
Definition labelled (ms : list Z) (K : nat) : Prop := ms <> [] /\ forall l, In l ms -> (0 <= l < Z.of_nat K)%Z.

(** Rejection: a point is kept if its number does not exceed its weight over the
    largest weight M. *)
Definition kept {A} (M : Qc) (pts : list (A * Qc)) (us : list Qc) : list A :=
  map (fun e => fst (fst e)) (filter (fun e => if Qclt_le_dec (snd (fst e)) (snd e * M) then false else true) (combine pts us)).
(** Uniform numbers, one for each member. *)
Definition uniform_numbers (us : list Qc) (n : nat) : Prop := length us = n /\ forall u, In u us -> (0 <= u)%Qc /\ (u < 1)%Qc.
(** The smallest interval of every coordinate. *)
Definition tight (di : nat) (vs : list (list Qc)) (dom : list (Qc * Qc)) : Prop :=
  length dom = di /\ forall i lo hi, nth_error dom i = Some (lo, hi) ->
    (forall x, In x vs -> (lo <= axis i x /\ axis i x <= hi)%Qc) /\ (exists x, In x vs /\ axis i x = lo) /\ exists x, In x vs /\ axis i x = hi.

(** d holds inputs xs, outputs ys and observations zs (with labels and initial
    weights, if any) on P processes; p and q are the densities estimated for the K
    clusters of the labels used. *)
Definition inversion (gkde : list cell -> option (list xnum) -> result (cell -> Qc)) (P : nat) (d : rdisc) (di o oo : nat) (xs : list (list Qc)) (ys zs : list cell)
    (lo mo : option (list Z)) (w : option (list Qc)) (ls ms : list Z) (p q : nat -> cell -> Qc) (K : nat) : Prop :=
  0 < P /\ matching di xs ys lo zs mo w /\ used_labels (length ys) (length zs) lo mo = (ls, ms) /\ stores P d di xs o ys lo oo zs mo /\
  weights_init (r_out d) = w /\ estimated gkde ys ls w zs ms p q /\ clusters ls K.
(** Every cluster has samples, and the ratios of all samples are numbers. *)
Definition full (ys : list cell) (ls : list Z) (p : nat -> cell -> Qc) (K : nat) : Prop := forall j, j < K -> members (combine ys ls) j <> [] /\ ratios_defined ys ls p j.
