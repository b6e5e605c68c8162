From Coq Require Import List Arith NArith Permutation QArith Qcanon.
From Verif Require Import Num Ext Query_Spec.
Import ListNotations.
Local Open Scope nat_scope.

(** The fraction of the listed points that lie in cell i. *)
Definition fraction {X} (cell : X -> nat) (pts : list X) (i : nat) : Qc :=
  (qn (length (filter (fun x => Nat.eqb (cell x) i) pts)) / qn (length pts))%Qc.

(** A numpy.argsort: a permutation of the indices along which the entries do
    not decrease (the order among equal entries is not prescribed). *)
Definition is_argsort (l : list Qc) (p : list nat) : Prop :=
  Permutation p (seq 0 (length l)) /\
  forall i j a b, i < j -> nth_error p i = Some a -> nth_error p j = Some b -> (nth a l 0 <= nth b l 0)%Qc.

(** The points of [lo, hi] that are at least as close to v as to any sample. *)
Definition voronoi_interval (lo hi : Qc) (samples : list Qc) (v x : Qc) : Prop :=
  (lo <= x)%Qc /\ (x <= hi)%Qc /\ forall w, In w samples -> (qabs (x - v) <= qabs (x - w))%Qc.

(** The numbers listed at the positions where the samples equal v. *)
Definition values_at (samples : list Qc) (v : Qc) (vols : list Qc) : list Qc :=
  map snd (filter (fun p => qeqb (fst p) v) (combine samples vols)).

(** The volume of a box. *)
Fixpoint volume (left right : list Qc) : Qc :=
  match left, right with
  | l :: ls, r :: rs => (r - l) * volume ls rs
  | _, _ => 1
  end%Qc.

(** A box inside the domain, with left <= right. *)
Definition sub_box (dom : list (Qc * Qc)) (left right : list Qc) : Prop :=
  length left = length dom /\ length right = length dom /\
  forall j d l r, nth_error dom j = Some d -> nth_error left j = Some l -> nth_error right j = Some r ->
    (fst d <= l)%Qc /\ (l <= r)%Qc /\ (r <= snd d)%Qc.
(** No point lies in two of the boxes. *)
Definition disjoint_boxes (ls rs : list (list Qc)) : Prop :=
  forall i j x, box_contains ls rs x i -> box_contains ls rs x j -> i = j.
Definition proper_domain (dom : list (Qc * Qc)) : Prop := forall d, In d dom -> (fst d < snd d)%Qc.
