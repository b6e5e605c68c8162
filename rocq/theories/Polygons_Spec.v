From Coq Require Import ZArith List Arith Reals Permutation.
From Verif Require Import Err Polygons_Model.
Import ListNotations.
Local Open Scope R_scope.

Definition dist2 (a b : pt) : R := Rsqr (fst a - fst b) + Rsqr (snd a - snd b).
(** w lies in the Voronoi cell of point i: no point of the set is closer. *)
Definition in_cell (v : vor) (w : pt) (i : nat) : Prop :=
  exists p, nth_error (v_points v) i = Some p /\ forall q, In q (v_points v) -> dist2 w p <= dist2 w q.
(** Twice the signed area of the triangle a, b, q. *)
Definition side (a b q : pt) : R := (fst b - fst a) * (snd q - snd a) - (snd b - snd a) * (fst q - fst a).
(** The points a and b are an edge of the convex hull, and not all points are on their line. *)
Definition hull_edge (l : list pt) (a b : pt) : Prop :=
  ((forall q, In q l -> side a b q <= 0) \/ (forall q, In q l -> 0 <= side a b q)) /\ exists q, In q l /\ side a b q <> 0.
(** What scipy's diagram says about one ridge: its points are different, its finite
    vertices lie in both cells, and at most one vertex is at infinity, in which case the
    two points are an edge of the convex hull. *)
Definition ridge_ok (v : vor) (i j : nat) (z1 z2 : Z) : Prop :=
  exists a b, nth_error (v_points v) i = Some a /\ nth_error (v_points v) j = Some b /\ a <> b /\
    (forall z, z = z1 \/ z = z2 -> (0 <= z)%Z -> exists w, nth_error (v_vertices v) (Z.to_nat z) = Some w /\ in_cell v w i /\ in_cell v w j) /\
    ((z1 < 0)%Z \/ (z2 < 0)%Z -> ((0 <= z1)%Z \/ (0 <= z2)%Z) /\ hull_edge (v_points v) a b).
(** The contract of scipy.spatial.Voronoi. *)
Definition contract (v : vor) : Prop :=
  length (v_point_region v) = length (v_points v) /\
  (forall i r, nth_error (v_point_region v) i = Some r -> exists reg, nth_error (v_regions v) r = Some reg /\
     (forall z, In z reg -> (0 <= z)%Z -> exists w, nth_error (v_vertices v) (Z.to_nat z) = Some w /\ in_cell v w i) /\
     ((exists z, In z reg /\ (z < 0)%Z) -> exists j vs, In ((i, j), vs) (combine (v_ridge_points v) (v_ridge_vertices v)) \/ In ((j, i), vs) (combine (v_ridge_points v) (v_ridge_vertices v)))) /\
  (forall i j z1 z2, In ((i, j), (z1, z2)) (combine (v_ridge_points v) (v_ridge_vertices v)) -> ridge_ok v i j z1 z2).
(** argsort returns a permutation of the indices. *)
Definition orders (order : list (option pt) -> list nat) : Prop := forall l, Permutation (order l) (seq 0 (length l)).
(** The polygon of point i: all its vertices are points of the cell of i. *)
Definition polygon_in_cell (v : vor) (verts : list (option pt)) (i : nat) (reg : list nat) : Prop :=
  forall k, In k reg -> exists w, nth_error verts k = Some (Some w) /\ in_cell v w i.
(** A ridge of point i that ends at infinity: its finite end is vertex [w], its other
    point is [j]. *)
Definition infinite_ridge (v : vor) (i j : nat) (w : pt) : Prop :=
  exists z1 z2 f, (In ((i, j), (z1, z2)) (combine (v_ridge_points v) (v_ridge_vertices v)) \/ In ((j, i), (z1, z2)) (combine (v_ridge_points v) (v_ridge_vertices v))) /\
    ((z1 < 0)%Z /\ f = z2 \/ (z2 < 0)%Z /\ f = z1) /\ (0 <= f)%Z /\ nth_error (v_vertices v) (Z.to_nat f) = Some w.
