From Coq Require Import List QArith Qcanon.
Import ListNotations.
Local Open Scope Qc_scope.

(** Plane geometry: squared distances, Voronoi cells, the rectangle and its sides. *)
Definition dist2 (p q : Qc * Qc) : Qc := (fst p - fst q) * (fst p - fst q) + (snd p - snd q) * (snd p - snd q).
(** p is at least as close to q as to every other point of the list *)
Definition in_cell (pts : list (Qc * Qc)) (q p : Qc * Qc) : Prop := forall r, In r pts -> dist2 p q <= dist2 p r.

Inductive side := West | East | South | North.
(** Distance of a point of the rectangle to a side *)
Definition gap (dom : (Qc * Qc) * (Qc * Qc)) (k : side) (p : Qc * Qc) : Qc :=
  match k with
  | West => fst p - fst (fst dom) | East => snd (fst dom) - fst p
  | South => snd p - fst (snd dom) | North => snd (snd dom) - snd p
  end.
(** Distance of the two sides *)
Definition width (dom : (Qc * Qc) * (Qc * Qc)) (k : side) : Qc :=
  match k with West | East => snd (fst dom) - fst (fst dom) | South | North => snd (snd dom) - fst (snd dom) end.
Definition in_domain dom (p : Qc * Qc) : Prop := forall k, 0 <= gap dom k p.
Definition inside dom (p : Qc * Qc) : Prop := forall k, 0 < gap dom k p.
Definition on_side dom (k : side) (p : Qc * Qc) : Prop := in_domain dom p /\ gap dom k p = 0.
(** q lies within ratio widths of the side *)
Definition close_to dom (ratio : Qc) (k : side) (q : Qc * Qc) : Prop := gap dom k q < ratio * width dom k.

(** Areas: a set tiled by triangles has the sum of their areas. *)
Definition in_triangle (t : (Qc * Qc) * (Qc * Qc) * (Qc * Qc)) (p : Qc * Qc) : Prop :=
  let '(a, b, c) := t in
  exists u v w, 0 <= u /\ 0 <= v /\ 0 <= w /\ u + v + w = 1 /\
    fst p = u * fst a + v * fst b + w * fst c /\ snd p = u * snd a + v * snd b + w * snd c.
Definition inside_triangle (t : (Qc * Qc) * (Qc * Qc) * (Qc * Qc)) (p : Qc * Qc) : Prop :=
  let '(a, b, c) := t in
  exists u v w, 0 < u /\ 0 < v /\ 0 < w /\ u + v + w = 1 /\
    fst p = u * fst a + v * fst b + w * fst c /\ snd p = u * snd a + v * snd b + w * snd c.
Definition tiles (ts : list ((Qc * Qc) * (Qc * Qc) * (Qc * Qc))) (A : Qc * Qc -> Prop) : Prop :=
  (forall p, A p <-> exists t, In t ts /\ in_triangle t p) /\
  (forall i j s t, nth_error ts i = Some s -> nth_error ts j = Some t -> i <> j ->
    ~ exists p, inside_triangle s p /\ inside_triangle t p).
(** Half the absolute value of the shoelace sum *)
Definition is_triangle_area (t : (Qc * Qc) * (Qc * Qc) * (Qc * Qc)) (a : Qc) : Prop :=
  let '((x1, y1), (x2, y2), (x3, y3)) := t in
  let z := x1 * (y2 - y3) + x2 * (y3 - y1) + x3 * (y1 - y2) in
  0 <= a /\ ((1 + 1) * a = z \/ (1 + 1) * a = - z).
Fixpoint total_area (ts : list ((Qc * Qc) * (Qc * Qc) * (Qc * Qc))) (a : Qc) : Prop :=
  match ts with [] => a = 0 | t :: r => exists b c, is_triangle_area t b /\ total_area r c /\ a = b + c end.
Definition has_area (A : Qc * Qc -> Prop) (a : Qc) : Prop := exists ts, tiles ts A /\ total_area ts a.

Definition unbounded (A : Qc * Qc -> Prop) : Prop :=
  forall m, exists p, A p /\ (m < fst p \/ fst p < - m \/ m < snd p \/ snd p < - m).
(** The answers of the Voronoi and Delaunay routines for one list of points:
    triangles that tile the cell, or None for an unbounded cell. *)
Definition diagram_of (simplices : list (Qc * Qc) -> nat -> option (list ((Qc * Qc) * (Qc * Qc) * (Qc * Qc))))
  (pts : list (Qc * Qc)) : Prop :=
  forall i q, nth_error pts i = Some q ->
    match simplices pts i with Some ts => tiles ts (in_cell pts q) | None => unbounded (in_cell pts q) end.

(** Qhull accepts a list of at least four different points, not all on a line. *)
Definition collinear (a b c : Qc * Qc) : Prop :=
  (fst b - fst a) * (snd c - snd a) = (fst c - fst a) * (snd b - snd a).
Definition acceptable (pts : list (Qc * Qc)) : Prop :=
  NoDup pts /\ (4 <= length pts)%nat /\ exists a b c, In a pts /\ In b pts /\ In c pts /\ ~ collinear a b c.
