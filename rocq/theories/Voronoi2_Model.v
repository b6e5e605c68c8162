(** bet/sample.py:1446-1526, voronoi_sample_set.exact_volume_2D.  Points are pairs
    (the dimension test of lines 1458-1459 has passed), the domain a pair of
    intervals.  scipy's Voronoi and Delaunay are an oracle: [simplices E i] is None
    if the region of point i of E contains the index -1, else the triangles of the
    Delaunay triangulation of its vertices.  The check of the sizes (line 1457) and
    the copy to the local arrays (line 1526) are modelled elsewhere. *)
From Coq Require Import List Arith Bool QArith Qcanon.
From Verif Require Import Num Layout_Model.
Import ListNotations.
Local Open Scope Qc_scope.

Definition point : Type := Qc * Qc.
Definition box : Type := (Qc * Qc) * (Qc * Qc).
Definition triangle : Type := point * point * point.

(** Lines 1463-1466 and 1481-1484: close to the lower end of the interval *)
Definition near_lo (d : Qc * Qc) (ratio x : Qc) : bool := qltb x (fst d + ratio * (snd d - fst d)).
(** Lines 1472-1475 and 1490-1493: close to the upper end *)
Definition near_hi (d : Qc * Qc) (ratio x : Qc) : bool := qltb (snd d - ratio * (snd d - fst d)) x.
(** Lines 1468-1469, 1486-1487 and 1477-1478, 1495-1496: the reflections *)
Definition mirror_lo (d : Qc * Qc) (x : Qc) : Qc := fst d - (x - fst d).
Definition mirror_hi (d : Qc * Qc) (x : Qc) : Qc := snd d + (- x + snd d).
(** Lines 1460-1497: the samples and the added points *)
Definition extended (dom : box) (ratio : Qc) (vals : list point) : list point :=
  let (dx, dy) := dom in
  vals
  ++ map (fun p => (mirror_lo dx (fst p), snd p)) (filter (fun p => near_lo dx ratio (fst p)) vals)
  ++ map (fun p => (mirror_hi dx (fst p), snd p)) (filter (fun p => near_hi dx ratio (fst p)) vals)
  ++ map (fun p => (fst p, mirror_lo dy (snd p))) (filter (fun p => near_lo dy ratio (snd p)) vals)
  ++ map (fun p => (fst p, mirror_hi dy (snd p))) (filter (fun p => near_hi dy ratio (snd p)) vals).
(** Lines 1513-1517: |det| / 2! of one simplex *)
Definition simplex_volume (t : triangle) : Qc :=
  let '(a, b, c) := t in
  let det := (fst b - fst a) * (snd c - snd a) - (fst c - fst a) * (snd b - snd a) in
  Q2Qc (1 # 2) * (if qleb 0 det then det else - det).
(** Lines 1507-1518: 0 for an unbounded region *)
Definition region_volume (simp : option (list triangle)) : Qc :=
  match simp with Some ts => fold_left (fun v t => v + simplex_volume t) ts 0 | None => 0 end.
(** The whole function for P processes *)
Definition exact_volume_2D (simplices : list point -> nat -> option (list triangle)) (P : nat) (dom : box) (ratio : Qc)
  (vals : list point) : option (list Qc) :=
  let new_samp := extended dom ratio vals in
  let lam_size := (snd (fst dom) - fst (fst dom)) * (snd (snd dom) - fst (snd dom)) in
  strided_volumes 0 (fun i => region_volume (simplices new_samp i) / lam_size) (length vals) P.
