(** Finite polygons for the cells of a Voronoi diagram in the plane
    (bet/postProcess/plotVoronoi.py:232-310). *)
From Coq Require Import ZArith List Arith Bool Reals.
From Verif Require Import Err.
Import ListNotations.
Local Open Scope R_scope.

Definition pt := (R * R)%type.
Definition psub (a b : pt) : pt := (fst a - fst b, snd a - snd b).
Definition pdot (a b : pt) : R := fst a * fst b + snd a * snd b.
(** The attributes of scipy.spatial.Voronoi that are used.  A vertex number -1 stands
    for a vertex at infinity. *)
Record vor := { v_points : list pt; v_ridge_points : list (nat * nat); v_ridge_vertices : list (Z * Z);
  v_vertices : list pt; v_point_region : list nat; v_regions : list (list Z) }.
Definition sum_of (f : pt -> R) (l : list pt) : R := fold_right (fun p s => f p + s) 0 l.
(** Line 258: vor.points.mean(axis=0) *)
Definition center (l : list pt) : pt := (sum_of fst l / INR (length l), sum_of snd l / INR (length l)).
(** Line 260: vor.points.ptp().max(), the largest minus the smallest of all coordinates *)
Definition coordinates (l : list pt) : list R := concat (map (fun p => [fst p; snd p]) l).
Definition ptp (l : list pt) : R :=
  match coordinates l with [] => 0 | x :: r => fold_right Rmax x r - fold_right Rmin x r end.
(** np.sign *)
Definition sign (x : R) : R := if Rlt_dec 0 x then 1 else if Rlt_dec x 0 then -1 else 0.
(** Lines 263-266: the ridges of a point in the order of the diagram *)
Definition all_ridges (v : vor) (p : nat) : list (nat * (Z * Z)) :=
  concat (map (fun r => let '((p1, p2), vs) := r in (if Nat.eqb p1 p then [(p2, vs)] else []) ++ (if Nat.eqb p2 p then [(p1, vs)] else []))
              (combine (v_ridge_points v) (v_ridge_vertices v))).
(** l[z] with the negative indices of Python *)
Definition py_nth {A} (l : list A) (z : Z) : option A :=
  if (0 <=? z)%Z then nth_error l (Z.to_nat z) else if Nat.leb (Z.to_nat (- z)) (length l) then nth_error l (length l - Z.to_nat (- z)) else None.
(** Lines 290-296: the point at distance radius along the normal of the ridge; None is
    nan (the two points coincide and t is divided by zero). *)
Definition far_point (c : pt) (radius : R) (a b w : pt) : option pt :=
  let t := psub b a in
  let len := sqrt (pdot t t) in
  if Req_EM_T len 0 then None else
  let n := (- (snd t / len), fst t / len) in
  let midpoint := ((fst a + fst b) / 2, (snd a + snd b) / 2) in
  let s := sign (pdot (psub midpoint c) n) in
  Some (fst w + s * fst n * radius, snd w + s * snd n * radius).
(** Lines 281-299: one ridge of the point p1; the state is (new_region, new_vertices). *)
Definition ridge_step (v : vor) (c : pt) (radius : R) (p1 : nat) (st : list nat * list (option pt)) (r : nat * (Z * Z)) : result (list nat * list (option pt)) :=
  let '(p2, vs) := r in
  let '(v1, v2) := if (snd vs <? 0)%Z then (snd vs, fst vs) else vs in
  if (0 <=? v1)%Z then Ok st
  else match nth_error (v_points v) p1, nth_error (v_points v) p2, py_nth (v_vertices v) v2 with
       | Some a, Some b, Some w => Ok (fst st ++ [length (snd st)], snd st ++ [far_point c radius a b w])
       | _, _, _ => Raise PyIndexError
       end.
Fixpoint ridge_loop (v : vor) (c : pt) (radius : R) (p1 : nat) (st : list nat * list (option pt)) (rs : list (nat * (Z * Z))) : result (list nat * list (option pt)) :=
  match rs with
  | [] => Ok st
  | r :: rs => match ridge_step v c radius p1 st r with Ok st' => ridge_loop v c radius p1 st' rs | Raise e => Raise e end
  end.
Fixpoint take_all {A} (l : list A) (idx : list nat) : option (list A) :=
  match idx with [] => Some [] | i :: is => match nth_error l i, take_all l is with Some x, Some r => Some (x :: r) | _, _ => None end end.
(** Lines 269-308 for the point p1.  [order] is np.argsort of the angles of the listed
    vertices around their mean. *)
Definition region_step (order : list (option pt) -> list nat) (v : vor) (c : pt) (radius : R) (p1 region : nat) (verts : list (option pt)) : result (list nat * list (option pt)) :=
  match nth_error (v_regions v) region with
  | None => Raise PyIndexError
  | Some vertices =>
      if forallb (fun z => (0 <=? z)%Z) vertices then Ok (map Z.to_nat vertices, verts)
      else match all_ridges v p1 with
           | [] => Raise PyKeyError
           | ridges =>
               match ridge_loop v c radius p1 (map Z.to_nat (filter (fun z => (0 <=? z)%Z) vertices), verts) ridges with
               | Raise e => Raise e
               | Ok (new_region, verts') =>
                   match take_all verts' new_region with
                   | None => Raise PyIndexError
                   | Some vs => match take_all new_region (order vs) with None => Raise PyIndexError | Some r => Ok (r, verts') end
                   end
               end
           end
  end.
Fixpoint region_loop (order : list (option pt) -> list nat) (v : vor) (c : pt) (radius : R) (p1 : nat) (regions : list nat) (verts : list (option pt)) : result (list (list nat) * list (option pt)) :=
  match regions with
  | [] => Ok ([], verts)
  | r :: rs =>
      match region_step order v c radius p1 r verts with
      | Raise e => Raise e
      | Ok (reg, verts') =>
          match region_loop order v c radius (S p1) rs verts' with
          | Raise e => Raise e
          | Ok (regs, verts'') => Ok (reg :: regs, verts'')
          end
      end
  end.
Definition the_radius (v : vor) (radius : option R) : R := match radius with Some r => r | None => ptp (v_points v) end.
Definition finite_polygons (order : list (option pt) -> list nat) (v : vor) (radius : option R) : result (list (list nat) * list (option pt)) :=
  region_loop order v (center (v_points v)) (the_radius v radius) 0 (v_point_region v) (map Some (v_vertices v)).
