(** Rectangle, ball and cartesian sample sets: setup and query
    (bet/sample.py:1832-2232). *)
From Coq Require Import List Arith Bool QArith Qcanon.
From Verif Require Import Err Num Ext.
Import ListNotations.
Local Open Scope nat_scope.
Local Open Scope err_scope.

Notation point := (list Qc).

(** The rows of _left/_right without the last (remainder) row, and _values. *)
Record rset := mk_rset {
  rdim : nat;
  lefts : list point;
  rights : list point;
  rvalues : list (list xnum)
}.
Definition rnum (s : rset) : nat := length (rvalues s).

(** bet/sample.py:1842-1885  rectangle_sample_set.setup(maxes, mins) *)
Definition midpoint (mx mn : point) : list xnum :=
  map (fun p => Fin (Q2Qc (1 # 2) * (fst p + snd p))%Qc) (combine mx mn).
Definition rect_setup (d : nat) (maxes mins : list point) : result rset :=
  if negb (length maxes =? length mins) then Raise LengthNotMatching
  else if negb (forallb (fun p => (length (fst p) =? d) && (length (snd p) =? d)) (combine maxes mins))
  then Raise LengthNotMatching
  else Ok (mk_rset d mins maxes
             (map (fun p => midpoint (fst p) (snd p)) (combine maxes mins) ++ [repeat PInf d])).

(** lines 1986-1988: x <= right in every coordinate and x > left in every
    coordinate. *)
Definition in_rec (x left right : point) : bool :=
  forallb (fun p => qleb (fst p) (snd p)) (combine x right) &&
  forallb (fun p => qltb (snd p) (fst p)) (combine x left).

(** lines 1989-1998 (and 2160-2169 for balls): the inner loop over j for one
    query point.  [row] holds pt[j] and dist[j]; [prev] is pt[j-1]. *)
Fixpoint fill (i rem : nat) (hit : bool) (prev : option nat) (row : list (nat * xnum)) : list (nat * xnum) :=
  match row with
  | [] => []
  | (p, d) :: r =>
      let now := (p =? rem) && hit &&
                 match prev with None => true | Some q => negb (q =? i) end in
      let e := if now then (i, Fin 0%Qc) else (p, d) in
      e :: fill i rem hit (Some (fst e)) r
  end.

(** lines 1982-2003: the outer loop over the cells 0..num-2. *)
Definition query_hits (hits : list bool) (k : nat) : list (nat * xnum) :=
  let rem := length hits in
  fold_left (fun row ih => fill (fst ih) rem (snd ih) None row)
            (combine (seq 0 rem) hits) (repeat (rem, PInf) k).

(** bet/sample.py:1961-2003  rectangle_sample_set.query for one point; the rows
    of x do not interact.  A point with the wrong number of coordinates is
    rejected (broadcasting of one coordinate is not modelled). *)
Definition rect_query (s : rset) (x : point) (k : nat) : result (list (nat * xnum)) :=
  if negb (length x =? rdim s) then Raise PyValueError
  else Ok (query_hits (map (fun lr => in_rec x (fst lr) (snd lr)) (combine (lefts s) (rights s))) k).

(** bet/sample.py:2031-2062  ball_sample_set.setup and 2135-2174 query.
    [norm_lt v r] decides ||v||_p < r. *)
Record bset := mk_bset { bdim : nat; centers : list point; radii : list Qc; bvalues : list (list xnum) }.
Definition bnum (s : bset) : nat := length (bvalues s).
Definition ball_setup (d : nat) (cs : list point) (rs : list Qc) : result bset :=
  if negb (length cs =? length rs) then Raise LengthNotMatching
  else if negb (forallb (fun c => length c =? d) cs) then Raise LengthNotMatching
  else Ok (mk_bset d cs rs (map (map Fin) cs ++ [repeat NaN d])).
Definition vsub (x y : point) : point := map (fun p => (fst p - snd p)%Qc) (combine x y).
Definition ball_query (norm_lt : point -> Qc -> bool) (s : bset) (x : point) (k : nat) : result (list (nat * xnum)) :=
  if negb (length x =? bdim s) then Raise PyValueError
  else Ok (query_hits (map (fun cr => norm_lt (vsub x (fst cr)) (snd cr)) (combine (centers s) (radii s))) k).

(** ||v|| < r for the norms p = 1, 2, inf in exact arithmetic. *)
Definition norm1_lt (v : point) (r : Qc) : bool := qltb (qsum (map qabs v)) r.
Definition norm2_lt (v : point) (r : Qc) : bool := qltb 0 r && qltb (qsum (map (fun c => c * c)%Qc v)) (r * r).
Definition norminf_lt (v : point) (r : Qc) : bool := qltb (fold_right qmax 0%Qc (map qabs v)) r.

(** bet/sample.py:2200-2232  cartesian_sample_set.setup.
    numpy.meshgrid (default 'xy' indexing) transposed and stacked lists the
    combinations with axis 1 fastest, then axis 0, then axis 2, 3, ...; the
    last axis is the slowest. *)
Fixpoint grid_rest {A} (ls : list (list A)) : list (list A) :=
  match ls with
  | [] => [[]]
  | l :: r => flat_map (fun t => map (fun x => x :: t) l) (grid_rest r)
  end.
Definition mesh_rows {A} (ls : list (list A)) : list (list A) :=
  match ls with
  | [] => []
  | [l] => map (fun x => [x]) l
  | l0 :: l1 :: r => flat_map (fun t => flat_map (fun a => map (fun b => a :: b :: t) l1) l0) (grid_rest r)
  end.
(** xv[0:-1] and xv[1::] *)
Definition lowers (l : list Qc) : list Qc := removelast l.
Definition uppers (l : list Qc) : list Qc := tl l.
(** numpy.vstack fails on an empty outermost axis: axis 0 in two dimensions,
    the last axis in three and more. *)
Definition outer_axis (ls : list (list Qc)) : option (list Qc) :=
  match ls with
  | [] => None
  | [l] => Some [0%Qc]              (* one dimension: no stacking *)
  | [l0; _] => Some l0
  | _ => Some (last ls [])
  end.
Definition cart_setup (d : nat) (xi : list (list Qc)) : result rset :=
  if negb (length xi =? d) then Raise DimNotMatching
  else match outer_axis (map uppers xi) with
       | None | Some [] => Raise PyValueError
       | _ => rect_setup d (mesh_rows (map uppers xi)) (mesh_rows (map lowers xi))
       end.
