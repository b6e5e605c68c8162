(** Bounds, bounding boxes, appending and radii of sample sets
    (bet/sample.py:635-690, 792-806, 1528-1657, 1885-1960, 2058-2125). *)
From Coq Require Import List Arith Bool QArith Qcanon.
From Verif Require Import Err Num NumPy SampleSet_Model Volume_Model.
Import ListNotations.
Local Open Scope nat_scope.
Local Open Scope err_scope.

(** A row is a point; a row of a one-dimensional array is a list of length one. *)
Definition pt := list Qc.
Notation pset := (sset pt).

(** ** Pointwise bounds *)

Definition width_of (d : list (Qc * Qc)) : pt := map (fun p => (snd p - fst p)%Qc) d.

(** bet/sample.py:635-647 update_bounds; [num] is the optional argument.
    Without values None.shape raises AttributeError, without a domain
    None[:, 0] raises TypeError. *)
Definition bounds_num (num : option nat) (s : pset) : result nat :=
  match num with
  | Some k => Ok k
  | None => match glob s Values with
            | Some x => Ok (length (rows x))
            | None => Raise PyAttributeError
            end
  end.
Definition update_bounds (num : option nat) (s : pset) : result pset :=
  do k <- bounds_num num s ;
  match domain s with
  | None => Raise PyTypeError
  | Some d =>
      let a v := Some (mk_arr (repeat v k) [length d]) in
      Ok (set_glob Width_ (a (width_of d))
            (set_glob Right_ (a (map snd d)) (set_glob Left_ (a (map fst d)) s)))
  end.

(** bet/sample.py:649-662 update_bounds_local with the default local_num, on
    every rank. *)
Definition update_bounds_local (s : pset) : result pset :=
  match loc s Values, domain s with
  | None, _ => Raise PyAttributeError
  | Some _, None => Raise PyTypeError
  | Some bs, Some d =>
      let a v := Some (map (fun b => mk_arr (repeat v (length (rows b))) [length d]) bs) in
      Ok (set_loc Width_ (a (width_of d))
            (set_loc Right_ (a (map snd d)) (set_loc Left_ (a (map fst d)) s)))
  end.

(** ** Appending *)

(** Voronoi sets append; rectangle and ball sets only log a warning
    (lines 1903-1928, 2058-2083). *)
Inductive kind := Voronoi | Boxes.

(** bet/sample.py:664-676 append_values.  np.concatenate((None, x)) raises
    ValueError.  Simplification: fix_dimensions_data also reshapes a vector and
    transposes an array of the wrong orientation; here x must be (m, dim). *)
Definition append_values (k : kind) (x : arr pt) (s : pset) : result pset :=
  match k with
  | Boxes => Ok s
  | Voronoi =>
      match glob s Values with
      | None => Raise PyValueError
      | Some v => do z <- concat_arr v x ; Ok (set_glob Values (Some z) s)
      end
  end.

(** ** The bounding box, lines 212, 792-806 *)
Record boxed := mk_boxed { bset : pset; box : option (list (Qc * Qc)) }.

(** np.min and np.max along axis 0; an array without rows raises ValueError. *)
Fixpoint col_min (r : pt) (l : list pt) : pt :=
  match l with
  | [] => r
  | r' :: l' => col_min (map (fun p => qmin (fst p) (snd p)) (combine r r')) l'
  end.
Fixpoint col_max (r : pt) (l : list pt) : pt :=
  match l with
  | [] => r
  | r' :: l' => col_max (map (fun p => qmax (fst p) (snd p)) (combine r r')) l'
  end.
(** set_bounding_box, lines 792-798 (np.min(None, axis=0) raises AxisError, a ValueError). *)
Definition set_bounding_box (b : boxed) : result boxed :=
  match glob (bset b) Values with
  | None => Raise PyValueError
  | Some v =>
      match rows v with
      | [] => Raise PyValueError
      | r :: l => Ok (mk_boxed (bset b) (Some (combine (col_min r l) (col_max r l))))
      end
  end.
(** get_bounding_box, lines 800-806 *)
Definition get_bounding_box (b : boxed) : result (list (Qc * Qc) * boxed) :=
  match box b with
  | Some x => Ok (x, b)
  | None =>
      do b1 <- set_bounding_box b ;
      match box b1 with Some x => Ok (x, b1) | None => Raise PyTypeError end
  end.
Definition boxed_set_values (x : arr pt) (b : boxed) : result boxed :=
  do s <- set_values x (bset b) ; Ok (mk_boxed s (box b)).
Definition boxed_append (x : arr pt) (b : boxed) : result boxed :=
  do s <- append_values Voronoi x (bset b) ; Ok (mk_boxed s (box b)).

(** ** Monte Carlo estimates of the cell radii *)

(** lines 1544-1545: the number of points drawn by rank r (int(n / size) plus
    one on the first n % size ranks). *)
Definition mc_share (n P r : nat) : nat := n / P + (if r <? n mod P then 1 else 0).

(** lines 1559-1561: width * u + left *)
Definition scale_pt (d : list (Qc * Qc)) (u : pt) : pt :=
  map (fun p => (snd p * (snd (fst p) - fst (fst p)) + fst (fst p))%Qc) (combine d u).
(** lines 1553-1554, 1567-1568: (x - left) / width *)
Definition unit_pt (d : list (Qc * Qc)) (x : pt) : pt :=
  map (fun p => ((snd p - fst (fst p)) / (snd (fst p) - fst (fst p)))%Qc) (combine d x).
Definition no_zero_width (d : list (Qc * Qc)) : bool :=
  forallb (fun p => negb (qeqb (fst p) (snd p))) d.

(** query (lines 1395-1412) of all points of all ranks at once. *)
Definition query_blocks (nn : list pt -> pt -> nat) (P : nat) (bs : list (list pt)) (s : pset)
  : result (list (list nat) * pset) :=
  match kd s with
  | None =>
      do s1 <- set_kdtree s ;
      match kd s1 with
      | Some t => Ok (map (map (nn (rows t))) bs, s1)
      | None => Raise PyAttributeError
      end
  | Some t => do _ <- check_num P s ; Ok (map (map (nn (rows t))) bs, s)
  end.

(** np.max of a one-dimensional array: of nothing it raises ValueError. *)
Definition np_max (l : list Qc) : result Qc :=
  match l with [] => Raise PyValueError | x :: r => Ok (fold_left qmax r x) end.

Fixpoint map_res {A B} (f : A -> result B) (l : list A) : result (list B) :=
  match l with
  | [] => Ok []
  | a :: r => do b <- f a ; do bs <- map_res f r ; Ok (b :: bs)
  end.

(** lines 1573-1578 on one rank: rad[i] is the largest distance from sample i to
    this rank's points of cell i.  [dist] is np.linalg.norm(x - y, ord=p). *)
Definition rank_radii (dist : pt -> pt -> Qc) (num : nat) (samples pts : list pt) (ptrs : list nat)
  : result (list Qc) :=
  map_res (fun i =>
    match nth_error samples i with
    | None => Raise PyIndexError
    | Some v => np_max (map (fun q => dist (fst q) v) (filter (fun q => snd q =? i) (combine pts ptrs)))
    end) (seq 0 num).

(** comm.Allreduce(op=MPI.MAX) *)
Definition vmax (a b : list Qc) : list Qc := map (fun p => qmax (fst p) (snd p)) (combine a b).
Definition allreduce_max (per_rank : list (list Qc)) : list Qc :=
  match per_rank with [] => [] | a :: r => fold_left vmax r a end.

(** self._left = self._right = self._width = None *)
Definition drop_bounds (s : pset) : pset :=
  set_glob Width_ None (set_glob Right_ None (set_glob Left_ None s)).

Definition column (l : list Qc) : arr pt := mk_arr (map (fun x => [x]) l) [].

(** lines 1542-1583 and 1606-1645, the common part of the two functions: the
    radii, the answers of query and the new state.  [us] holds the uniform
    draws of each rank.  Simplifications: a domain with a side of zero width
    (nan in the code) and a domain whose length is not dim (a broadcast error)
    are rejected with ValueError; the draws do not depend on the state. *)
Definition radii_core (dist : pt -> pt -> Qc) (nn : list pt -> pt -> nat) (P : nat) (normalize : bool)
    (us : list (list pt)) (s : pset) : result (nat * list Qc * list (list nat) * pset) :=
  do num <- check_num P s ;
  do s1 <- (if normalize then do t <- update_bounds None s ; Ok (drop_bounds t) else Ok s) ;
  match domain s1 with
  | None => Raise PyTypeError
  | Some d =>
      if negb (length d =? dim s1) || negb (no_zero_width d) then Raise PyValueError else
      let pts := map (map (scale_pt d)) us in
      do q <- query_blocks nn P pts s1 ;
      let (ptrs, s2) := q in
      match glob s2 Values with
      | None => Raise PyIndexError
      | Some v =>
          let f := if normalize then map (unit_pt d) else (fun l => l) in
          do per_rank <- map_res (fun b => rank_radii dist num (f (rows v)) (f (fst b)) (snd b))
                                 (combine pts ptrs) ;
          Ok (num, allreduce_max per_rank, ptrs, s2)
      end
  end.

Definition radii_attr (normalize : bool) : attr := if normalize then NormalizedRadii else Radii.

(** bet/sample.py:1528-1590 estimate_radii *)
Definition estimate_radii dist nn P normalize us (s : pset) : result pset :=
  do r <- radii_core dist nn P normalize us s ;
  let '(num, rad, ptrs, s1) := r in
  global_to_local P (set_glob (radii_attr normalize) (Some (column rad)) s1).

(** bet/sample.py:1592-1657 estimate_radii_and_volume.  The division by
    n_mc_points = 0 is only reached when there is no sample at all. *)
Definition estimate_radii_and_volume dist nn P normalize n_mc us (s : pset) : result pset :=
  do r <- radii_core dist nn P normalize us s ;
  let '(num, rad, ptrs, s1) := r in
  let vol := allreduce_sum (zeros num) (map (cell_counts num) ptrs) in
  global_to_local P
    (set_glob Volumes (Some (column (map (fun v => (v / qn n_mc)%Qc) vol)))
      (set_glob (radii_attr normalize) (Some (column rad)) s1)).
