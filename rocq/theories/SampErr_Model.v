(** bet/calculateP/calculateError.py:28-359 on a discretization: the neighbours
    of the cells, the sets of inner and touching cells and class sampling_error,
    on P processes.  Disc_Model has the discretizations, Error_Model the formulas.
    [nn] is the nearest-neighbour answer of scipy's KDTree, [argsort] numpy's
    argsort and [delaunay] the simplices of scipy's Delaunay triangulation.

    Simplifications: sets are values, as in Disc_Model; exact=False, which raises
    NotImplementedError (lines 174-176), is left out. *)
From Coq Require Import List Arith Bool QArith Qcanon.
From Verif Require Import Err Num Ext NumPy SampleSet_Model Prob_Model Disc_Model Workflow_Model Error_Model ErrorDisc_Model.
Import ListNotations.
Local Open Scope nat_scope.
Local Open Scope err_scope.

(** The class of the input set: a Voronoi set with this norm or another set. *)
Inductive set_kind := VoronoiSet (p_norm : xnum) | OtherSet.

(** The object: self.disc, self.num, (self.B_N, self.C_N). *)
Record samp_err := mk_serr { se_disc : disc cell; se_num : nat; se_sets : dict * dict }.

(** _values.flat of an array of shape (num, 1) (line 66) *)
Definition flat (c : cell) : result Qc :=
  match c with
  | Vec [Num q] => Ok q
  | _ => Raise PyValueError
  end.
Fixpoint flats (l : list cell) : result (list Qc) :=
  match l with [] => Ok [] | c :: r => do q <- flat c ; do qs <- flats r ; Ok (q :: qs) end.

Section Sampling.
Context (nn : list cell -> cell -> nat) (argsort : list Qc -> list nat) (delaunay : list cell -> result (list (list nat))) (P : nat).

(** lines 45-57 (112-125): Voronoi sets of the 2-norm only *)
Definition two_norm (k : set_kind) : bool := match k with VoronoiSet (Fin p) => qeqb p (Q2Qc 2) | _ => false end.
(** lines 61-62 (130-131) *)
Definition pointed (d : disc cell) : result (disc cell) :=
  match io d with None => set_io_ptr nn P true d | Some _ => Ok d end.
(** lines 28-89 cell_connectivity_exact: the list and the discretization after
    the call.  The pairs of neighbours are those of Error_Model. *)
Definition links_of (s : sset cell) : result (list (nat * nat)) :=
  do x <- need (glob s Values) ;
  if dim s =? 1 then
    do v <- flats (rows x) ;
    links_1D (argsort v) (combine (seq 0 (length v)) (argsort v))
  else
    do t <- delaunay (rows x) ;
    Ok (links_nD t).
Definition connectivity (k : set_kind) (d : disc cell) : result (list (list nat) * disc cell) :=
  do inp <- need (d_in d) ;
  if two_norm k then
    do num <- check_nums P d ;
    do d1 <- pointed d ;
    do ptr <- subscript (io d1) ;
    do links <- links_of inp ;
    if links_valid (length ptr) links
    then Ok (map (nei_of ptr links) (seq 0 num), d1)
    else Raise PyIndexError
  else Raise WrongArgumentType.
(** lines 92-142 boundary_sets *)
Definition disc_boundary_sets (k : set_kind) (nei : list (list nat)) (d : disc cell) : result ((dict * dict) * disc cell) :=
  do inp <- need (d_in d) ;
  if two_norm k then
    do num <- check_nums P d ;
    do d1 <- pointed d ;
    do ptr <- subscript (io d1) ;
    if num <=? length ptr then Ok (boundary_sets (firstn num ptr) nei, d1) else Raise PyIndexError
  else Raise WrongArgumentType.
(** lines 150-178 __init__ *)
Definition new_sampling_error (k : set_kind) (d : disc cell) : result samp_err :=
  do num <- check_nums P d ;
  do c <- connectivity k d ;
  do b <- disc_boundary_sets k (fst c) (snd c) ;
  Ok (mk_serr (snd b) num (fst b)).

(** lines 197-205 *)
Definition with_volumes_ (d : disc cell) : result (disc cell) :=
  do inp <- need (d_in d) ;
  match glob inp Volumes with
  | Some _ => Ok d
  | None =>
      match d_ein d with
      | Some em => do r <- emulated_volumes nn P inp em ; Ok (with_ein (Some (snd r)) (with_in (Some (fst r)) d))
      | None => do inp1 <- estimate_mc P true inp ; Ok (with_in (Some inp1) d)
      end
  end.
(** lines 180-241 calculate_for_contour_events: (up_list, low_list) and the
    object after the call.  A boolean index of another length than the array
    raises IndexError (lines 212-214).  Simplification: without a pointer
    TypeError (numpy compares None with the number and finds no cell; the
    constructor has set the pointer). *)
Definition sampling_contours (m : samp_err) : result (list xnum * list xnum * samp_err) :=
  do d <- with_volumes_ (se_disc m) ;
  do pr <- need (d_prob d) ;
  do ops_num <- check_num P pr ;
  do probs <- out_probs ops_num pr ;
  if existsb (qltb 0) probs then
    do ptr <- subscript (io d) ;
    do inp <- need (d_in d) ;
    do x <- subscript (glob inp Volumes) ;
    do vols <- scalars (rows x) ;
    if (length ptr =? se_num m) && (length ptr =? length vols) then
      do r <- contour_events ptr vols probs (se_sets m) ;
      Ok (fst r, mk_serr d (se_num m) (snd r))
    else Raise PyIndexError
  else
    do r <- contour_events [] [] probs (se_sets m) ;
    Ok (fst r, mk_serr d (se_num m) (snd r)).

(** lines 304-359: [d] is the discretization whose emulated points are counted,
    [ptr3] the cells of s_set holding them.  The answer is None for (nan, nan). *)
Definition sampling_estimate (flags : list bool) (ptr3 : list (list nat)) (d : disc cell) (m : samp_err) : result (option (Qc * Qc) * (dict * dict)) :=
  do in_A <- fancy flags ptr3 ;
  do pr <- need (d_prob (se_disc m)) ;
  do ops_num <- check_num P pr ;
  do probs <- out_probs ops_num pr ;
  if existsb (qltb 0) probs then
    do ptr <- subscript (io d) ;
    do ptr1 <- subscript (ii_loc d) ;
    do _ <- fancy ptr ptr1 ;
    do blocks <- beside PyValueError in_A ptr1 ;
    Ok (region_bounds ptr probs blocks (se_sets m))
  else Ok (region_bounds [] probs [] (se_sets m)).
(** lines 243-359 calculate_for_sample_set_region; disc.copy() is a deep copy
    (bet/sample.py:2494-2502).  In the first and the third version the pointer
    belongs to the copy.  In the third version the input set of the object is
    the emulated set of disc_new and gets localized there. *)
Definition sampling_region (s_set : sset cell) (region : Qc) (em : option (sset cell)) (m : samp_err) : result (option (Qc * Qc) * samp_err) :=
  do d <- global_input (se_disc m) ;
  do flags <- marker s_set region ;
  let m1 := mk_serr d (se_num m) (se_sets m) in
  match em, d_ein d with
  | Some e, _ =>
      do c <- done (set_emulated_input e d) ;
      do c1 <- set_ii_ptr nn P false c ;
      do ptr3 <- cells_of nn P s_set e ;
      do r <- sampling_estimate flags ptr3 c1 m1 ;
      Ok (fst r, mk_serr d (se_num m) (snd r))
  | None, Some _ =>
      do d1 <- (match ii d with None => set_ii_ptr nn P false d | Some _ => Ok d end) ;
      do e <- need (d_ein d1) ;
      do ptr3 <- cells_of nn P s_set e ;
      do r <- sampling_estimate flags ptr3 d1 (mk_serr d1 (se_num m) (se_sets m)) ;
      Ok (fst r, mk_serr d1 (se_num m) (snd r))
  | None, None =>
      do inp <- need (d_in d) ;
      do c <- done (set_emulated_input inp d) ;
      do c1 <- set_ii_ptr nn P false c ;
      do ptr3 <- cells_of nn P s_set inp ;
      do inp1 <- localized P inp ;
      do r <- sampling_estimate flags ptr3 c1 m1 ;
      Ok (fst r, mk_serr (with_in (Some inp1) d) (se_num m) (snd r))
  end.
End Sampling.
