(** bet/calculateP/calculateError.py:362-612 class model_error on a
    discretization: which sets, pointers and volumes enter the formulas of
    Error_Model, on P processes.  Disc_Model has the discretizations, [nn] is the
    nearest-neighbour answer of scipy's KDTree.

    Simplifications: sets are values, as in Disc_Model (a set given by the user
    that is localized or gets a tree on the way is the user's object; here the
    changes are only followed for the sets of the discretization); the arrays
    hold rationals (numpy refuses to add rationals to an array of integers). *)
From Coq Require Import List Arith Bool QArith Qcanon.
From Verif Require Import Err Num Ext NumPy SampleSet_Model Prob_Model Disc_Model Workflow_Model Volume_Model Error_Model.
Import ListNotations.
Local Open Scope nat_scope.
Local Open Scope err_scope.

(** Line 398, [_values_local += _error_estimates_local] on one rank.
    Simplification: the two arrays have the same shape, otherwise ValueError
    (numpy would stretch a single row or column of estimates). *)
Definition add_row (x e : cell) : result cell :=
  match x, e with
  | Vec l, Vec m =>
      do a <- scalars l ;
      do b <- scalars m ;
      if length a =? length b then Ok (Vec (map Num (vadd a b))) else Raise PyValueError
  | _, _ => Raise PyValueError
  end.
Fixpoint add_rows (xs es : list cell) : result (list cell) :=
  match xs, es with
  | [], [] => Ok []
  | x :: xr, e :: er => do y <- add_row x e ; do ys <- add_rows xr er ; Ok (y :: ys)
  | _, _ => Raise PyValueError
  end.
Definition add_arr (x e : arr cell) : result (arr cell) :=
  if shape_eq_dec (tail_shape x) (tail_shape e)
  then do r <- add_rows (rows x) (rows e) ; Ok (mk_arr r (tail_shape x))
  else Raise PyValueError.
Fixpoint add_blocks (xs es : list (arr cell)) : result (list (arr cell)) :=
  match xs, es with
  | [], [] => Ok []
  | x :: xr, e :: er => do y <- add_arr x e ; do ys <- add_blocks xr er ; Ok (y :: ys)
  | _, _ => Raise PyValueError
  end.
(** None += array and array += None raise TypeError. *)
Definition shifted (s : sset cell) : result (sset cell) :=
  do xs <- loc_values s ;
  do es <- subscript (loc s ErrorEstimates) ;
  do ys <- add_blocks xs es ;
  Ok (set_loc Values (Some ys) s).

(** The object: self.disc and self.disc_new. *)
Record model_error := mk_merr { me_disc : disc cell; me_new : disc cell }.

Section Model.
Context (nn : list cell -> cell -> nat) (P : nat).

(** lines 368-401 __init__; disc.copy() is a deep copy (bet/sample.py:2494-2502) *)
Definition has_estimates (s : sset cell) : bool :=
  match glob s ErrorEstimates, loc s ErrorEstimates with None, None => false | _, _ => true end.
Definition new_model_error (d : disc cell) : result model_error :=
  do out <- need (d_out d) ;
  do out1 <- global_to_local P out ;
  if has_estimates out1 then
    let d1 := with_out (Some out1) d in
    do _ <- check_nums P d1 ;
    do d2 <- (match io_loc d1 with None => set_io_ptr nn P true d1 | Some _ => Ok d1 end) ;
    do out2 <- need (d_out d2) ;
    do out3 <- shifted out2 ;
    do d3 <- set_io_ptr nn P false (with_out (Some out3) d2) ;
    Ok (mk_merr d2 (with_io None (io_loc d3) d3))
  else Raise WrongArgumentType.

(** bet/sample.py:1278-1310 estimate_volume_emulated on stored sets.  The
    volumes are rationals: without any emulated point numpy divides zero by
    zero and stores nan (C12); the model stops with ZeroDivisionError there.
    The emulated set is localized as a side effect. *)
Fixpoint finite (l : list xnum) : result (list Qc) :=
  match l with
  | [] => Ok []
  | Fin q :: r => do qs <- finite r ; Ok (q :: qs)
  | _ :: _ => Raise PyZeroDivision
  end.
Definition emulated_volumes (s em : sset cell) : result (sset cell * sset cell) :=
  do num <- check_num P s ;
  do em1 <- localized P em ;
  do xs <- loc_values em1 ;
  do q <- query_blocks nn P xs s ;
  do v <- finite (estimate_volume_emulated num (fun k => k) (fst q)) ;
  do s1 <- global_to_local P (set_glob Volumes (Some (vec_arr v)) (snd q)) ;
  Ok (s1, em1).

(** lines 414-424 *)
Definition volumes_ready (d : disc cell) : result (disc cell) :=
  do inp <- need (d_in d) ;
  do d1 <- (match glob inp Volumes with
            | Some _ => Ok d
            | None =>
                match d_ein d with
                | Some em => do r <- emulated_volumes inp em ; Ok (with_ein (Some (snd r)) (with_in (Some (fst r)) d))
                | None => do inp1 <- estimate_mc P true inp ; Ok (with_in (Some inp1) d)
                end
            end) ;
  do inp1 <- need (d_in d1) ;
  match loc inp1 Volumes with
  | None => do inp2 <- global_to_local P inp1 ; Ok (with_in (Some inp2) d1)
  | Some _ => Ok d1
  end.

(** The blocks of every rank next to each other.  [x] is the exception of numpy
    for blocks of different lengths: IndexError for a boolean index, ValueError
    for logical_and. *)
Fixpoint beside {A B} (x : exn) (a : list (list A)) (b : list (list B)) : result (list (list (A * B))) :=
  match a, b with
  | [], [] => Ok []
  | u :: ar, v :: br =>
      if length u =? length v then do r <- beside x ar br ; Ok (combine u v :: r) else Raise x
  | _, _ => Raise x
  end.

(** lines 403-450 calculate_for_contour_events: the list and the object after
    the call.  The loop reads pointers and volumes only for events of positive
    probability. *)
Definition contour_errors (m : model_error) : result (list xnum * model_error) :=
  do d <- volumes_ready (me_disc m) ;
  let m1 := mk_merr d (me_new m) in
  do pr <- need (d_prob d) ;
  do ops_num <- check_num P pr ;
  do probs <- out_probs ops_num pr ;
  if existsb (qltb 0) probs then
    do p1 <- subscript (io_loc d) ;
    do p2 <- subscript (io_loc (me_new m)) ;
    do inp <- need (d_in d) ;
    do bs <- subscript (loc inp Volumes) ;
    do vols <- scalar_blocks bs ;
    do _ <- beside PyIndexError p1 vols ;
    do p12 <- beside PyValueError p1 p2 ;
    do blocks <- beside PyIndexError p12 vols ;
    Ok (model_error_contours blocks probs, m1)
  else Ok (model_error_contours [] probs, m1).

(** lines 470-476 and 557-563: np.equal(s_set._region, region) *)
Definition marker (s_set : sset cell) (region : Qc) : result (list bool) :=
  match glob s_set Region with
  | None => Raise WrongArgumentType
  | Some x =>
      do labels <- scalars (rows x) ;
      let m := map (fun l => qeqb l region) labels in
      if existsb (fun b => b) m then Ok m else Raise WrongArgumentType
  end.
(** a[ptr] on every rank *)
Fixpoint fancy {A} (a : list A) (ptrs : list (list nat)) : result (list (list A)) :=
  match ptrs with
  | [] => Ok []
  | p :: r =>
      match take_idx a p with
      | Some x => do xs <- fancy a r ; Ok (x :: xs)
      | None => Raise PyIndexError
      end
  end.
(** The cells of s_set holding the points of the emulated set (lines 488-491,
    502-504, 565-568): the pointer of a new discretization with s_set as input
    and output set. *)
Definition cells_of (s_set em : sset cell) : result (list (list nat)) :=
  do d <- new_disc P (Some s_set) (Some s_set) None (Some em) None None ;
  do d1 <- set_ii_ptr nn P false d ;
  subscript (ii_loc d1).
Definition points (flags : list (list bool)) (c1 c2 : list (list nat)) : result (list (list epoint)) :=
  do a <- beside PyValueError flags c1 ;
  do b <- beside PyValueError a c2 ;
  Ok (map (map (fun t => mk_ep (fst (fst t)) (snd (fst t)) (snd t))) b).

(** lines 513-539: [ptr1], [ptr3] are the input cells and the cells of s_set of
    the emulated points. *)
Definition region_estimate (flags : list bool) (ptr1 ptr3 : list (list nat)) (d dn : disc cell) : result Qc :=
  do in_A <- fancy flags ptr3 ;
  do pr <- need (d_prob d) ;
  do ops_num <- check_num P pr ;
  do probs <- out_probs ops_num pr ;
  if existsb (qltb 0) probs then
    do io1 <- subscript (io d) ;
    do c1 <- fancy io1 ptr1 ;
    do io2 <- subscript (io dn) ;
    do c2 <- fancy io2 ptr1 ;
    do blocks <- points in_A c1 c2 ;
    region_error probs blocks
  else region_error probs [].

(** lines 541-612 calculate_for_sample_set_region_mc: the estimate, the array
    _error_id_local of every rank, and the object after the call.
    np.zeros((None,)) raises TypeError if the input set has no local array.
    Simplification: the ids, which may be infinite, are returned and not stored
    among the arrays of the input set; only check_num would read them. *)
Definition region_mc (s_set : sset cell) (region : Qc) (m : model_error) : result (xnum * list (list xnum) * model_error) :=
  do flags <- marker s_set region ;
  do inp <- need (d_in (me_disc m)) ;
  do ptr3 <- cells_of s_set inp ;
  do inp1 <- localized P inp ;
  do in_A <- fancy flags ptr3 ;
  do pr <- need (d_prob (me_disc m)) ;
  do ops_num <- check_num P pr ;
  do nums <- each_rank (fun r => do k <- check_num_local inp1 r ; subscript k) (seq 0 P) ;
  do probs <- out_probs ops_num pr ;
  let m1 := mk_merr (with_in (Some inp1) (me_disc m)) (me_new m) in
  if existsb (qltb 0) probs then
    do c1 <- subscript (io_loc (me_disc m)) ;
    do c2 <- subscript (io_loc (me_new m)) ;
    do blocks <- points in_A c1 c2 ;
    Ok (region_error_mc probs blocks, m1)
  else Ok (Fin 0%Qc, map (fun n => repeat (Fin 0%Qc) n) nums, m1).

(** lines 452-507 calculate_for_sample_set_region: [em] is the argument
    emulated_set.  The pointer recomputed on self.disc_new in the second branch
    (line 501) is not used afterwards. *)
Definition global_input (d : disc cell) : result (disc cell) :=
  do inp <- need (d_in d) ;
  do inp1 <- local_to_global inp ;
  Ok (with_in (Some inp1) d).
Definition region_errors (s_set : sset cell) (region : Qc) (em : option (sset cell)) (m : model_error) : result (xnum * model_error) :=
  do flags <- marker s_set region ;
  match em, d_ein (me_disc m) with
  | Some e, _ =>
      do d <- global_input (me_disc m) ;
      let d1 := globalize_ptrs d in
      let dn := globalize_ptrs (me_new m) in
      do d2 <- done (set_emulated_input e d1) ;
      do d3 <- set_ii_ptr nn P false d2 ;
      do ptr3 <- cells_of s_set e ;
      do ptr1 <- subscript (ii_loc d3) ;
      do r <- region_estimate flags ptr1 ptr3 d1 dn ;
      Ok (Fin r, mk_merr d1 dn)
  | None, Some _ =>
      do d <- global_input (me_disc m) ;
      let d1 := globalize_ptrs d in
      let dn := globalize_ptrs (me_new m) in
      do d2 <- (match ii_loc d1 with None => set_ii_ptr nn P false d1 | Some _ => Ok d1 end) ;
      do dn1 <- set_ii_ptr nn P false dn ;
      do e <- need (d_ein d2) ;
      do ptr3 <- cells_of s_set e ;
      do ptr1 <- subscript (ii_loc d2) ;
      do r <- region_estimate flags ptr1 ptr3 d2 dn1 ;
      Ok (Fin r, mk_merr d2 dn1)
  | None, None =>
      do r <- region_mc s_set region m ;
      Ok (fst (fst r), snd r)
  end.
End Model.
