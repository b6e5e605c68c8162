(** The post-processing functions as calls on sample sets and discretizations:
    which arrays of the object they read and what object they return.  The
    calculations on the arrays are those of Post_Model.

    bet/postProcess/plotP.py:41-171 and bet/postProcess/postTools.py:23-242. *)
From Coq Require Import List Arith Bool QArith Qcanon.
From Verif Require Import Err Num Ext NumPy SampleSet_Model Disc_Model Sampling_Model Post_Model.
Import ListNotations.
Local Open Scope nat_scope.
Local Open Scope err_scope.

(** The first argument of all functions: a discretization, a sample set or
    something else. *)
Inductive post_arg := ADisc (d : disc cell) | ASet (s : sset cell) | AOther.

(** ** calculate_1D_marginal_probs, plotP.py:41-103 *)
(** Lines 59-70 (and 126-136): the emulated input set if there is one. *)
Definition marg_set (a : post_arg) : result (sset cell) :=
  match a with
  | ADisc d =>
      match d_ein d with
      | Some s => Ok s
      | None => match d_in d with Some s => Ok s | None => Raise MissingAttribute end
      end
  | ASet s => Ok s
  | AOther => Raise BadObject
  end.
(** The same object with the changed set. *)
Definition marg_put (a : post_arg) (s : sset cell) : post_arg :=
  match a with
  | ADisc d => match d_ein d with Some _ => ADisc (with_ein (Some s) d) | None => ADisc (with_in (Some s) d) end
  | ASet _ => ASet s
  | AOther => AOther
  end.
(** Lines 73-77 (139-143) *)
Definition marg_local (P : nat) (s : sset cell) : result (sset cell) :=
  match loc s Probabilities with
  | Some _ => Ok s
  | None => match glob s Probabilities with None => Raise MissingAttribute | Some _ => global_to_local P s end
  end.
(** Lines 80-81 (150-151).  A numpy integer is not an int, and subscripting it
    in line 88 raises IndexError. *)
Inductive bins_arg := BInt (n : nat) | BArr (l : list nat) | BNumpyInt (n : nat).
Definition bin_number (b : bins_arg) (i : nat) : result nat :=
  match b with
  | BInt n => Ok n
  | BArr l => match nth_error l i with Some n => Ok n | None => Raise PyIndexError end
  | BNumpyInt _ => Raise PyIndexError
  end.
(** Lines 84-88 (154-158) for dimension i; [None][i] raises TypeError. *)
Definition side (s : sset cell) (b : bins_arg) (i : nat) : result ((Qc * Qc) * nat) :=
  match domain s with
  | None => Raise PyTypeError
  | Some dom =>
      match nth_error dom i with
      | None => Raise PyIndexError
      | Some ab => do n <- bin_number b i ; Ok (ab, n)
      end
  end.
Fixpoint each_of {A B} (f : A -> result B) (l : list A) : result (list B) :=
  match l with [] => Ok [] | x :: r => do y <- f x ; do ys <- each_of f r ; Ok (y :: ys) end.
Definition sides (s : sset cell) (b : bins_arg) : result (list ((Qc * Qc) * nat)) := each_of (side s b) (seq 0 (dim s)).
(** Lines 93-94 (163-165): the columns of the local values with the local
    probabilities as weights, on every rank.  Simplification: rows shorter than
    the dimension raise at once, not when the first missing column is read. *)
Definition point (dim : nat) (c : cell) : result (list Qc) :=
  match c with
  | Num _ => Raise PyIndexError
  | Vec l => do v <- scalars l ; if length v <? dim then Raise PyIndexError else Ok v
  end.
Definition weighted_block (dim : nat) (xp : arr cell * arr cell) : result (list (list Qc * Qc)) :=
  do x <- each_of (point dim) (rows (fst xp)) ;
  do p <- scalars (rows (snd xp)) ;
  if length x =? length p then Ok (combine x p) else Raise PyValueError.
Definition weighted_blocks (s : sset cell) : result (list (list (list Qc * Qc))) :=
  do x <- subscript (loc s Values) ;
  do p <- subscript (loc s Probabilities) ;
  each_of (weighted_block (dim s)) (combine x p).
(** np.histogram and np.histogramdd reject decreasing edges. *)
Definition increasing_edges (e : (Qc * Qc) * nat) : bool := (snd e =? 0) || qleb (fst (fst e)) (snd (fst e)).
Definition edges_of_side (e : (Qc * Qc) * nat) : list Qc := linspace (fst (fst e)) (snd (fst e)) (snd e + 1).
(** The bins, the marginals and the argument after the call.  The Allreduce of
    line 98 is part of [marginal_1D]. *)
Definition calculate_1D (P : nat) (a : post_arg) (b : bins_arg) : result (list (list Qc) * list (list Qc) * post_arg) :=
  do s <- marg_set a ;
  do s1 <- marg_local P s ;
  do es <- sides s1 b ;
  do blocks <- (if dim s1 =? 0 then Ok [] else weighted_blocks s1) ;
  if forallb increasing_edges es
  then Ok (map edges_of_side es, map (marginal_1D (map fst es) (map snd es) blocks) (seq 0 (dim s1)), marg_put a s1)
  else Raise PyValueError.

(** ** calculate_2D_marginal_probs, plotP.py:106-171 *)
(** Lines 161-162: the keys of the dictionary, in the order of insertion. *)
Definition pairs (n : nat) : list (nat * nat) := concat (map (fun i => map (fun j => (i, j)) (seq (i + 1) (n - (i + 1)))) (seq 0 n)).
Definition calculate_2D (P : nat) (a : post_arg) (b : bins_arg) : result (list (list Qc) * list ((nat * nat) * list (list Qc)) * post_arg) :=
  do s <- marg_set a ;
  do s1 <- marg_local P s ;
  if dim s1 <? 2 then Raise DimNotMatching else
  do es <- sides s1 b ;
  do blocks <- weighted_blocks s1 ;
  if forallb increasing_edges es
  then Ok (map edges_of_side es, map (fun ij => (ij, marginal_2D (map fst es) (map snd es) blocks (fst ij) (snd ij))) (pairs (dim s1)), marg_put a s1)
  else Raise PyValueError.

(** ** sort_by_rho, postTools.py:23-84, on objects *)
(** Lines 43-63: the global arrays are read.  [None > 0] and [None[...]] raise
    TypeError.  Simplification: probabilities and volumes of different lengths
    raise ValueError even if one of the lengths is 1. *)
Definition read_set (s : sset cell) (data : option (list cell)) : result (pset cell cell) :=
  do px <- subscript (glob s Probabilities) ;
  do p <- scalars (rows px) ;
  do v <- (match glob s Volumes with
           | None => Ok None
           | Some vx => do v <- scalars (rows vx) ; if length p =? length v then Ok (Some v) else Raise PyValueError
           end) ;
  do x <- subscript (glob s Values) ;
  Ok (mk_p (rows x) p v data).
(** Lines 72-82: a new set with values, probabilities and volumes only. *)
Definition write_set (s : sset cell) (p : pset cell cell) : result (sset cell) :=
  do x <- subscript (glob s Values) ;
  do s1 <- set_values (mk_arr (p_values p) (tail_shape x)) (new_sset (dim s)) ;
  Ok (set_glob Volumes (option_map vec_arr (p_vol p)) (set_glob Probabilities (Some (vec_arr (p_prob p))) s1)).
(** Line 77: set_values(None) subscripts the shape of an array without axes. *)
Definition write_data (o : sset cell) (data : option (list cell)) : result (sset cell) :=
  match glob o Values, data with
  | Some x, Some l => set_values (mk_arr l (tail_shape x)) (new_sset (dim o))
  | _, _ => Raise PyIndexError
  end.
(** Reading, calculating and writing: the frame of sort_by_rho (lines 42-82) and
    of sample_prob (lines 113-183). *)
Definition on_arrays {N} (P : nat) (f : pset cell cell -> result (N * pset cell cell * list nat)) (a : post_arg) : result (N * post_arg * list nat) :=
  match a with
  | AOther => Raise BadObject
  | ASet s =>
      do p <- read_set s None ;
      do r <- f p ;
      do s1 <- write_set s (snd (fst r)) ;
      Ok (fst (fst r), ASet s1, snd r)
  | ADisc d =>
      do i <- need (d_in d) ;
      do o <- need (d_out d) ;
      do p <- read_set i (option_map rows (glob o Values)) ;
      do r <- f p ;
      do d1 <- new_disc P (Some (new_sset (dim i))) (Some (new_sset (dim o))) None None None None ;
      do i1 <- write_set i (snd (fst r)) ;
      do o1 <- write_data o (p_data (snd (fst r))) ;
      Ok (fst (fst r), ADisc (with_out (Some o1) (with_in (Some i1) d1)), snd r)
  end.
(** [argsort] is np.argsort. *)
Definition sorted_pset (argsort : list xnum -> list nat) (p : pset cell cell) := sort_by_rho (argsort (rho (p_prob p) (p_vol p))) p.
Definition sort_object (argsort : list xnum -> list nat) (P : nat) (a : post_arg) : result (post_arg * list nat) :=
  do r <- on_arrays P (fun p => do q <- sorted_pset argsort p ; Ok (tt, fst q, snd q)) a ;
  Ok (snd (fst r), snd r).
(** postTools.py:87-185 with sort=True; without it the call always raises
    UnboundLocalError (C47). *)
Definition sample_prob_object (argsort : list xnum -> list nat) (P : nat) (percentile : Qc) (a : post_arg) (descending : bool) : result (nat * post_arg * list nat) :=
  on_arrays P (fun p => sample_prob (argsort (rho (p_prob p) (p_vol p))) percentile p true descending) a.
Definition highest_prob_object argsort P percentile a := sample_prob_object argsort P percentile a false.
Definition lowest_prob_object argsort P percentile a := sample_prob_object argsort P percentile a true.
