(** bet/calculateP/simpleFunP.py: how the arguments of the simple function
    approximations are interpreted (lines 23-130, 168-230, 302-307, 385-403,
    498-510, 586-622, 687-712). *)
From Coq Require Import List Arith Bool QArith Qcanon.
From Verif Require Import Err Num Ext Volume_Model Query_Model SimpleFun_Model Bounds_Model.
Import ListNotations.
Local Open Scope nat_scope.
Local Open Scope err_scope.

(** The first argument: a sample set (dimension, reference value, values), a
    discretization (the same of its output set), a two-dimensional array with
    this number of columns, or anything else.  The consistency checks
    check_num and check_nums are taken to have passed. *)
Inductive data_arg :=
| DSet (d : nat) (ref : option pt) (values : list pt)
| DDisc (d : nat) (ref : option pt) (values : list pt)
| DArray (cols : nat) (values : list pt)
| DOther.

(** A numerical argument: a Python int or float (numpy.float64 is one), another
    number that is not iterable (numpy.int64), a list or tuple, a
    one-dimensional array, or None. *)
Inductive num_arg := NNum (q : Qc) | NNpInt (q : Qc) | NList (l : list Qc) | NArr (l : list Qc) | NNone.

(** lines 23-45 check_type.  None becomes an array holding None, which
    np.random.normal rejects with TypeError. *)
Definition check_type (v : num_arg) (data : data_arg) : result (list Qc) :=
  let dim := match data with DSet d _ _ => d | DDisc d _ _ => d | _ => 1 end in
  match v with
  | NNum q => Ok (repeat q dim)
  | NList l => if length l =? dim then Ok l else Raise DimNotMatching
  | NNpInt q => Ok [q]
  | NArr l => Ok l
  | NNone => Raise PyTypeError
  end.

(** lines 48-57 infer_Q *)
Definition infer_Q (data : data_arg) : num_arg :=
  let of_ref r := match r with Some l => NArr l | None => NNone end in
  match data with
  | DSet _ r _ => of_ref r
  | DDisc _ r _ => of_ref r
  | _ => NNone
  end.
Definition given_or_inferred (Q : num_arg) (data : data_arg) : num_arg :=
  match Q with NNone => infer_Q data | _ => Q end.

(** lines 60-95 check_inputs: dimension, values and reference value. *)
Definition check_inputs (data : data_arg) (Q : num_arg) : result (nat * list pt * num_arg) :=
  match data with
  | DSet d r vs =>
      match Q, r with
      | NNone, None => Raise WrongArgumentType
      | NNone, Some l => Ok (d, vs, NArr l)
      | _, _ => Ok (d, vs, Q)
      end
  | DDisc d r vs =>
      match Q, r with
      | NNone, None => Raise WrongArgumentType
      | NNone, Some _ => Raise PyAttributeError   (* data_set._reference_value, line 83 *)
      | _, _ => Ok (d, vs, Q)
      end
  | DArray d vs => match Q with NNone => Raise WrongArgumentType | _ => Ok (d, vs, Q) end
  | DOther => Raise WrongArgumentType
  end.

(** lines 586-622 and 687-712: the mean and the standard deviation used for each
    coordinate of the drawn points, for i in range(len(Q_ref)).  std[i] out of
    range raises IndexError.  Simplification: a std that is longer than Q_ref
    raises ValueError (from scipy's pdf in the first function, from a broadcast
    in the second one unless Q_ref has length one). *)
Fixpoint index_pairs (Q std : list Qc) : result (list (Qc * Qc)) :=
  match Q, std with
  | [], _ => Ok []
  | _ :: _, [] => Raise PyIndexError
  | q :: Q', s :: std' => do r <- index_pairs Q' std' ; Ok ((q, s) :: r)
  end.
Definition normal_parameters (data : data_arg) (Q std : num_arg) : result (list (Qc * Qc)) :=
  do q <- check_type (given_or_inferred Q data) data ;
  do s <- check_type std data ;
  if length q <? length s then Raise PyValueError else index_pairs q s.

(** lines 173-179, 392-398: the side lengths. *)
Definition rect_sizes (size : num_arg) (dim : nat) : result (list Qc) :=
  do l <- (match size with
           | NNone => Raise WrongArgumentType
           | NNum q => Ok (repeat q dim)
           | NNpInt q => Ok (repeat q dim)
           | NList l => Ok l
           | NArr l => Ok l
           end) ;
  if existsb (fun s => qleb s 0) l then Raise WrongArgumentType else Ok l.
(** Q_ref as used in Q_ref + (array of dim columns): a number is broadcast.
    Simplification: arrays of another length than dim are rejected (numpy
    broadcasts length one). *)
Definition center_of (Q : num_arg) (dim : nat) : result (list Qc) :=
  match Q with
  | NNum q => Ok (repeat q dim)
  | NNpInt q => Ok (repeat q dim)
  | NList l => if length l =? dim then Ok l else Raise PyValueError
  | NArr l => if length l =? dim then Ok l else Raise PyValueError
  | NNone => Raise PyTypeError
  end.
(** k * rect_size * (u - 0.5) + Q_ref for one point u of the unit cube. *)
Definition rect_point (k : Qc) (size Q u : list Qc) : pt :=
  map (fun p => (k * fst (fst p) * (snd p - half) + snd (fst p))%Qc) (combine (combine size Q) u).
Definition three_halves : Qc := Q2Qc (3 # 2).

(** lines 168-230, uniform_partition_uniform_distribution_rectangle_size: the
    centers of the bins and the points that are binned, from uniform draws.
    1.5 * list raises TypeError (on rank 0; the others wait in Bcast). *)
Definition uniform_rectangle (data : data_arg) (Q size : num_arg) (us_bins us_points : list pt)
  : result (list pt * list pt) :=
  do i <- check_inputs data (given_or_inferred Q data) ;
  let '(dim, vs, Q') := i in
  do sz <- rect_sizes size dim ;
  do _ <- (match size with NList _ => Raise PyTypeError | _ => Ok tt end) ;
  do c <- center_of Q' dim ;
  if length sz =? dim
  then Ok (map (rect_point three_halves sz c) us_bins, map (rect_point 1%Qc sz c) us_points)
  else Raise PyValueError.

(** lines 385-412: the arguments of the regular partition (a number of cells is
    used in every direction). *)
Definition regular_rectangle (data : data_arg) (Q size : num_arg) (cells : nat + list nat) : result (rset * list xnum) :=
  do i <- check_inputs data (given_or_inferred Q data) ;
  let '(dim, vs, Q') := i in
  do sz <- rect_sizes size dim ;
  do c <- center_of Q' dim ;
  regular_partition dim c sz (match cells with inl n => repeat n dim | inr l => l end).

(** lines 302-307 and 498-510: rect_size = (max - min) * rect_scale, an array.
    np.max of no rows raises ValueError. *)
Definition scaled_sizes (vs : list pt) (scale : num_arg) : result num_arg :=
  match vs with
  | [] => Raise PyValueError
  | r :: l =>
      let range := map (fun p => (snd p - fst p)%Qc) (combine (col_min r l) (col_max r l)) in
      do s <- center_of scale (length range) ;
      Ok (NArr (map (fun p => (fst p * snd p)%Qc) (combine range s)))
  end.
Definition uniform_rectangle_scaled (data : data_arg) (Q scale : num_arg) us_bins us_points : result (list pt * list pt) :=
  do i <- check_inputs data (given_or_inferred Q data) ;
  let '(dim, vs, Q') := i in
  do sz <- scaled_sizes vs scale ;
  uniform_rectangle data Q' sz us_bins us_points.
Definition regular_rectangle_scaled (data : data_arg) (Q scale : num_arg) cells : result (rset * list xnum) :=
  do i <- check_inputs data (given_or_inferred Q data) ;
  let '(dim, vs, Q') := i in
  do sz <- scaled_sizes vs scale ;
  regular_rectangle data Q' sz cells.

(** lines 348-358 and 455-464: a rectangle given by an array of numbers;
    fix_dimensions_data(rect_domain, dim) transposes it unless it has dim
    columns; center and lengths of its columns.  [rows] has at least one row,
    all of the same length. *)
Definition transpose_rows (rows : list (list Qc)) : list (list Qc) :=
  map (fun j => map (fun r => nth j r 0%Qc) rows) (seq 0 (length (hd [] rows))).
Definition orient (rows : list (list Qc)) (dim : nat) : list (list Qc) :=
  if length (hd [] rows) =? dim then rows else transpose_rows rows.
Definition col_mean (rows : list (list Qc)) : list Qc :=
  map (fun j => (qsum (map (fun r => nth j r 0%Qc) rows) / qn (length rows))%Qc) (seq 0 (length (hd [] rows))).
Definition check_inputs_no_reference (data : data_arg) : result nat :=
  match data with
  | DSet d _ _ => Ok d
  | DDisc d _ _ => Ok d
  | DArray d _ => Ok d
  | DOther => Raise WrongArgumentType
  end.
Definition domain_arguments (data : data_arg) (rows : list (list Qc)) : result (num_arg * num_arg) :=
  do dim <- check_inputs_no_reference data ;
  match orient rows dim with
  | [] => Raise PyValueError
  | r :: l => Ok (NArr (col_mean (r :: l)),
                  NArr (map (fun p => (snd p - fst p)%Qc) (combine (col_min r l) (col_max r l))))
  end.
Definition uniform_rectangle_domain (data : data_arg) (rows : list (list Qc)) us_bins us_points : result (list pt * list pt) :=
  do p <- domain_arguments data rows ; uniform_rectangle data (fst p) (snd p) us_bins us_points.
Definition regular_rectangle_domain (data : data_arg) (rows : list (list Qc)) cells : result (rset * list xnum) :=
  do p <- domain_arguments data rows ; regular_rectangle data (fst p) (snd p) cells.
