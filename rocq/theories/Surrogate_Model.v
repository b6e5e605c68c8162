(** bet/surrogates.py, class piecewise_polynomial_surrogate, on stored
    discretizations and P processes.  Sampling_Model has the formulas on lists,
    ErrorDisc_Model the error estimates.

    Simplifications: sets are values, as in Disc_Model; the set given by the user
    (input_sample_set, s_set) is not one of the sets of the given discretization;
    p_norm is left out; the error identifiers, which may be infinite, are kept
    beside the sets and not among their arrays, and the set given to
    generate_for_input_set has none; a call that raises ends the run. *)
From Coq Require Import List Arith Bool QArith Qcanon.
From Verif Require Import Err Num Ext NumPy SampleSet_Model Prob_Model Disc_Model Workflow_Model Error_Model ErrorDisc_Model.
From Verif Require Sampling_Model.
Import ListNotations.
Local Open Scope nat_scope.
Local Open Scope err_scope.

(** The object: input_disc, _emulated_ii_ptr_local of dummy_disc,
    surrogate_discretization with the array _error_id_local of its input set, and
    the array _error_id of the input set of input_disc. *)
Record surrogate := mk_sur {
  u_disc : disc cell;
  u_ptr : option (list (list nat));
  u_new : option (disc cell);
  u_ids : option (list (list xnum));
  u_base_ids : option (list xnum) }.

Section Surrogate.
Context (nn : list cell -> cell -> nat) (P : nat).

(** lines 19-35 __init__ *)
Definition gathered (o : option (sset cell)) : result (sset cell) := do s <- need o ; local_to_global s.
Definition new_surrogate (d : disc cell) : result surrogate :=
  do _ <- check_nums P d ;
  do inp <- gathered (d_in d) ;
  do out <- gathered (d_out d) ;
  Ok (mk_sur (with_out (Some out) (with_in (Some inp) d)) None None None None).

(** lines 64-67, with set_domain (bet/sample.py:830-841) *)
Definition given_domain (inp s : sset cell) : result (sset cell) :=
  match domain s, domain inp with
  | None, Some dom =>
      if length dom =? dim s
      then Ok (mk_sset (dim s) (glob s) (loc s) (local_index s) (kd s) (Some dom) (weights s))
      else Raise DimNotMatching
  | _, _ => Ok s
  end.

(** a[ptr] on every rank for an array a of the set *)
Definition look_up (o : option (arr cell)) (ptr : list (list nat)) : result (list (arr cell)) :=
  do a <- subscript o ;
  do r <- fancy (rows a) ptr ;
  Ok (map (fun b => mk_arr b (tail_shape a)) r).

(** lines 94-102 for one sample: value z and Jacobian J of the old sample xp, new
    sample x.  np.einsum needs matching shapes (ValueError). *)
Fixpoint vectors (l : list cell) : result (list (list Qc)) :=
  match l with
  | [] => Ok []
  | Vec v :: r => do q <- scalars v ; do qs <- vectors r ; Ok (q :: qs)
  | Num _ :: _ => Raise PyValueError
  end.
Definition vector (c : cell) : result (list Qc) := match c with Vec v => scalars v | Num _ => Raise PyValueError end.
Definition matrix (c : cell) : result (list (list Qc)) := match c with Vec v => vectors v | Num _ => Raise PyValueError end.
Definition linear_row (z J xp x : cell) : result cell :=
  do zs <- vector z ;
  do js <- matrix J ;
  do a <- vector xp ;
  do b <- vector x ;
  if (length js =? length zs) && (length a =? length b) && forallb (fun r => length r =? length a) js
  then Ok (Vec (map Num (Sampling_Model.vadd zs (map (fun r => Sampling_Model.dot r (Sampling_Model.vminus a b)) js))))
  else Raise PyValueError.
Fixpoint linear_rows (zs Js xps xs : list cell) : result (list cell) :=
  match zs, Js, xps, xs with
  | [], [], [], [] => Ok []
  | z :: zr, J :: Jr, a :: ar, x :: xr => do y <- linear_row z J a x ; do ys <- linear_rows zr Jr ar xr ; Ok (y :: ys)
  | _, _, _, _ => Raise PyValueError
  end.
Fixpoint linear_blocks (zs Js xps xs : list (arr cell)) : result (list (arr cell)) :=
  match zs, Js, xps, xs with
  | [], [], [], [] => Ok []
  | z :: zr, J :: Jr, a :: ar, x :: xr =>
      do y <- linear_rows (rows z) (rows J) (rows a) (rows x) ;
      do ys <- linear_blocks zr Jr ar xr ;
      Ok (mk_arr y (tail_shape z) :: ys)
  | _, _, _, _ => Raise PyValueError
  end.
(** lines 86-93: Jacobians that are only local are gathered *)
Definition with_jacobians (d : disc cell) : result (disc cell) :=
  do inp <- need (d_in d) ;
  match glob inp Jacobians, loc inp Jacobians with
  | None, None => Raise WrongArgumentType
  | None, Some _ => do inp1 <- local_to_global inp ; Ok (with_in (Some inp1) d)
  | Some _, _ => Ok d
  end.

(** lines 37-116 generate_for_input_set.  The result holds the set of the user as
    it is after the call (localized, with a domain). *)
Definition generate (order : nat) (s : sset cell) (u : surrogate) : result surrogate :=
  if negb ((order =? 0) || (order =? 1)) then Raise WrongArgumentType else
  do _ <- check_num P s ;
  do inp <- need (d_in (u_disc u)) ;
  if negb (dim s =? dim inp) then Raise DimNotMatching else
  do s1 <- given_domain inp s ;
  do out <- need (d_out (u_disc u)) ;
  do dummy <- done (set_emulated_input s1 (u_disc u)) ;
  do dummy1 <- set_ii_ptr nn P false dummy ;
  do ptr <- subscript (ii_loc dummy1) ;
  do s2 <- need (d_ein dummy1) ;
  do r <- (if order =? 0 then do z <- look_up (glob out Values) ptr ; Ok (u_disc u, z)
           else do d <- with_jacobians (u_disc u) ;
                do inp1 <- need (d_in d) ;
                do J <- look_up (glob inp1 Jacobians) ptr ;
                do a <- look_up (glob inp1 Values) ptr ;
                do x <- loc_values s2 ;
                do z <- look_up (glob out Values) ptr ;
                do y <- linear_blocks z J a x ;
                Ok (d, y)) ;
  do o1 <- set_values_local (snd r) (new_sset (dim out)) ;
  do o2 <- (match glob out ErrorEstimates with
            | None => Ok o1
            | Some e => do es <- look_up (Some e) ptr ; Ok (set_loc ErrorEstimates (Some es) o1)
            end) ;
  do new <- new_disc P (Some s2) (Some o2) (d_prob (fst r)) None None None ;
  Ok (mk_sur (fst r) (Some ptr) (Some new) None (u_base_ids u)).

(** bet/calculateP/calculateP.py:209-248 prob_from_sample_set: the new
    probabilities and both sets afterwards *)
Definition prob_from_set (old new : sset cell) : result (list Qc * sset cell * sset cell) :=
  do _ <- check_num P old ;
  do num_new <- check_num P new ;
  if negb (dim old =? dim new) then Raise DimNotMatching else
  do old1 <- localized P old ;
  do xs <- loc_values old1 ;
  do q <- query_blocks nn P xs new ;
  do p <- (if num_new =? 0 then Ok []
           else do bs <- subscript (loc old1 Probabilities) ;
                do ps <- scalar_blocks bs ;
                transfer num_new (fst q) ps) ;
  Ok (p, old1, set_glob Probabilities (Some (vec_arr p)) (snd q)).

(** line 155: np.equal(s_set._region, region); without regions nothing is marked *)
Definition marked_sum (s_set : sset cell) (p : list Qc) (region : Qc) : result Qc :=
  match glob s_set Region with
  | None => Ok 0%Qc
  | Some x =>
      do labels <- scalars (rows x) ;
      if length labels =? length p
      then Ok (qsum (map snd (filter (fun e => qeqb (fst e) region) (combine labels p))))
      else Raise PyIndexError
  end.

(** lines 154-165: the loop over the regions; the surrogate discretization is the
    one of every model_error object *)
Fixpoint region_loop (s_set : sset cell) (p : list Qc) (regions : list Qc) (d : disc cell) (ids : option (list (list xnum)))
  : result (list (Qc * xnum) * disc cell * option (list (list xnum))) :=
  match regions with
  | [] => Ok ([], d, ids)
  | r :: rest =>
      do pr <- marked_sum s_set p r ;
      do m <- new_model_error nn P d ;
      do e <- region_mc nn P s_set r m ;
      do t <- region_loop s_set p rest (me_disc (snd e)) (Some (snd (fst e))) ;
      Ok ((pr, fst (fst e)) :: fst (fst t), snd (fst t), snd t)
  end.

(** lines 167-181: sums over the new samples in every old cell *)
Definition pull (num : nat) (ptr : list (list nat)) (vals : list (list xnum)) : result (list xnum) :=
  do blocks <- zip_blocks ptr vals ;
  Ok (map (fun i => xsum (map (xlocal_sum i) blocks)) (seq 0 num)).
Definition pull_probs (num : nat) (ptr : list (list nat)) (vals : list (list Qc)) : result (list Qc) :=
  do blocks <- zip_blocks ptr vals ;
  Ok (map (fun i => cell_sum i blocks) (seq 0 num)).
Definition update_base (d : disc cell) (u : surrogate) (ids : option (list (list xnum))) : result surrogate :=
  do base <- need (d_in (u_disc u)) ;
  do num <- check_num P base ;
  if num =? 0
  then Ok (mk_sur (with_in (Some (set_glob Probabilities (Some (vec_arr [])) base)) (u_disc u)) (u_ptr u) (Some d) ids (Some []))
  else
    do ptr <- subscript (u_ptr u) ;
    do inp <- need (d_in d) ;
    do bs <- subscript (loc inp Probabilities) ;
    do ps <- scalar_blocks bs ;
    do p <- pull_probs num ptr ps ;
    do es <- subscript ids ;
    do e <- pull num ptr es ;
    Ok (mk_sur (with_in (Some (set_glob Probabilities (Some (vec_arr p)) base)) (u_disc u)) (u_ptr u) (Some d) ids (Some e)).

(** lines 118-183 calculate_prob_for_sample_set_region: the pairs (probability,
    error estimate), s_set afterwards, and the object *)
Definition region_probabilities (s_set : sset cell) (regions : list Qc) (update : bool) (u : surrogate)
  : result (list (Qc * xnum) * sset cell * surrogate) :=
  do d <- (match u_new u with None => Raise WrongArgumentType | Some d => Ok d end) ;
  do inp <- need (d_in d) ;
  do d1 <- (match loc inp Volumes with
            | None => do inp1 <- estimate_mc P false inp ; Ok (with_in (Some inp1) d)
            | Some _ => Ok d
            end) ;
  do d2 <- prob_disc nn P false d1 ;
  do inp2 <- need (d_in d2) ;
  do t <- prob_from_set inp2 s_set ;
  let d3 := with_in (Some (snd (fst t))) d2 in
  do l <- region_loop (snd t) (fst (fst t)) regions d3 (u_ids u) ;
  do u1 <- (if update then update_base (snd (fst l)) u (snd l)
            else Ok (mk_sur (u_disc u) (u_ptr u) (Some (snd (fst l))) (snd l) (u_base_ids u))) ;
  Ok (fst (fst l), snd t, u1).
End Surrogate.
