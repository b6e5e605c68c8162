(** Probabilities moved from one stored sample set to another
    (bet/calculateP/calculateP.py).  The formulas on lists are in Prob_Model; here
    the arrays are read from the sets and stored in them.  The two sets are different
    objects. *)
From Coq Require Import List Arith Bool QArith Qcanon.
From Verif Require Import Err Num NumPy SampleSet_Model Prob_Model Disc_Model Workflow_Model ErrorDisc_Model.
Import ListNotations.
Local Open Scope nat_scope.
Local Open Scope err_scope.

Section Moved.
Context (nn : list cell -> cell -> nat) (P : nat).

(** lines 236-243 and 287-294: the local probabilities of the old points are only
    read if there is a new cell; None cannot be subscripted. *)
Definition cell_sums (num_new : nat) (ptr : list (list nat)) (old : sset cell) : result (list Qc) :=
  if num_new =? 0 then Ok []
  else do p <- subscript (loc old Probabilities) ;
       do ps <- scalar_blocks p ;
       transfer num_new ptr ps.
(** lines 208-248 prob_from_sample_set: the two sets after the call and the result *)
Definition transfer_set (old new : sset cell) : result (sset cell * sset cell * list Qc) :=
  do _ <- check_num P old ;
  do num_new <- check_num P new ;
  if negb (dim old =? dim new) then Raise DimNotMatching else
  do old1 <- localized P old ;
  do xs <- loc_values old1 ;
  do q <- query_blocks nn P xs new ;
  do r <- cell_sums num_new (fst q) old1 ;
  Ok (old1, set_glob Probabilities (Some (vec_arr r)) (snd q), r).
(** lines 251-299 prob_from_discretization_input: the discretization and the new
    set after the call and the result *)
Definition transfer_disc (d : disc cell) (new : sset cell) : result (disc cell * sset cell * list Qc) :=
  do em <- (match d_ein d with None => need (d_in d) | Some e => Ok e end) ;
  do em1 <- localized P em ;
  let d1 := match d_ein d with None => with_in (Some em1) d | Some _ => with_ein (Some em1) d end in
  do _ <- need (loc em1 Probabilities) ;
  do _ <- check_nums P d1 ;
  do num_new <- check_num P new ;
  do inp <- need (d_in d1) ;
  if negb (dim inp =? dim new) then Raise DimNotMatching else
  do xs <- loc_values em1 ;
  do q <- query_blocks nn P xs new ;
  do r <- cell_sums num_new (fst q) em1 ;
  Ok (d1, set_glob Probabilities (Some (vec_arr r)) (snd q), r).

(** lines 109-133 prob_with_emulated_volumes, with estimate_input_volume_emulated
    (bet/sample.py:2689-2704; the volumes as in ErrorDisc_Model) *)
Definition prob_with_points (d : disc cell) : result (disc cell) :=
  do _ <- check_nums P d ;
  do pr <- need (d_prob d) ;
  do _ <- check_num P pr ;
  do pr1 <- localized P pr ;
  do em <- need (d_ein d) ;
  do inp <- need (d_in d) ;
  do r <- emulated_volumes nn P inp em ;
  prob_disc nn P true (with_ein (Some (snd r)) (with_in (Some (fst r)) (with_prob (Some pr1) d))).
End Moved.
(** A model evaluation, output probabilities and emulated samples as in
    Emulated_Model, then prob_with_emulated_volumes. *)
Definition solve_with_points (nn : list cell -> cell -> nat) (P : nat) (model : arr cell -> arr cell) (setter : bool) (s pr em : sset cell) : result (disc cell) :=
  do d <- qoi model P true s ;
  do d1 <- define_output nn P setter pr d ;
  do d2 <- done (set_emulated_input em d1) ;
  prob_with_points nn P d2.
