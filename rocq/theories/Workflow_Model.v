(** The steps of a measure-based inversion, one after the other on P processes:
    samples, model evaluation, volumes, output probabilities, prob.  The sample
    sets and discretizations are those of SampleSet_Model and Disc_Model. *)
From Coq Require Import List Arith Bool QArith Qcanon.
From Verif Require Import Err Num NumPy SampleSet_Model Prob_Model Disc_Model.
Import ListNotations.
Local Open Scope nat_scope.
Local Open Scope err_scope.

(** bet/sample.py:1312-1323 estimate_volume_mc.  1.0 / float(0) raises. *)
Fixpoint each_rank {A} (f : nat -> result A) (rs : list nat) : result (list A) :=
  match rs with
  | [] => Ok []
  | r :: rest => do x <- f r ; do xs <- each_rank f rest ; Ok (x :: xs)
  end.
(** One rank without globalize; np.ones((None,)) raises TypeError if there is no
    local array. *)
Definition mc_block (s : sset cell) (num r : nat) : result (arr cell) :=
  do k <- check_num_local s r ;
  if num =? 0 then Raise PyZeroDivision else
  match k with
  | Some n => Ok (vec_arr (repeat (1 / qn num)%Qc n))
  | None => Raise PyTypeError
  end.
Definition estimate_mc (P : nat) (globalize : bool) (s : sset cell) : result (sset cell) :=
  do num <- check_num P s ;
  if globalize
  then if num =? 0 then Raise PyZeroDivision
       else global_to_local P (set_glob Volumes (Some (vec_arr (repeat (1 / qn num)%Qc num))) s)
  else do v <- each_rank (mc_block s num) (seq 0 P) ;
       Ok (set_loc Volumes (Some v) s).

(** bet/sampling/basicSampling.py:458-532 compute_qoi_and_create_discretization
    for a model without error estimates and Jacobians that returns an array,
    without reference value (C120) and without file.  The output dimension is
    found on every rank from the shape of its block (lines 484-487);
    simplification: ranks with different output dimensions, which the code only
    notices when it joins the blocks, raise ValueError here. *)
Definition output_dim (b : arr cell) : nat := match tail_shape b with [] => 1 | w :: _ => w end.
(** bet/util.py:133-149 in set_values_local: one column of numbers for a
    one-dimensional array. *)
Definition two_d (b : arr cell) : arr cell :=
  match tail_shape b with [] => mk_arr (map (fun c => Vec [c]) (rows b)) [1] | _ => b end.
Definition qoi (model : arr cell -> arr cell) (P : nat) (globalize : bool) (s : sset cell) : result (disc cell) :=
  do s1 <- localized P s ;
  do bs <- loc_values s1 ;
  let out := map model bs in
  match out with
  | [] => Raise PyValueError
  | b :: _ =>
      if forallb (fun c => output_dim c =? output_dim b) out
      then do o <- set_values_local (map two_d out) (new_sset (output_dim b)) ;
           if globalize
           then do s2 <- local_to_global s1 ;
                do o2 <- local_to_global o ;
                new_disc P (Some s2) (Some o2) None None None None
           else new_disc P (Some (set_glob Values None s1)) (Some o) None None None None
      else Raise PyValueError
  end.

(** How the volumes of the input set are defined: estimate_volume_mc, or
    set_volumes (bet/sample.py:853-861) with an array. *)
Inductive volumes_by := MonteCarlo | Given (v : list Qc).
Definition define_volumes (P : nat) (w : volumes_by) (s : sset cell) : result (sset cell) :=
  match w with
  | MonteCarlo => estimate_mc P true s
  | Given v => Ok (set_glob Volumes (Some (vec_arr v)) s)
  end.
Definition define_input_volumes (P : nat) (w : volumes_by) (d : disc cell) : result (disc cell) :=
  do s <- need (d_in d) ;
  do s1 <- define_volumes P w s ;
  Ok (with_in (Some s1) d).
(** How the output probability set gets into the discretization: by a function
    of simpleFunP, or by set_output_probability_set. *)
Definition define_output (nn : list cell -> cell -> nat) (P : nat) (setter : bool) (pr : sset cell) (d : disc cell) : result (disc cell) :=
  if setter then done (set_probability nn P pr d) else store_output_probability nn P pr d.

(** The whole calculation; [before] says whether the volumes are defined before
    or after the model is evaluated. *)
Definition solve (nn : list cell -> cell -> nat) (P : nat) (model : arr cell -> arr cell) (w : volumes_by) (before setter : bool)
  (s pr : sset cell) : result (disc cell) :=
  do s1 <- (if before then define_volumes P w s else Ok s) ;
  do d <- qoi model P true s1 ;
  do d1 <- (if before then Ok d else define_input_volumes P w d) ;
  do d2 <- define_output nn P setter pr d1 ;
  prob_disc nn P true d2.
(** The same without global arrays: globalize=False in every call. *)
Definition solve_local (nn : list cell -> cell -> nat) (P : nat) (model : arr cell -> arr cell) (setter : bool) (s pr : sset cell) : result (disc cell) :=
  do d <- qoi model P false s ;
  do inp <- need (d_in d) ;
  do inp1 <- estimate_mc P false inp ;
  do d2 <- define_output nn P setter pr (with_in (Some inp1) d) ;
  prob_disc nn P false d2.
