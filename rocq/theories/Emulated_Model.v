(** The inverse problem on emulated samples, from the evaluation of the model to
    calculateP.prob_on_emulated_samples (bet/calculateP/calculateP.py:21-64). *)
From Coq Require Import List Arith Bool QArith Qcanon.
From Verif Require Import Err Num NumPy SampleSet_Model Disc_Model Workflow_Model.
Import ListNotations.
Local Open Scope nat_scope.
Local Open Scope err_scope.

(** Between the definition of the output probabilities and the calculation the
    user may do nothing, call set_io_ptr(globalize=True) (bet/sample.py:2378-2394)
    or globalize_ptrs (lines 2362-2376). *)
Inductive repair := Nothing | NewPointers | GlobalizePointers.
(** The output probability set and the emulated samples are given to the
    constructor of a new discretization (bet/sample.py:2250-2303), or stored in the
    discretization of the evaluation ([setter]: with set_output_probability_set,
    else by one of the functions of simpleFunP). *)
Inductive assembled := Constructed | Stored (setter : bool) (r : repair).
Definition solve_emulated (nn : list cell -> cell -> nat) (P : nat) (model : arr cell -> arr cell) (k : assembled) (s pr em : sset cell) : result (disc cell) :=
  do d <- qoi model P true s ;
  match k with
  | Constructed =>
      do e <- new_disc P (d_in d) (d_out d) (Some pr) (Some em) None None ;
      emulated_disc nn P true e
  | Stored setter r =>
      do d1 <- define_output nn P setter pr d ;
      do d2 <- done (set_emulated_input em d1) ;
      do d3 <- (match r with Nothing => Ok d2 | NewPointers => set_io_ptr nn P true d2 | GlobalizePointers => Ok (globalize_ptrs d2) end) ;
      emulated_disc nn P true d3
  end.
