(** The inverse problem with some of the inputs and outputs of a run: the model
    is evaluated, columns are chosen with discretization.choose_inputs_outputs
    (bet/sample.py:2768-2817), and the problem is solved. *)
From Coq Require Import List Arith Bool QArith Qcanon.
From Verif Require Import Err Num NumPy SampleSet_Model Disc_Model Workflow_Model.
Import ListNotations.
Local Open Scope nat_scope.
Local Open Scope err_scope.

(** The call on a discretization without reference values *)
Definition choose_disc (P : nat) (ins outs : list nat) (d : disc cell) : result (disc cell) :=
  do inp <- need (d_in d) ;
  do out <- need (d_out d) ;
  do r <- choose_inputs_outputs P (Some ins) (Some outs) (mk_rset inp None tt) (mk_rset out None tt) ;
  new_disc P (Some (base (fst r))) (Some (base (snd r))) None None None None.
(** When the volumes are defined: before the model is evaluated (with set_volumes
    or estimate_volume_mc), or by estimate_volume_mc between the evaluation and
    the choice, or after the choice. *)
Inductive volumes_when := VBefore (w : volumes_by) | VBetween | VAfter.
Definition solve_chosen (nn : list cell -> cell -> nat) (P : nat) (model : arr cell -> arr cell) (v : volumes_when) (setter : bool) (ins outs : list nat)
  (s pr : sset cell) : result (disc cell) :=
  do s1 <- (match v with VBefore w => define_volumes P w s | _ => Ok s end) ;
  do d <- qoi model P true s1 ;
  do d1 <- (match v with VBetween => define_input_volumes P MonteCarlo d | _ => Ok d end) ;
  do d2 <- choose_disc P ins outs d1 ;
  do d3 <- (match v with VAfter => define_input_volumes P MonteCarlo d2 | _ => Ok d2 end) ;
  do d4 <- define_output nn P setter pr d3 ;
  prob_disc nn P true d4.
