(** Two batches of samples, each with its own model evaluations, merged into
    one discretization.  The input sets and the output sets are merged with
    voronoi_sample_set.merge (bet/sample.py:1789-1826); discretization.merge
    does the same (lines 2744-2766) but needs emulated sets as well (C100). *)
From Coq Require Import List Arith Bool QArith Qcanon.
From Verif Require Import Err Num NumPy SampleSet_Model Disc_Model Workflow_Model.
Import ListNotations.
Local Open Scope nat_scope.
Local Open Scope err_scope.

Definition batches (P : nat) (model : arr cell -> arr cell) (s t : sset cell) : result (disc cell) :=
  do d <- qoi model P true s ;
  do e <- qoi model P true t ;
  do mi <- merge_opt P (d_in d) (d_in e) ;
  do mo <- merge_opt P (d_out d) (d_out e) ;
  new_disc P (Some mi) (Some mo) None None None None.
(** The inverse problem on the merged samples, as [solve] in Workflow_Model.
    [globalize] is the argument of estimate_volume_mc. *)
Definition solve_batches (nn : list cell -> cell -> nat) (P : nat) (model : arr cell -> arr cell) (globalize setter : bool)
  (s t pr : sset cell) : result (disc cell) :=
  do d <- batches P model s t ;
  do inp <- need (d_in d) ;
  do inp1 <- estimate_mc P globalize inp ;
  do d2 <- define_output nn P setter pr (with_in (Some inp1) d) ;
  prob_disc nn P true d2.
