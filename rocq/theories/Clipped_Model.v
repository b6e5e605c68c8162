(** The inverse problem with the first samples of a run: discretization.clip
    (bet/sample.py:2724-2742) after the model evaluations, after the definition of
    the output probabilities, or after a first solution. *)
From Coq Require Import List Arith Bool QArith Qcanon.
From Verif Require Import Err Num NumPy SampleSet_Model Disc_Model Workflow_Model.
Import ListNotations.
Local Open Scope nat_scope.
Local Open Scope err_scope.

Inductive clip_when := ClipEvaluated | ClipReady | ClipSolved.
(** [solve] of Workflow_Model with the clip *)
Definition solve_clipped (nn : list cell -> cell -> nat) (P c : nat) (k : clip_when) (model : arr cell -> arr cell) (w : volumes_by) (before setter : bool)
  (s pr : sset cell) : result (disc cell) :=
  do s1 <- (if before then define_volumes P w s else Ok s) ;
  do d <- qoi model P true s1 ;
  do d1 <- (if before then Ok d else define_input_volumes P w d) ;
  match k with
  | ClipEvaluated =>
      do e <- clip_disc P c d1 ;
      do d2 <- define_output nn P setter pr e ;
      prob_disc nn P true d2
  | ClipReady =>
      do d2 <- define_output nn P setter pr d1 ;
      do e <- clip_disc P c d2 ;
      prob_disc nn P true e
  | ClipSolved =>
      do d2 <- define_output nn P setter pr d1 ;
      do d3 <- prob_disc nn P true d2 ;
      do e <- clip_disc P c d3 ;
      prob_disc nn P true e
  end.
(** The clip of the solution without a second calculation *)
Definition clip_solved (nn : list cell -> cell -> nat) (P c : nat) (model : arr cell -> arr cell) (w : volumes_by) (before setter : bool) (s pr : sset cell) : result (disc cell) :=
  do d <- solve nn P model w before setter s pr ;
  clip_disc P c d.
