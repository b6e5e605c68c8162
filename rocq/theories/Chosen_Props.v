From Coq Require Import List Arith QArith Qcanon.
From Verif Require Import Err Num NumPy SampleSet_Model SampleSet_Spec Disc_Model Disc_Spec Disc_Examples Prob_Spec Workflow_Model Workflow_Spec Workflow_Examples Chosen_Model Chosen_Spec Chosen_Proofs Chosen_Examples Show.
Import ListNotations.
Local Open Scope nat_scope.

(** C182: QoIs chosen after the model was evaluated. *)
Theorem chosen_same_solution_partial : forall nn P d o g model dom dom' ins outs xs ys probs setter, choice P d o g model dom ins outs xs ys probs ->
  forall P' model' before setter' dom'', 0 < P' -> row_model d (length outs) (fun x => only outs (g x)) model' ->
  let r := solve_chosen nn P model VAfter setter ins outs (values_set d dom xs) (probability_set (length outs) dom' ys probs) in
  exists q, global_probabilities r = Some (map Num q) /\ sample_of r = Some (map (only ins) xs) /\
    q = solution (fun x => nn ys (only outs (g x))) probs (combine xs (volume_list MonteCarlo (length xs))) /\
    global_probabilities (solve nn P' model' MonteCarlo before setter' (values_set d dom'' xs) (probability_set (length outs) dom' ys probs)) = Some (map Num q).
Proof. intros. apply chosen_solution with (o := o); assumption. Qed.
Print Assumptions chosen_same_solution_partial.
(** Volumes defined before the choice are lost. *)
Theorem chosen_volumes_refuted : forall nn P d o g model dom dom' ins outs xs ys probs v setter, choice P d o g model dom ins outs xs ys probs ->
  v <> VAfter -> (forall w u, v = VBefore w -> w = Given u -> length u = length xs) -> (exists p, In p probs /\ (0 < p)%Qc) ->
  solve_chosen nn P model v setter ins outs (values_set d dom xs) (probability_set (length outs) dom' ys probs) = Raise PyTypeError.
Proof. intros. apply chosen_lost with (o := o) (g := g); assumption. Qed.
Print Assumptions chosen_volumes_refuted.
Example chosen_case : choice 2 2 3 three_outputs three_model square [1] [2] plane two thirds /\ row_model 2 1 (fun x => only [2] (three_outputs x)) one_model /\ (exists p, In p thirds /\ (0 < p)%Qc) /\
  show_global (solve_chosen near 2 three_model VAfter true [1] [2] (values_set 2 square plane) (probability_set 1 None two thirds)) =
    show_global (solve near 3 one_model MonteCarlo true false (values_set 2 None plane) (probability_set 1 None two thirds)) /\
  show_global (solve near 3 one_model MonteCarlo true false (values_set 2 None plane) (probability_set 1 None two thirds)) <> None /\
  show_rows (solve_chosen near 2 three_model VAfter true [1] [2] (values_set 2 square plane) (probability_set 1 None two thirds)) = Some [[1]; [3 # 4]; [1 # 4]; [2 # 3]; [0]]%Q /\
  solve_chosen near 2 three_model (VBefore (Given five_volumes)) true [1] [2] (values_set 2 square plane) (probability_set 1 None two thirds) = Raise PyTypeError.
Proof.
  split; [apply plane_choice; repeat constructor|]. split; [intros b; reflexivity|]. split; [eexists; split; [left; reflexivity|reflexivity]|].
  split; [vm_compute; reflexivity|]. split; [vm_compute; discriminate|]. split; vm_compute; reflexivity.
Qed.
