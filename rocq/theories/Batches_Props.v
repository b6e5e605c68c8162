From Coq Require Import List Arith QArith Qcanon Lia Permutation.
From Verif Require Import Err Num NumPy SampleSet_Model SampleSet_Spec Disc_Model Prob_Spec Disc_Spec Disc_Examples Workflow_Model Workflow_Spec Workflow_Examples Batches_Model Batches_Spec Batches2_Proofs Batches_Examples Show.
Import ListNotations.
Local Open Scope nat_scope.

(** C181: two batches of samples, merged, give the solution of one run with all
    samples. *)
Theorem batches_one_run_partial : forall nn P d o g model dom1 dom2 dom' xs1 xs2 ys probs, two_batches P d o g model dom1 dom2 xs1 xs2 ys probs ->
  forall globalize setter P' before setter' dom, 0 < P' -> (globalize = true -> one_batch_fits P (length xs1) (length xs2)) ->
  exists zs q q', sample_of (solve_batches nn P model globalize setter (values_set d dom1 xs1) (values_set d dom2 xs2) (probability_set o dom' ys probs)) = Some zs /\
    global_probabilities (solve_batches nn P model globalize setter (values_set d dom1 xs1) (values_set d dom2 xs2) (probability_set o dom' ys probs)) = Some (map Num q) /\
    global_probabilities (solve nn P' model MonteCarlo before setter' (values_set d dom (xs1 ++ xs2)) (probability_set o dom' ys probs)) = Some (map Num q') /\
    Permutation (combine zs q) (combine (xs1 ++ xs2) q').
Proof. exact batches_solution. Qed.
Print Assumptions batches_one_run_partial.
Theorem batches_one_run_refuted : forall nn P d o g model dom1 dom2 dom' xs1 xs2 ys probs, two_batches P d o g model dom1 dom2 xs1 xs2 ys probs ->
  forall setter, ~ one_batch_fits P (length xs1) (length xs2) -> (exists p, In p probs /\ (0 < p)%Qc) ->
  solve_batches nn P model true setter (values_set d dom1 xs1) (values_set d dom2 xs2) (probability_set o dom' ys probs) = Raise PyIndexError.
Proof. exact batches_raise. Qed.
Print Assumptions batches_one_run_refuted.
Example batches_case : two_batches 2 1 1 double doubling None unit_interval early late two thirds /\ one_batch_fits 2 (length early) (length late) /\
  two_batches 4 1 1 double doubling None unit_interval early late two thirds /\ ~ one_batch_fits 4 (length early) (length late) /\ (exists p, In p thirds /\ (0 < p)%Qc) /\
  show_samples (solve_batches near 2 doubling true true (values_set 1 None early) (values_set 1 unit_interval late) (probability_set 1 None two thirds)) = Some [0 # 1; 1 # 4; 1 # 3; 3 # 4; 1 # 1]%Q /\
  show_global (solve_batches near 2 doubling true true (values_set 1 None early) (values_set 1 unit_interval late) (probability_set 1 None two thirds)) = Some [1 # 9; 1 # 9; 1 # 9; 1 # 3; 1 # 3]%Q /\
  show_samples (solve_batches near 4 doubling false false (values_set 1 None early) (values_set 1 unit_interval late) (probability_set 1 None two thirds)) = Some [0 # 1; 1 # 3; 1 # 4; 1 # 1; 3 # 4]%Q /\
  show_global (solve_batches near 4 doubling false false (values_set 1 None early) (values_set 1 unit_interval late) (probability_set 1 None two thirds)) = Some [1 # 9; 1 # 9; 1 # 9; 1 # 3; 1 # 3]%Q.
Proof.
  split; [apply early_late; lia|]. split; [right; reflexivity|]. split; [apply early_late; lia|]. split; [intros [H|H]; discriminate H|]. split; [exists (Q2Qc (1 # 3)); split; [left; reflexivity|reflexivity]|]. repeat split; vm_compute; reflexivity.
Qed.
