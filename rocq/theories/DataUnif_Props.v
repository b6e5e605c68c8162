From Coq Require Import List Arith QArith Qcanon.
From Verif Require Import Err Num NumPy SampleSet_Model SampleSet_Spec Disc_Model Prob_Spec Disc_Spec Disc_Examples Workflow_Model Workflow_Spec Workflow_Examples DataUnif_Model DataUnif_Spec DataUnif_Proofs DataUnif2_Proofs DataUnif_Examples Show.
Import ListNotations.
Local Open Scope nat_scope.

(** C180: the same probability for every output that was computed. *)
Theorem data_samples_solution : forall nn P d o g model w before k dom xs, sampled P d o g model w before xs -> finds_equal nn ->
  let r := solve_data_samples nn P model w before k (values_set d dom xs) in
  let q := shared_evenly g (combine xs (volume_list w (length xs))) in
  global_probabilities r = Some (map Num q) /\ sample_of r = Some xs /\
  exists qs, local_probabilities r = Some (map (map Num) qs) /\ concat qs = q /\ same_lengths qs (array_split xs P).
Proof. exact solve_data_lemma. Qed.
Print Assumptions data_samples_solution.
Theorem data_samples_even_partial : forall nn P d o g model w before k dom xs, sampled P d o g model w before xs -> finds_equal nn -> all_positive (volume_list w (length xs)) ->
  NoDup (map g xs) -> global_probabilities (solve_data_samples nn P model w before k (values_set d dom xs)) = Some (map Num (repeat (1 / qn (length xs))%Qc (length xs))).
Proof. exact data_even. Qed.
Print Assumptions data_samples_even_partial.
Theorem data_samples_total : forall nn P d o g model w before k dom xs, sampled P d o g model w before xs -> finds_equal nn -> all_positive (volume_list w (length xs)) ->
  exists q, global_probabilities (solve_data_samples nn P model w before k (values_set d dom xs)) = Some (map Num q) /\ length q = length xs /\ qsum q = (qn (different (map g xs)) / qn (length xs))%Qc.
Proof. exact data_total. Qed.
Print Assumptions data_samples_total.
Theorem data_samples_even_refuted : forall nn P d o g model w before k dom xs, sampled P d o g model w before xs -> finds_equal nn -> all_positive (volume_list w (length xs)) -> ~ NoDup (map g xs) ->
  exists q, global_probabilities (solve_data_samples nn P model w before k (values_set d dom xs)) = Some (map Num q) /\ (qsum q < 1)%Qc /\ exists p, In p q /\ p <> (1 / qn (length xs))%Qc.
Proof. exact data_repeated. Qed.
Print Assumptions data_samples_even_refuted.
Example data_samples_case : finds_equal equal_or_near /\ sampled 2 1 1 double doubling (Given five_volumes) true five /\ sampled 3 1 1 coarse coarse_model (Given five_volumes) true five /\
  all_positive (volume_list (Given five_volumes) (length five)) /\ NoDup (map double five) /\ ~ NoDup (map coarse five) /\ different (map coarse five) = 3 /\
  show_global (solve_data_samples equal_or_near 2 doubling (Given five_volumes) true AsDisc (values_set 1 None five)) = Some [1 # 5; 1 # 5; 1 # 5; 1 # 5; 1 # 5]%Q /\
  show_global (solve_data_samples equal_or_near 3 coarse_model (Given five_volumes) true AsSet (values_set 1 None five)) = Some [1 # 35; 2 # 35; 4 # 35; 1 # 5; 1 # 5]%Q /\
  show_global (solve_data_samples equal_or_near 3 coarse_model MonteCarlo false AsArray (values_set 1 None five)) = Some [1 # 15; 1 # 15; 1 # 15; 1 # 5; 1 # 5]%Q.
Proof.
  split; [exact equal_or_near_finds|]. do 2 (split; [apply five_sampled|]). split; [apply five_positive|]. split; [exact doubled_differ|]. split; [exact coarse_repeats|]. repeat split; vm_compute; reflexivity.
Qed.
