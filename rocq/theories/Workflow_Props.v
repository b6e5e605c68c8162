From Coq Require Import List Arith QArith Qcanon Permutation.
From Verif Require Import Err Num NumPy SampleSet_Model SampleSet_Spec Disc_Model Prob_Spec Disc_Spec Disc_Examples Workflow_Model Workflow_Spec Workflow_Proofs Workflow_Examples.
Import ListNotations.
Local Open Scope nat_scope.

(** C137: a measure-based inversion from end to end. *)
Theorem workflow_solution_partial : forall nn P d o g model w before setter dom dom' xs ys probs, 0 < P -> row_model d o g model -> xs <> [] -> ys <> [] -> length probs = length ys -> nonneg probs ->
  (forall v, w = Given v -> length v = length xs /\ nonneg v) -> (before = false -> w = MonteCarlo) ->
  let r := solve nn P model w before setter (values_set d dom xs) (probability_set o dom' ys probs) in
  let q := solution (fun x => nn ys (g x)) probs (combine xs (volume_list w (length xs))) in
  global_probabilities r = Some (map Num q) /\ sample_of r = Some xs /\
  exists qs, local_probabilities r = Some (map (map Num) qs) /\ concat qs = q /\ same_lengths qs (array_split xs P).
Proof. exact solve_lemma. Qed.
Print Assumptions workflow_solution_partial.
Theorem workflow_local : forall nn P d o g model setter dom dom' xs ys probs, 0 < P -> row_model d o g model -> xs <> [] -> ys <> [] -> length probs = length ys -> nonneg probs ->
  global_probabilities (solve_local nn P model setter (values_set d dom xs) (probability_set o dom' ys probs)) = None /\
  exists qs, local_probabilities (solve_local nn P model setter (values_set d dom xs) (probability_set o dom' ys probs)) = Some (map (map Num) qs) /\
  concat qs = solution (fun x => nn ys (g x)) probs (combine xs (repeat (1 / qn (length xs))%Qc (length xs))) /\ same_lengths qs (array_split xs P).
Proof. exact solve_local_lemma. Qed.
Print Assumptions workflow_local.
Theorem workflow_same : forall nn P P' d o g model before before' setter setter' dom dom1 dom' dom1' xs ys probs, 0 < P -> 0 < P' -> row_model d o g model -> xs <> [] -> ys <> [] -> length probs = length ys -> nonneg probs ->
  global_probabilities (solve nn P model MonteCarlo before setter (values_set d dom xs) (probability_set o dom' ys probs)) =
  global_probabilities (solve nn P' model MonteCarlo before' setter' (values_set d dom1 xs) (probability_set o dom1' ys probs)).
Proof. exact solve_mc_same. Qed.
Print Assumptions workflow_same.
Theorem workflow_renumber : forall nn P d o g model w w' before setter dom dom' xs xs' ys probs, 0 < P -> row_model d o g model -> xs <> [] -> ys <> [] -> length probs = length ys -> nonneg probs ->
  (forall v, w = Given v -> length v = length xs /\ nonneg v) -> (forall v, w' = Given v -> length v = length xs' /\ nonneg v) -> (before = false -> w = MonteCarlo /\ w' = MonteCarlo) ->
  Permutation (combine xs (volume_list w (length xs))) (combine xs' (volume_list w' (length xs'))) ->
  exists q q', global_probabilities (solve nn P model w before setter (values_set d dom xs) (probability_set o dom' ys probs)) = Some q /\
    global_probabilities (solve nn P model w' before setter (values_set d dom xs') (probability_set o dom' ys probs)) = Some q' /\
    Permutation (combine xs q) (combine xs' q').
Proof. exact solve_perm_lemma. Qed.
Print Assumptions workflow_renumber.
Theorem workflow_push_forward : forall nn P d o g model w before setter dom dom' xs ys probs, 0 < P -> row_model d o g model -> xs <> [] -> ys <> [] -> length probs = length ys -> nonneg probs ->
  (forall v, w = Given v -> length v = length xs /\ nonneg v) -> (before = false -> w = MonteCarlo) -> (forall y, nn ys y < length ys) ->
  let cells := map (fun x => nn ys (g x)) xs in
  let volume := total_in (combine cells (volume_list w (length xs))) in
  exists q, global_probabilities (solve nn P model w before setter (values_set d dom xs) (probability_set o dom' ys probs)) = Some (map Num q) /\
    length q = length xs /\ nonneg q /\
    (forall j p, nth_error probs j = Some p -> (0 < volume j)%Qc -> total_in (combine cells q) j = p) /\
    (forall j, volume j = 0%Qc -> total_in (combine cells q) j = 0%Qc) /\
    (qsum q <= qsum probs)%Qc /\
    (qsum q = qsum probs <-> forall j p, nth_error probs j = Some p -> (0 < p)%Qc -> (0 < volume j)%Qc).
Proof. exact solve_push_lemma. Qed.
Print Assumptions workflow_push_forward.
Theorem workflow_late_volumes_refuted : forall nn P d o g model v setter dom dom' xs ys probs, 0 < P -> row_model d o g model -> xs <> [] -> ys <> [] -> length probs = length ys -> length v = length xs ->
  (exists p, In p probs /\ (0 < p)%Qc) ->
  solve nn P model (Given v) false setter (values_set d dom xs) (probability_set o dom' ys probs) = Raise PyTypeError.
Proof. exact solve_late_lemma. Qed.
Print Assumptions workflow_late_volumes_refuted.
(** A model with one output may return a one-dimensional array. *)
Theorem workflow_flat_outputs : forall nn P model model' w before setter s pr, (forall x, column_of (model x) (model' x)) ->
  solve nn P model w before setter s pr = solve nn P model' w before setter s pr /\
  solve_local nn P model setter s pr = solve_local nn P model' setter s pr.
Proof. exact flat_lemma. Qed.
Print Assumptions workflow_flat_outputs.
Example workflow_flat_case : (forall x, column_of (flat_doubling x) (two_d (flat_doubling x))) /\
  show_global (solve near 3 flat_doubling MonteCarlo false true (values_set 1 None five) (probability_set 1 None two thirds)) = Some [1 # 9; 1 # 9; 1 # 9; 1 # 3; 1 # 3]%Q.
Proof. split; [intros x; repeat split|vm_compute; reflexivity]. Qed.
Example workflow_case : row_model 1 1 double doubling /\ length thirds = length two /\ nonneg thirds /\ (length five_volumes = length five /\ nonneg five_volumes) /\ (forall y, near two y < length two) /\
  show_global (solve near 3 doubling MonteCarlo false true (values_set 1 None five) (probability_set 1 None two thirds)) = Some [1 # 9; 1 # 9; 1 # 9; 1 # 3; 1 # 3]%Q /\
  show_local (solve near 3 doubling MonteCarlo true false (values_set 1 None five) (probability_set 1 None two thirds)) = Some [[1 # 9; 1 # 9]; [1 # 9; 1 # 3]; [1 # 3]]%Q /\
  show_local (solve_local near 3 doubling false (values_set 1 None five) (probability_set 1 None two thirds)) = Some [[1 # 9; 1 # 9]; [1 # 9; 1 # 3]; [1 # 3]]%Q /\
  show_global (solve near 2 doubling (Given five_volumes) true false (values_set 1 None five) (probability_set 1 None two thirds)) = Some [1 # 21; 2 # 21; 4 # 21; 2 # 9; 4 # 9]%Q.
Proof.
  split; [exact doubling_rows|]. split; [reflexivity|]. split; [exact thirds_nonneg|]. split; [exact five_volumes_ok|]. split; [exact near_two|]. exact five_solved.
Qed.
