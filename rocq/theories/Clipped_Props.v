From Coq Require Import List Arith QArith Qcanon Lia.
From Verif Require Import Err Num NumPy SampleSet_Model SampleSet_Spec Disc_Model Disc_Spec Disc_Examples Prob_Spec Workflow_Model Workflow_Spec Workflow_Examples Clipped_Model Clipped_Spec Clipped_Proofs Show.
Import ListNotations.
Local Open Scope nat_scope.

(** C184: the first samples of a run. *)
Theorem clipped_same_as_first : forall nn P c d o g model w before dom dom' xs ys probs k setter, clipped_run P c d o g model w before xs ys probs ->
  let r := solve_clipped nn P c k model w before setter (values_set d dom xs) (probability_set o dom' ys probs) in
  let q := solution (fun x => nn ys (g x)) probs (combine (firstn c xs) (firstn c (volume_list w (length xs)))) in
  global_probabilities r = Some (map Num q) /\ sample_of r = Some (firstn c xs) /\
  (exists qs, local_probabilities r = Some (map (map Num) qs) /\ concat qs = q /\ same_lengths qs (array_split (firstn c xs) P)) /\
  forall P' before' setter' dom'', 0 < P' -> (before' = false -> w = MonteCarlo) ->
    global_probabilities (solve nn P' model (first_volumes c w) before' setter' (values_set d dom'' (firstn c xs)) (probability_set o dom' ys probs)) = Some (map Num q).
Proof.
  intros nn P c d o g model w before dom dom' xs ys probs k setter T. cbv zeta. destruct (clipped_lemma nn P c d o g model w before dom dom' xs ys probs T k setter) as (A & B & C).
  split; [exact A|]. split; [exact B|]. split; [exact C|]. intros. apply first_run with (P := P) (before := before); assumption.
Qed.
Print Assumptions clipped_same_as_first.
(** The clip of a solution keeps the probabilities of the samples that remain. *)
Theorem clipped_solution_kept : forall nn P c d o g model w before dom dom' xs ys probs setter, clipped_run P c d o g model w before xs ys probs ->
  let r := clip_solved nn P c model w before setter (values_set d dom xs) (probability_set o dom' ys probs) in
  global_probabilities r = Some (map Num (firstn c (solution (fun x => nn ys (g x)) probs (combine xs (volume_list w (length xs)))))) /\ sample_of r = Some (firstn c xs).
Proof. intros. apply solved_clip with (o := o); assumption. Qed.
Print Assumptions clipped_solution_kept.
Definition five_clip (P c : nat) (k : clip_when) := solve_clipped near P c k doubling (Given five_volumes) true true (values_set 1 None five) (probability_set 1 None two thirds).
Example clipped_case : clipped_run 3 4 1 1 double doubling (Given five_volumes) true five two thirds /\
  show_global (five_clip 3 4 ClipEvaluated) = Some [1 # 21; 2 # 21; 4 # 21; 2 # 3]%Q /\ show_global (five_clip 3 4 ClipReady) = Some [1 # 21; 2 # 21; 4 # 21; 2 # 3]%Q /\
  show_local (five_clip 3 4 ClipSolved) = Some [[1 # 21; 2 # 21]; [4 # 21]; [2 # 3]]%Q /\
  show_global (clip_solved near 3 4 doubling (Given five_volumes) true true (values_set 1 None five) (probability_set 1 None two thirds)) = Some [1 # 21; 2 # 21; 4 # 21; 2 # 9]%Q.
Proof.
  split; [|do 3 (split; [vm_compute; reflexivity|]); vm_compute; reflexivity]. do 2 (split; [lia|]). split; [exact doubling_rows|]. do 2 (split; [discriminate|]). split; [reflexivity|]. split; [exact thirds_nonneg|]. split; [|discriminate].
  intros v [= <-]. exact five_volumes_ok.
Qed.
