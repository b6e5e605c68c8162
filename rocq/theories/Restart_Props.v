From Coq Require Import List Arith QArith Qcanon Lia.
From Verif Require Import Err Num NumPy SampleSet_Model SampleSet_Spec Disc_Model Disc_Spec Disc_Examples Prob_Spec Workflow_Model Workflow_Spec Workflow_Examples Restart_Model Restart_Spec Restart_Proofs Show.
Import ListNotations.
Local Open Scope nat_scope.

(** C183: a calculation saved and continued in another run. *)
Theorem restart_same_solution_partial : forall nn P w P' d o g model vol before dom dom' xs ys probs l m setter, interrupted P w P' d o g model vol before xs ys probs ->
  proper P P' l m ->
  let r := solve_restarted nn P w P' l m model vol before setter (values_set d dom xs) (probability_set o dom' ys probs) in
  let q := solution (fun x => nn ys (g x)) probs (combine xs (volume_list vol (length xs))) in
  global_probabilities r = Some (map Num q) /\ sample_of r = Some xs /\
  (exists qs, local_probabilities r = Some (map (map Num) qs) /\ concat qs = q /\ same_lengths qs (array_split xs P')) /\
  forall P'' before' setter' dom'', 0 < P'' -> (before' = false -> vol = MonteCarlo) ->
    global_probabilities (solve nn P'' model vol before' setter' (values_set d dom'' xs) (probability_set o dom' ys probs)) = Some (map Num q).
Proof. intros. apply continued with (o := o); assumption. Qed.
Print Assumptions restart_same_solution_partial.
(** The saved pointers are those of the process that wrote last. *)
Theorem restart_pointers_refuted : forall nn P w P' d o g model vol before dom dom' xs ys probs setter, interrupted P w P' d o g model vol before xs ys probs ->
  (exists r, r < P' /\ held (length xs) P' r <> held (length xs) P w) -> (exists p, In p probs /\ (0 < p)%Qc) ->
  solve_restarted nn P w P' true (AfterOutput false) model vol before setter (values_set d dom xs) (probability_set o dom' ys probs) = Raise PyIndexError.
Proof. intros. apply stale_pointers with (g := g); assumption. Qed.
Print Assumptions restart_pointers_refuted.
(** Without localize the arrays are those of this process as well. *)
Theorem restart_unlocalized_refuted : forall nn P w P' d o g model vol before dom dom' xs ys probs m setter, interrupted P w P' d o g model vol before xs ys probs ->
  let r := solve_restarted nn P w P' false m model vol before setter (values_set d dom xs) (probability_set o dom' ys probs) in
  exists q, global_probabilities r = Some (map Num q) /\ sample_of r = Some xs /\ length q = P' * held (length xs) P w /\
    q = solution (fun x => nn ys (g x)) probs (copies w P P' (combine xs (volume_list vol (length xs)))).
Proof. intros. apply stale_arrays with (o := o); assumption. Qed.
Print Assumptions restart_unlocalized_refuted.
Definition run4 (P w P' : nat) (l : bool) (m : stopped) := solve_restarted near P w P' l m doubling MonteCarlo true true (values_set 1 None (firstn 4 five)) (probability_set 1 None two thirds).
Lemma four_interrupted P w P' : w < P -> 0 < P' -> interrupted P w P' 1 1 double doubling MonteCarlo true (firstn 4 five) two thirds.
Proof. intros W H. split; [exact W|]. split; [exact H|]. split; [exact doubling_rows|]. do 2 (split; [discriminate|]). split; [reflexivity|]. split; [exact thirds_nonneg|]. split; intros; discriminate. Qed.
(** Four samples: properly continued on three processes; with the old pointers on
    one, three and again two processes (the last gives other numbers without an
    exception); and without localize. *)
Example restart_case : interrupted 2 1 3 1 1 double doubling MonteCarlo true (firstn 4 five) two thirds /\ proper 2 3 true AfterModel /\ proper 2 3 true (AfterOutput true) /\
  held 4 3 1 <> held 4 2 1 /\ (exists p, In p thirds /\ (0 < p)%Qc) /\
  show_global (run4 2 1 3 true AfterModel) = Some [1 # 9; 1 # 9; 1 # 9; 2 # 3]%Q /\
  show_global (run4 2 1 3 true (AfterOutput true)) = Some [1 # 9; 1 # 9; 1 # 9; 2 # 3]%Q /\
  run4 2 1 3 true (AfterOutput false) = Raise PyIndexError /\
  run4 1 0 3 true (AfterOutput false) = Raise PyIndexError /\
  show_global (run4 2 1 2 true (AfterOutput false)) = Some [1 # 6; 1 # 3; 1 # 6; 1 # 3]%Q /\
  show_global (run4 2 0 2 true (AfterOutput false)) = Some [1 # 12; 1 # 12; 1 # 12; 1 # 12]%Q /\
  show_global (run4 2 1 3 false AfterModel) = Some [1 # 9; 2 # 9; 1 # 9; 2 # 9; 1 # 9; 2 # 9]%Q.
Proof.
  split; [apply four_interrupted; lia|]. do 2 (split; [right; split; [reflexivity|discriminate]|]). split; [vm_compute; discriminate|]. split; [eexists; split; [left; reflexivity|reflexivity]|].
  do 6 (split; [vm_compute; reflexivity|]). vm_compute; reflexivity.
Qed.
