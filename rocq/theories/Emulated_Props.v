From Coq Require Import List Arith QArith Qcanon Lia.
From Verif Require Import Err Num NumPy SampleSet_Model SampleSet_Spec Disc_Model Disc_Spec Disc_Examples Prob_Spec Workflow_Model Workflow_Spec Workflow_Examples Emulated_Model Emulated_Spec Emulated_Proofs Show.
Import ListNotations.
Local Open Scope nat_scope.

(** C185: probabilities of emulated samples, from end to end.  Once the pointers of
    all processes are there, they are the solution for the emulated points with the
    outputs of their nearest samples. *)
Theorem emulated_solution_partial : forall nn P d o g model dom dom' dome xs ys es probs k, emulation nn P d o g model xs ys es probs -> repaired k ->
  let r := solve_emulated nn P model k (values_set d dom xs) (probability_set o dom' ys probs) (values_set d dome es) in
  let q := solution (fun e => nn ys (nearest_output nn xs g e)) probs (combine es (repeat 1%Qc (length es))) in
  emulated_values_of r = Some es /\ emulated_probs_of r = Some (map Num q) /\
  forall P' model' before setter dom'', 0 < P' -> row_model d o (nearest_output nn xs g) model' ->
    global_probabilities (solve nn P' model' MonteCarlo before setter (values_set d dom'' es) (probability_set o dom' ys probs)) = Some (map Num q).
Proof.
  intros nn P d o g model dom dom' dome xs ys es probs k T R. cbv zeta. destruct (emulated_run nn P d o g model dom dom' dome xs ys es probs T k R) as (A & B & _).
  split; [exact A|]. split; [exact B|]. intros. apply surrogate_run with (P := P) (model := model); assumption.
Qed.
Print Assumptions emulated_solution_partial.
(** The points in the cell of a sample have together the probability of the sample
    when its volume is the fraction of the points in its cell. *)
Theorem emulated_cells_partial : forall nn P d o g model dom dom' dome xs ys es probs k, emulation nn P d o g model xs ys es probs -> repaired k ->
  exists q, emulated_probs_of (solve_emulated nn P model k (values_set d dom xs) (probability_set o dom' ys probs) (values_set d dome es)) = Some (map Num q) /\
  forall P' setter dom'', 0 < P' -> exists p, 
    global_probabilities (solve nn P' model (Given (map (fraction_in nn xs es) (seq 0 (length xs)))) true setter (values_set d dom'' xs) (probability_set o dom' ys probs)) = Some (map Num p) /\
    length p = length xs /\ forall j a, nth_error p j = Some a -> a = probability_in nn xs es q j.
Proof.
  intros nn P d o g model dom dom' dome xs ys es probs k T R. eexists. split; [exact (proj1 (proj2 (emulated_run nn P d o g model dom dom' dome xs ys es probs T k R)))|].
  intros. apply volumes_run with (P := P); assumption.
Qed.
Print Assumptions emulated_cells_partial.
(** Output probabilities stored in the discretization by its setter or by the
    functions of simpleFunP leave it without the global pointer. *)
Theorem emulated_stored_refuted : forall nn P d o g model dom dom' dome xs ys es probs setter, emulation nn P d o g model xs ys es probs ->
  solve_emulated nn P model (Stored setter Nothing) (values_set d dom xs) (probability_set o dom' ys probs) (values_set d dome es) = Raise PyTypeError.
Proof. intros nn P d o g model dom dom' dome xs ys es probs setter T. apply unrepaired_run with (g := g). exact T. Qed.
Print Assumptions emulated_stored_refuted.

Definition points : list cell := map pt [Q2Qc (1 # 10); Q2Qc (1 # 5); Q2Qc (2 # 5); Q2Qc (1 # 2); Q2Qc (2 # 3); Q2Qc (9 # 10); 1%Qc].
Definition five_emulated (P : nat) (k : assembled) := solve_emulated near P doubling k (values_set 1 None five) (probability_set 1 None two thirds) (values_set 1 None points).
Definition show_emulated (r : result (disc cell)) : option (list Q) := option_map (fun l => concat (map show_cell l)) (emulated_probs_of r).
Lemma near_five e : near five e < length five.
Proof.
  unfold near. destruct (argmin_spec (map (line_dist e) five)) as (d & E & _); [discriminate|]. rewrite <- (map_length (line_dist e) five). apply nth_error_Some. rewrite E. discriminate.
Qed.
Example emulated_case : emulation near 3 1 1 double doubling five two points thirds /\ repaired Constructed /\ repaired (Stored true NewPointers) /\
  show_emulated (five_emulated 3 Constructed) = Some [1 # 12; 1 # 12; 1 # 12; 1 # 12; 2 # 9; 2 # 9; 2 # 9]%Q /\
  show_emulated (five_emulated 3 (Stored false GlobalizePointers)) = Some [1 # 12; 1 # 12; 1 # 12; 1 # 12; 2 # 9; 2 # 9; 2 # 9]%Q /\
  five_emulated 3 (Stored true Nothing) = Raise PyTypeError.
Proof.
  split; [|do 2 (split; [exact I|]); do 2 (split; [vm_compute; reflexivity|]); vm_compute; reflexivity].
  split; [lia|]. split; [exact doubling_rows|]. do 3 (split; [discriminate|]). split; [reflexivity|]. split; [exact thirds_nonneg|]. intros e _. apply near_five.
Qed.
