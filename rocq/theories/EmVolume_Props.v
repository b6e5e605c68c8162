From Coq Require Import List Arith Bool QArith Qcanon Lia Permutation.
From Verif Require Import Err Num Ext NumPy Show Prob_Model Prob_Spec EmVolume_Model EmVolume_Spec EmVolume_Proofs.
Import ListNotations.
Local Open Scope nat_scope.

(** C129.  The probability of an input cell is the sum of the probabilities that
    prob_on_emulated_samples gives to the emulated points in the cell: the two
    ways of using emulated points agree, for every number of processes and every
    distribution of the points. *)
Theorem emulated_volumes_agree_with_emulated_samples : forall X probs io (near : X -> nat) P blocks,
  0 < P -> concat blocks <> [] -> (forall x, In x (concat blocks) -> near x < length io) ->
  exists q E, prob_with_emulated_volumes probs io near P blocks = Ok (map (map Fin) q) /\ length q = P /\
    prob_on_emulated_samples probs io (map (map near) blocks) = Ok E /\
    length (concat q) = length io /\
    forall j, j < length io -> nth_error (concat q) j = Some (weight_in near (concat blocks) (concat E) j).
Proof. exact @emulated_agree. Qed.
Print Assumptions emulated_volumes_agree_with_emulated_samples.
(** Every probability of an output cell is divided in proportion to the number of
    emulated points in the input cells. *)
Theorem emulated_volumes_formula : forall X probs io (near : X -> nat) P blocks q,
  0 < P -> concat blocks <> [] -> (forall x, In x (concat blocks) -> near x < length io) ->
  prob_with_emulated_volumes probs io near P blocks = Ok q ->
  forall j o p, nth_error io j = Some o -> nth_error probs o = Some p -> (0 <= p)%Qc ->
    0 < points_over near io (concat blocks) o ->
    nth_error (concat q) j =
      Some (Fin (p * qn (points_in near (concat blocks) j) / qn (points_over near io (concat blocks) o))%Qc).
Proof. exact @emulated_formula. Qed.
Print Assumptions emulated_volumes_formula.
Example emulated_volumes_case :
  concat [[0; 1]; [2; 2]] <> [] /\ (forall x, In x (concat [[0; 1]; [2; 2]]) -> x < length [0; 1; 1]) /\
  prob_with_emulated_volumes [Q2Qc (1 # 4); Q2Qc (3 # 4)] [0; 1; 1] (fun x : nat => x) 2 [[0; 1]; [2; 2]] =
    Ok [[Fin (Q2Qc (1 # 4)); Fin (Q2Qc (1 # 4))]; [Fin (Q2Qc (1 # 2))]] /\
  prob_on_emulated_samples [Q2Qc (1 # 4); Q2Qc (3 # 4)] [0; 1; 1] [[0; 1]; [2; 2]] =
    Ok [[Q2Qc (1 # 4); Q2Qc (1 # 4)]; [Q2Qc (1 # 4); Q2Qc (1 # 4)]].
Proof.
  split; [discriminate|]. split.
  - intros x H. simpl in *. intuition lia.
  - split; [apply (ok_eq _ _ _ xlist2_eq); vm_compute; reflexivity|qc_compute].
Qed.

(** The total never exceeds the output total and reaches it exactly if every
    output cell of positive probability is hit by an emulated point, ... *)
Theorem emulated_volumes_total : forall X probs io (near : X -> nat) P blocks,
  0 < P -> concat blocks <> [] -> (forall x, In x (concat blocks) -> near x < length io) ->
  (forall o, In o io -> o < length probs) -> nonneg probs ->
  exists q, prob_with_emulated_volumes probs io near P blocks = Ok (map (map Fin) q) /\
    (qsum (concat q) <= qsum probs)%Qc /\
    (qsum (concat q) = qsum probs <->
     forall i p, nth_error probs i = Some p -> (0 < p)%Qc -> 0 < points_over near io (concat blocks) i).
Proof. exact @emulated_totals. Qed.
Print Assumptions emulated_volumes_total.
(** ... in particular it is zero without emulated points. *)
Theorem emulated_volumes_without_points : forall X probs io (near : X -> nat) P blocks, 0 < P -> concat blocks = [] ->
  exists q, prob_with_emulated_volumes probs io near P blocks = Ok q /\ concat q = repeat (Fin 0) (length io).
Proof. exact @no_points. Qed.
Print Assumptions emulated_volumes_without_points.

(** Neither the number of processes nor the distribution of the emulated points
    matters. *)
Theorem emulated_volumes_process_independent : forall X probs io (near : X -> nat) P P' blocks blocks',
  0 < P -> 0 < P' -> (forall x, In x (concat blocks) -> near x < length io) ->
  Permutation (concat blocks) (concat blocks') ->
  exists q q', prob_with_emulated_volumes probs io near P blocks = Ok q /\
    prob_with_emulated_volumes probs io near P' blocks' = Ok q' /\ concat q = concat q'.
Proof. exact @emulated_layout. Qed.
Print Assumptions emulated_volumes_process_independent.
Example emulated_volumes_total_case :
  (forall o, In o [0; 1; 1] -> o < length [Q2Qc (1 # 4); Q2Qc (3 # 4)]) /\ nonneg [Q2Qc (1 # 4); Q2Qc (3 # 4)] /\
  Permutation (concat [[0; 1]; [2; 2]]) (concat [[2]; [1; 0; 2]]) /\
  prob_with_emulated_volumes [Q2Qc (1 # 4); Q2Qc (3 # 4)] [0; 1; 1] (fun x : nat => x) 2 [[1]; []] =
    Ok [[Fin 0; Fin (Q2Qc (3 # 4))]; [Fin 0]].
Proof.
  split; [intros o H; simpl in *; intuition lia|]. split; [|split].
  - intros x [<- | [<- | []]]; intros H; discriminate H.
  - cbn [concat app]. apply (Permutation_trans (l' := [2; 0; 1; 2])).
    + apply (Permutation_sym (Permutation_middle [0; 1] [2] 2)).
    + apply perm_skip. apply perm_swap.
  - apply (ok_eq _ _ _ xlist2_eq); vm_compute; reflexivity.
Qed.
