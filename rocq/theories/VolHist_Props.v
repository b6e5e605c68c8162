From Coq Require Import List Arith QArith Qcanon.
From Verif Require Import Err Num NumPy SampleSet_Model Disc_Model Prob_Spec Disc_Examples Workflow_Model Workflow_Spec Workflow_Examples VolHist_Model VolHist_Spec VolHist_Proofs.
Import ListNotations.
Local Open Scope nat_scope.

(** C157: prob uses the volumes defined last. *)
Theorem volumes_last_partial : forall nn P d o g model setter dom dom' xs ys probs h1 c h2 b v, 0 < P -> row_model d o g model -> xs <> [] -> ys <> [] -> length probs = length ys -> nonneg probs ->
  Forall (proper P xs) (h1 ++ [c]) -> defines (length xs) c = Some v -> nonneg v -> defines_none h2 -> in_use c h2 ->
  gives P xs b (solution (fun x => nn ys (g x)) probs (combine xs v))
    (solve_after nn P model setter (h1 ++ c :: h2) b (values_set d dom xs) (probability_set o dom' ys probs)).
Proof. exact last_lemma. Qed.
Print Assumptions volumes_last_partial.
(** Refuted: exact volumes of rectangles and balls, and given volumes, defined by
    k after other volumes v: prob goes on with v. *)
Theorem volumes_ignored_refuted : forall nn P d o g model setter dom dom' xs ys probs h1 c h2 k h3 b v, 0 < P -> row_model d o g model -> xs <> [] -> ys <> [] -> length probs = length ys -> nonneg probs ->
  Forall (proper P xs) (h1 ++ [c; k]) -> defines (length xs) c = Some v -> nonneg v -> defines_none h2 -> in_use c h2 ->
  stores k = InGlobal -> defines_none h3 -> first_move h3 <> Some true ->
  gives P xs b (solution (fun x => nn ys (g x)) probs (combine xs v))
    (solve_after nn P model setter (h1 ++ c :: h2 ++ k :: h3) b (values_set d dom xs) (probability_set o dom' ys probs)).
Proof. exact ignored_lemma. Qed.
Print Assumptions volumes_ignored_refuted.
(** Refuted: local volumes are replaced by the older global ones. *)
Theorem volumes_lost_refuted : forall nn P d o g model setter dom dom' xs ys probs h1 c h2 k h3 b v, 0 < P -> row_model d o g model -> xs <> [] -> ys <> [] -> length probs = length ys -> nonneg probs ->
  Forall (proper P xs) (h1 ++ [c; k]) -> defines (length xs) c = Some v -> nonneg v -> defines_none h2 -> stores c = InBoth ->
  stores k = InLocal -> defines_none h3 -> first_move h3 = Some true ->
  gives P xs b (solution (fun x => nn ys (g x)) probs (combine xs v))
    (solve_after nn P model setter (h1 ++ c :: h2 ++ k :: h3) b (values_set d dom xs) (probability_set o dom' ys probs)).
Proof. exact lost_lemma. Qed.
Print Assumptions volumes_lost_refuted.
(** Refuted: without local volumes there is no result at all. *)
Theorem volumes_missing_refuted : forall nn P d o g model setter dom dom' xs ys probs h b, 0 < P -> row_model d o g model -> xs <> [] -> ys <> [] -> length probs = length ys -> (exists p, In p probs /\ (0 < p)%Qc) ->
  Forall (proper P xs) h -> only_global h ->
  solve_after nn P model setter h b (values_set d dom xs) (probability_set o dom' ys probs) = Raise PyTypeError.
Proof. exact missing_lemma. Qed.
Print Assumptions volumes_missing_refuted.

Definition shown h := show_global (solve_after near 3 doubling true h true (values_set 1 None five) (probability_set 1 None two thirds)).
Definition by_process : list (list Qc) := array_split five_volumes 3.
Example volumes_case :
  Forall (proper 3 five) [EstimateMC true; Measure true five_volumes; SetVolumesLocal by_process; EstimateLocal by_process; MeasureCells five_volumes] /\
  (* used: estimates, local volumes, exact volumes of cells after global_to_local *)
  in_use (Measure true five_volumes) [LocalToGlobal] /\ in_use (MeasureCells five_volumes) [Prob true; GlobalToLocal] /\ in_use (SetVolumesLocal by_process) [LocalToGlobal] /\
  shown [EstimateMC true; Measure true five_volumes; LocalToGlobal] = Some [1 # 21; 2 # 21; 4 # 21; 2 # 9; 4 # 9]%Q /\
  shown [EstimateMC true; MeasureCells five_volumes; Prob true; GlobalToLocal] = Some [1 # 21; 2 # 21; 4 # 21; 2 # 9; 4 # 9]%Q /\
  shown [SetVolumesLocal by_process; LocalToGlobal; Prob false] = Some [1 # 21; 2 # 21; 4 # 21; 2 # 9; 4 # 9]%Q /\
  shown [EstimateMC false; EstimateLocal by_process] = Some [1 # 21; 2 # 21; 4 # 21; 2 # 9; 4 # 9]%Q /\
  (* not used: the exact volumes of cells by themselves, local volumes before global_to_local *)
  shown [EstimateMC true; MeasureCells five_volumes] = Some [1 # 9; 1 # 9; 1 # 9; 1 # 3; 1 # 3]%Q /\
  shown [EstimateMC true; SetVolumesLocal by_process; GlobalToLocal] = Some [1 # 9; 1 # 9; 1 # 9; 1 # 3; 1 # 3]%Q /\
  shown [MeasureCells five_volumes] = None.
Proof.
  assert (S3 : same_lengths by_process (array_split five 3)) by (unfold by_process, same_lengths; vm_compute; repeat constructor).
  split; [repeat (constructor; [first [exact I|reflexivity|exact S3|split; [exact S3|vm_compute; discriminate]]|]); constructor|].
  split; [exact I|]. split; [reflexivity|]. split; [discriminate|].
  do 6 (split; [vm_compute; reflexivity|]). vm_compute. reflexivity.
Qed.
