From Coq Require Import List Arith QArith Qcanon.
From Verif Require Import Err Num NumPy SampleSet_Model SampleSet_Spec Disc_Model Prob_Spec Disc_Spec Disc_Examples Workflow_Model Workflow_Spec Workflow_Examples Stable_Spec Stable2_Proofs Stable_Examples Show.
Import ListNotations.
Local Open Scope nat_scope.

(** C178: the solution moves no further than the output probabilities. *)
Theorem solution_stable : forall nn P d o g model w before setter dom dom' xs ys p p', posed nn P d o g model w before xs ys -> on_cells ys p -> on_cells ys p' ->
  exists q q', global_probabilities (solve nn P model w before setter (values_set d dom xs) (probability_set o dom' ys p)) = Some (map Num q) /\
    global_probabilities (solve nn P model w before setter (values_set d dom xs) (probability_set o dom' ys p')) = Some (map Num q') /\
    (apart q q' <= apart p p')%Qc /\
    ((forall i a b, nth_error p i = Some a -> nth_error p' i = Some b -> a <> b -> has_volume (cells_of nn g ys xs) (volume_list w (length xs)) i) -> apart q q' = apart p p') /\
    (below p p' -> below q q').
Proof. exact stable_lemma. Qed.
Print Assumptions solution_stable.
Theorem solution_linear : forall nn P d o g model w before setter dom dom' xs ys p p' a b, posed nn P d o g model w before xs ys -> on_cells ys p -> on_cells ys p' -> (0 <= a)%Qc -> (0 <= b)%Qc ->
  exists q q', global_probabilities (solve nn P model w before setter (values_set d dom xs) (probability_set o dom' ys p)) = Some (map Num q) /\
    global_probabilities (solve nn P model w before setter (values_set d dom xs) (probability_set o dom' ys p')) = Some (map Num q') /\
    global_probabilities (solve nn P model w before setter (values_set d dom xs) (probability_set o dom' ys (combined a b p p'))) = Some (map Num (combined a b q q')).
Proof. exact linear_lemma. Qed.
Print Assumptions solution_linear.
Example solution_stable_case : posed near 2 1 1 double doubling (Given five_volumes) true five two /\ on_cells two thirds /\ on_cells two other_way /\ on_cells two more /\
  show_global (solve near 2 doubling (Given five_volumes) true false (values_set 1 None five) (probability_set 1 None two thirds)) = Some [1 # 21; 2 # 21; 4 # 21; 2 # 9; 4 # 9]%Q /\
  show_global (solve near 2 doubling (Given five_volumes) true false (values_set 1 None five) (probability_set 1 None two other_way)) = Some [2 # 21; 4 # 21; 8 # 21; 1 # 9; 2 # 9]%Q /\
  show_global (solve near 2 doubling (Given five_volumes) true false (values_set 1 None five) (probability_set 1 None two more)) = Some [1 # 14; 1 # 7; 2 # 7; 2 # 9; 4 # 9]%Q /\
  show_global (solve near 2 doubling (Given five_volumes) true false (values_set 1 None five) (probability_set 1 None two (combined (Q2Qc (1 # 2)) (Q2Qc (1 # 2)) thirds other_way))) = Some [1 # 14; 1 # 7; 2 # 7; 1 # 6; 1 # 3]%Q.
Proof. split; [exact five_posed|]. do 2 (split; [apply on_two|]). split; [apply on_two|]. repeat split; vm_compute; reflexivity. Qed.

(** C179: only the proportions of the volumes count, and a sample may be split
    into parts. *)
Theorem solution_volume_unit : forall nn P d o g model v setter dom dom' xs ys p s, posed nn P d o g model (Given v) true xs ys -> on_cells ys p -> (0 < s)%Qc ->
  global_probabilities (solve nn P model (Given (scaled s v)) true setter (values_set d dom xs) (probability_set o dom' ys p)) =
  global_probabilities (solve nn P model (Given v) true setter (values_set d dom xs) (probability_set o dom' ys p)).
Proof. exact scaled_lemma. Qed.
Print Assumptions solution_volume_unit.
Theorem solution_even_volumes : forall nn P d o g model before setter setter' dom dom' xs ys p a, posed nn P d o g model MonteCarlo before xs ys -> on_cells ys p -> (0 < a)%Qc ->
  global_probabilities (solve nn P model (Given (repeat a (length xs))) true setter (values_set d dom xs) (probability_set o dom' ys p)) =
  global_probabilities (solve nn P model MonteCarlo before setter' (values_set d dom xs) (probability_set o dom' ys p)).
Proof. exact even_lemma. Qed.
Print Assumptions solution_even_volumes.
Theorem solution_finer_samples : forall nn P P' d o g model w w' before before' setter setter' dom dom' xs xs' ys p part, posed nn P d o g model w before xs ys -> posed nn P' d o g model w' before' xs' ys -> on_cells ys p ->
  length part = length xs' ->
  (forall j i, nth_error part j = Some i -> exists c, nth_error (cells_of nn g ys xs') j = Some c /\ nth_error (cells_of nn g ys xs) i = Some c) ->
  (forall i v, nth_error (volume_list w (length xs)) i = Some v -> v = parts_of part (volume_list w' (length xs')) i) ->
  exists q q', global_probabilities (solve nn P model w before setter (values_set d dom xs) (probability_set o dom' ys p)) = Some (map Num q) /\
    global_probabilities (solve nn P' model w' before' setter' (values_set d dom xs') (probability_set o dom' ys p)) = Some (map Num q') /\
    length q = length xs /\ (forall i a, nth_error q i = Some a -> a = parts_of part q' i).
Proof. exact finer_lemma. Qed.
Print Assumptions solution_finer_samples.
Example solution_parts_case : posed near 2 1 1 double doubling (Given five_volumes) true five two /\ posed near 2 1 1 double doubling MonteCarlo false five two /\ posed near 3 1 1 double doubling (Given seven_volumes) true seven two /\ on_cells two thirds /\
  length seven_parts = length seven /\
  (forall j i, nth_error seven_parts j = Some i -> exists c, nth_error (cells_of near double two seven) j = Some c /\ nth_error (cells_of near double two five) i = Some c) /\
  (forall i v, nth_error five_volumes i = Some v -> v = parts_of seven_parts seven_volumes i) /\
  show_global (solve near 2 doubling (Given five_volumes) true false (values_set 1 None five) (probability_set 1 None two thirds)) = Some [1 # 21; 2 # 21; 4 # 21; 2 # 9; 4 # 9]%Q /\
  show_global (solve near 3 doubling (Given seven_volumes) true false (values_set 1 None seven) (probability_set 1 None two thirds)) = Some [1 # 21; 1 # 14; 1 # 42; 4 # 21; 1 # 9; 1 # 9; 4 # 9]%Q.
Proof.
  split; [exact five_posed|]. split; [exact five_posed_mc|]. split; [exact seven_posed|]. split; [apply on_two|]. split; [reflexivity|]. split; [exact seven_cells|]. split; [exact seven_totals|]. split; vm_compute; reflexivity.
Qed.
