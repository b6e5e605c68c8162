From Coq Require Import List Arith QArith Qcanon Lia.
From Verif Require Import Err Num NumPy SampleSet_Model SampleSet_Spec Disc_Model Prob_Spec Disc_Spec Disc_Examples Workflow_Model Workflow_Spec Workflow_Proofs Workflow_Examples
  Refined_Model Refined_Spec Refined_Proofs Show.
Import ListNotations.
Local Open Scope nat_scope.
Local Open Scope err_scope.

Lemma used_current rs : Forall (fun r => starts r <> Evaluate) rs -> forall xs, all_used rs xs = current (concat (map changes rs)) xs.
Proof.
  induction 1 as [|r rs H _ IH]; intros xs; [reflexivity|]. cbn [map concat]. unfold current. rewrite fold_left_app. fold (current (changes r) xs). cbn [all_used fold_left]. fold (all_used rs (used r xs)). rewrite IH. unfold used. destruct (starts r); [contradiction|reflexivity|reflexivity].
Qed.
Lemma used_not_empty rs r : forall fresh xs, same_number fresh (rs ++ [r]) xs -> all_used (rs ++ [r]) xs <> [].
Proof. induction rs as [|q rs IH]; intros fresh xs (N & _ & T); [exact N|]. apply (IH false). exact T. Qed.

(** C188: samples replaced or added between the runs.  If every run begins with
    global_to_local or with the volumes, and the number of samples changes at most
    before the first solution, then each run gives what a new calculation with the
    current samples gives, on any number of processes. *)
Theorem refined_partial : forall nn P P' d o g0 model dom dom' before setter xs rs r o' out_dom g ys probs, 0 < P -> 0 < P' -> row_model d o g0 model -> usual d rs ->
  row_model d o' g (model_of r) -> outputs r = probability_set o' out_dom ys probs -> ys <> [] -> length probs = length ys -> nonneg probs ->
  same_number true (rs ++ [r]) xs -> Forall (fun q => starts q <> Evaluate) (rs ++ [r]) ->
  let zs := current (concat (map changes (rs ++ [r]))) xs in
  let answer := runs nn P model (rs ++ [r]) (values_set d dom xs) in
  solves nn g zs ys probs answer /\
  global_probabilities answer = global_probabilities (solve nn P' (model_of r) MonteCarlo before setter (values_set d dom' zs) (probability_set o' out_dom ys probs)).
Proof.
  intros nn P P' d o g0 model dom dom' before setter xs rs r o' out_dom g ys probs HP HP' M U M' E NY Lp NP T F. cbv zeta. rewrite <- (used_current _ F).
  destruct (runs_lemma nn P d o g0 model dom xs rs r g ys probs HP M U) as (D & inp & -> & S & _); [exists o', out_dom; repeat (split; [assumption|]); assumption|exact T|]. split; [exact S|].
  rewrite (proj2 (proj2 S)). symmetry. apply (solve_lemma nn P' d o' g (model_of r) MonteCarlo before setter dom' out_dom _ ys probs HP' M' (used_not_empty _ _ _ _ T) NY Lp NP); [discriminate|reflexivity].
Qed.
Print Assumptions refined_partial.
(** In general a run uses the samples of the last run that did not start with the
    evaluation: *)
Theorem refined_runs : forall nn P d o g0 model dom xs rs r g ys probs, 0 < P -> row_model d o g0 model -> usual d rs -> run_for d g ys probs r -> same_number true (rs ++ [r]) xs ->
  solves nn g (all_used (rs ++ [r]) xs) ys probs (runs nn P model (rs ++ [r]) (values_set d dom xs)).
Proof. intros nn P d o g0 model dom xs rs r g ys probs HP M U R T. destruct (runs_lemma nn P d o g0 model dom xs rs r g ys probs HP M U R T) as (D & inp & -> & S & _). exact S. Qed.
Print Assumptions refined_runs.
(** changes before a run that starts with the evaluation have no effect and are lost. *)
Theorem refined_refuted : forall nn P d o g0 model dom xs cs q setter o' out_dom g ys probs, 0 < P -> xs <> [] -> row_model d o g0 model ->
  row_model d o' g q -> ys <> [] -> length probs = length ys -> nonneg probs ->
  let answer := runs nn P model [mk_run cs Evaluate q setter (probability_set o' out_dom ys probs)] (values_set d dom xs) in
  solves nn g xs ys probs answer /\ (current cs xs <> xs -> ~ solves nn g (current cs xs) ys probs answer).
Proof.
  intros nn P d o g0 model dom xs cs q setter o' out_dom g ys probs HP NX M M' NY Lp NP answer.
  assert (S : solves nn g xs ys probs answer).
  { apply (refined_runs nn P d o g0 model dom xs [] (mk_run cs Evaluate q setter (probability_set o' out_dom ys probs)) g ys probs HP M); [constructor|exists o', out_dom; repeat (split; [assumption || reflexivity|]); assumption|]. split; [exact NX|]. split; [left; reflexivity|exact I]. }
  split; [exact S|]. intros N (E & _). apply N. pose proof (proj1 S) as E'. congruence.
Qed.
Print Assumptions refined_refuted.
(** Once there is a solution, another number of samples is refused. *)
Theorem refined_number_refuted : forall nn P d o g0 model dom xs rs r g ys probs q, 0 < P -> row_model d o g0 model -> usual d rs -> run_for d g ys probs r -> same_number true (rs ++ [r]) xs ->
  let zs := all_used (rs ++ [r]) xs in
  starts q <> Evaluate -> length (current (changes q) zs) <> length zs ->
  runs nn P model (rs ++ [r; q]) (values_set d dom xs) = Raise LengthNotMatching.
Proof.
  intros nn P d o g0 model dom xs rs r g ys probs q HP M U R T zs NE N. destruct (runs_lemma nn P d o g0 model dom xs rs r g ys probs HP M U R T) as (D & inp & E & _ & Ei & S & NP).
  unfold runs in *. destruct (qoi model P true (values_set d dom xs)) as [D0|]; [|discriminate]. cbn [bind] in *. change (rs ++ [r; q]) with (rs ++ [r] ++ [q]). rewrite app_assoc, more_app, E. cbn [bind].
  apply (one_refused nn P d q zs D inp Ei S NP NE N).
Qed.
Print Assumptions refined_number_refuted.

(** Five samples are evaluated on two processes; then two are added. *)
Definition added : list cell := map pt [Q2Qc (1 # 8); Q2Qc (7 # 8)].
Definition more (k : start) : run := mk_run [AppendValues added] k doubling true (probability_set 1 None two thirds).
Lemma more_for k : run_for 1 double two thirds (more k).
Proof. exists 1, None. split; [exact doubling_rows|]. split; [reflexivity|]. split; [discriminate|]. split; [reflexivity|exact thirds_nonneg]. Qed.
Example refined_example :
  show_global (runs near 2 doubling [more Distribute] (values_set 1 None five)) = Some [1 # 12; 1 # 12; 1 # 12; 2 # 9; 2 # 9; 1 # 12; 2 # 9]%Q /\
  show_global (runs near 2 doubling [more VolumesFirst] (values_set 1 None five)) = Some [1 # 12; 1 # 12; 1 # 12; 2 # 9; 2 # 9; 1 # 12; 2 # 9]%Q /\
  show_global (runs near 2 doubling [more Evaluate] (values_set 1 None five)) = Some [1 # 9; 1 # 9; 1 # 9; 1 # 3; 1 # 3]%Q /\
  runs near 2 doubling [more Distribute; more Distribute] (values_set 1 None five) = Raise LengthNotMatching /\
  same_number true [more Distribute; more Evaluate] five /\ usual 1 [more Distribute].
Proof.
  split; [vm_compute; reflexivity|]. split; [vm_compute; reflexivity|]. split; [vm_compute; reflexivity|]. split; [|split].
  - apply (refined_number_refuted near 2 1 1 double doubling None five [] (more Distribute) double two thirds (more Distribute)); [lia|exact doubling_rows|constructor|apply more_for| |discriminate|discriminate]. split; [discriminate|]. split; [left; reflexivity|exact I].
  - split; [discriminate|]. split; [left; reflexivity|]. split; [discriminate|]. split; [right; reflexivity|exact I].
  - constructor; [|constructor]. exists double, two, thirds. apply more_for.
Qed.
