(** The five samples of Workflow_Examples in two batches *)
From Coq Require Import List Arith QArith Qcanon Lia.
From Verif Require Import Err Num Lists SampleSet_Model SampleSet_Spec Disc_Model Prob_Spec Disc_Spec Disc_Examples Workflow_Model Workflow_Spec Workflow_Examples Batches_Model Batches_Spec Show.
Import ListNotations.
Local Open Scope nat_scope.

Definition early : list cell := map pt [0%Qc; Q2Qc (1 # 4); Q2Qc (3 # 4)].
Definition late : list cell := map pt [Q2Qc (1 # 3); 1%Qc].
Definition unit_interval : option (list (Qc * Qc)) := Some [(0%Qc, 1%Qc)].
Lemma early_late P : 0 < P -> two_batches P 1 1 double doubling None unit_interval early late two thirds.
Proof.
  intros H. split; [exact H|]. split; [exact doubling_rows|]. split; [discriminate|]. split; [discriminate|]. split; [reflexivity|]. split; [exact thirds_nonneg|]. intros d e [=].
Qed.
Definition show_samples (r : result (disc cell)) : option (list Q) := option_map (map (fun c => match c with Vec [Num q] => this q | _ => 0%Q end)) (sample_of r).
