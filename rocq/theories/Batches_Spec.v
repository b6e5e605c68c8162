From Coq Require Import List Arith QArith Qcanon.
From Verif Require Import Num SampleSet_Model SampleSet_Spec Disc_Model Prob_Spec Workflow_Model Workflow_Spec.
Import ListNotations.
Local Open Scope nat_scope.

(** Two batches of samples with domains that may be merged, a model, and cells
    of the outputs with probabilities *)
Definition two_batches (P d o : nat) (g : cell -> cell) (model : arr cell -> arr cell) (dom1 dom2 : option (list (Qc * Qc))) (xs1 xs2 ys : list cell) (probs : list Qc) : Prop :=
  0 < P /\ row_model d o g model /\ xs1 ++ xs2 <> [] /\ ys <> [] /\ length probs = length ys /\ nonneg probs /\
  compatible_domains (values_set d dom1 xs1) (values_set d dom2 xs2).
(** On every processor the two batches have together as many samples as all
    samples would have if they were split at once. *)
Definition one_batch_fits (P n1 n2 : nat) : Prop := n1 mod P = 0 \/ n2 mod P = 0.
