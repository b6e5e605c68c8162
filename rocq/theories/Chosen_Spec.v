From Coq Require Import List Arith QArith Qcanon.
From Verif Require Import Num SampleSet_Model SampleSet_Spec Disc_Model Disc_Spec Prob_Spec Workflow_Model Workflow_Spec.
Import ListNotations.
Local Open Scope nat_scope.

(** The entries of a row with the given numbers, in the given order *)
Definition only (idx : list nat) (c : cell) : cell := match c with Vec l => Vec (map (fun i => nth i l (Num 0%Qc)) idx) | Num q => Num q end.
Definition row_of (n : nat) (c : cell) : Prop := exists l, c = Vec l /\ length l = n.
(** Samples with d coordinates, a model with o outputs, chosen inputs and outputs,
    and cells of the chosen outputs with probabilities *)
Definition choice (P d o : nat) (g : cell -> cell) (model : arr cell -> arr cell) (dom : option (list (Qc * Qc))) (ins outs : list nat) (xs ys : list cell) (probs : list Qc) : Prop :=
  0 < P /\ row_model d o g model /\ xs <> [] /\ (forall x, In x xs -> row_of d x /\ row_of o (g x)) /\ (forall r, dom = Some r -> length r = d) /\
  (forall i, In i ins -> i < d) /\ (forall i, In i outs -> i < o) /\ ins <> [] /\ outs <> [] /\ ys <> [] /\ length probs = length ys /\ nonneg probs.
