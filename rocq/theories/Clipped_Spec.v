From Coq Require Import List Arith QArith Qcanon.
From Verif Require Import Num SampleSet_Model SampleSet_Spec Disc_Model Disc_Spec Prob_Spec Workflow_Model Workflow_Spec.
Import ListNotations.
Local Open Scope nat_scope.

(** A run of which at least one sample is kept *)
Definition clipped_run (P c d o : nat) (g : cell -> cell) (model : arr cell -> arr cell) (w : volumes_by) (before : bool) (xs ys : list cell) (probs : list Qc) : Prop :=
  0 < P /\ 0 < c /\ row_model d o g model /\ xs <> [] /\ ys <> [] /\ length probs = length ys /\ nonneg probs /\
  (forall v, w = Given v -> length v = length xs /\ nonneg v) /\ (before = false -> w = MonteCarlo).
(** The volumes of the first samples: again Monte Carlo volumes, or the first of
    the given ones *)
Definition first_volumes (c : nat) (w : volumes_by) : volumes_by := match w with MonteCarlo => MonteCarlo | Given v => Given (firstn c v) end.
