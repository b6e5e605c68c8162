From Coq Require Import List Arith QArith Qcanon.
From Verif Require Import Num SampleSet_Model SampleSet_Spec Disc_Model Prob_Spec Workflow_Model Workflow_Spec.
Import ListNotations.
Local Open Scope nat_scope.

Fixpoint cell_dec (a b : cell) {struct a} : {a = b} + {a <> b}.
Proof. decide equality; [apply Qc_eq_dec|apply list_eq_dec; exact cell_dec]. Defined.

(** The nearest point of a list to one of its points is equal to it. *)
Definition finds_equal (nn : list cell -> cell -> nat) : Prop := forall ys y, In y ys -> nth_error ys (nn ys y) = Some y.
(** The volume of all samples with output [y]. *)
Definition volume_with (g : cell -> cell) (samples : list (cell * Qc)) (y : cell) : Qc :=
  qsum (map snd (filter (fun xv => if cell_dec (g (fst xv)) y then true else false) samples)).
(** Every output has probability 1/n, which the samples with this output share
    by volume. *)
Definition shared_evenly (g : cell -> cell) (samples : list (cell * Qc)) : list Qc :=
  map (fun xv => (1 / qn (length samples) * (snd xv / volume_with g samples (g (fst xv))))%Qc) samples.
(** The number of different outputs. *)
Definition different (ys : list cell) : nat := length (nodup cell_dec ys).
(** A model, samples and volumes on P processors *)
Definition sampled (P d o : nat) (g : cell -> cell) (model : arr cell -> arr cell) (w : volumes_by) (before : bool) (xs : list cell) : Prop :=
  0 < P /\ row_model d o g model /\ xs <> [] /\ (forall v, w = Given v -> length v = length xs /\ nonneg v) /\ (before = false -> w = MonteCarlo).
Definition all_positive (l : list Qc) : Prop := forall x, In x l -> (0 < x)%Qc.
