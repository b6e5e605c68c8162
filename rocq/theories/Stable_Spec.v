(** How the solution of the inverse problem depends on its data. *)
From Coq Require Import List Arith QArith Qcanon.
From Verif Require Import Num SampleSet_Model SampleSet_Spec Prob_Spec Disc_Model Workflow_Model Workflow_Spec.
Import ListNotations.
Local Open Scope nat_scope.

(** The sum of the differences, entry by entry. *)
Definition apart (p q : list Qc) : Qc := qsum (map (fun ab => qabs (fst ab - snd ab)%Qc) (combine p q)).
Definition combined (a b : Qc) (p q : list Qc) : list Qc := map (fun xy => (a * fst xy + b * snd xy)%Qc) (combine p q).
Definition scaled (a : Qc) (p : list Qc) : list Qc := map (fun x => (a * x)%Qc) p.
Definition below (p q : list Qc) : Prop := forall k a b, nth_error p k = Some a -> nth_error q k = Some b -> (a <= b)%Qc.
(** Each cell of the list has samples of positive total volume. *)
Definition has_volume (c : list nat) (v : list Qc) (i : nat) : Prop := (0 < total_in (combine c v) i)%Qc.

(** Finer samples: sample number j of the finer list belongs to sample number
    [nth j part] of the other, which has the volume of all its parts. *)
Definition parts_of (part : list nat) (u : list Qc) (k : nat) : Qc := total_in (combine part u) k.

(** A model, samples and their volumes, and cells of the outputs on which the
    inverse problem can be solved on P processors. *)
Definition posed (nn : list cell -> cell -> nat) (P d o : nat) (g : cell -> cell) (model : arr cell -> arr cell) (w : volumes_by) (before : bool) (xs ys : list cell) : Prop :=
  0 < P /\ row_model d o g model /\ xs <> [] /\ ys <> [] /\ (forall y, nn ys y < length ys) /\
  (forall v, w = Given v -> length v = length xs /\ nonneg v) /\ (before = false -> w = MonteCarlo).
(** Probabilities of the cells [ys]. *)
Definition on_cells (ys : list cell) (p : list Qc) : Prop := length p = length ys /\ nonneg p.
(** The numbers of the cells with the outputs of the samples. *)
Definition cells_of (nn : list cell -> cell -> nat) (g : cell -> cell) (ys xs : list cell) : list nat := map (fun x => nn ys (g x)) xs.
