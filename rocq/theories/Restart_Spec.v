From Coq Require Import List Arith QArith Qcanon.
From Verif Require Import Num NumPy SampleSet_Model SampleSet_Spec Disc_Model Disc_Spec Prob_Spec Workflow_Model Workflow_Spec Restart_Model.
Import ListNotations.
Local Open Scope nat_scope.

(** How many of n samples process r of P holds *)
Definition held (n P r : nat) : nat := n / P + (if r <? n mod P then 1 else 0).
(** A calculation on P processes whose file was last written by process w, continued
    on P' processes *)
Definition interrupted (P w P' d o : nat) (g : cell -> cell) (model : arr cell -> arr cell) (vol : volumes_by) (before : bool) (xs ys : list cell) (probs : list Qc) : Prop :=
  w < P /\ 0 < P' /\ row_model d o g model /\ xs <> [] /\ ys <> [] /\ length probs = length ys /\ nonneg probs /\
  (forall v, vol = Given v -> length v = length xs /\ nonneg v) /\ (before = false -> vol = MonteCarlo).
(** Continued properly: on one process before and after, or localized and with
    pointers computed in the second run *)
Definition proper (P P' : nat) (localize : bool) (m : stopped) : Prop :=
  (P = 1 /\ P' = 1) \/ (localize = true /\ m <> AfterOutput false).
(** The samples of process w, P' times *)
Definition copies {A} (w P P' : nat) (l : list A) : list A := concat (repeat (nth w (array_split l P) []) P').
