From Coq Require Import String List Arith QArith Qcanon.
From Verif Require Import Err Num Ext PlotVoronoi_Model.
Import ListNotations.

(** The number shown for cell i. *)
Definition cell_number (density : bool) (probs vol : list Qc) (i : nat) (x : Qc) : Prop :=
  exists p v, nth_error probs i = Some p /\ nth_error vol i = Some v /\ x = (if density then p / v else p)%Qc.
(** Probabilities are not negative and not all zero, volumes are positive. *)
Definition plot2_ok (probs vol : list Qc) : Prop :=
  length probs = length vol /\ (forall p, In p probs -> (0 <= p)%Qc) /\ (exists p, In p probs /\ (0 < p)%Qc) /\ forall v, In v vol -> (0 < v)%Qc.
