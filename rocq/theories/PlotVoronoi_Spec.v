From Coq Require Import List Arith QArith Qcanon.
From Verif Require Import Err Num Ext Volume_Spec PlotVoronoi_Model.
Import ListNotations.
Local Open Scope nat_scope.

(** A set with distinct samples inside its domain, one probability for each. *)
Definition plot_set (s : pset) (probs : list Qc) : Prop :=
  ps_dim s = 1 /\ ps_probs s = Some probs /\ length probs = length (ps_values s) /\ ps_values s <> [] /\ NoDup (ps_values s) /\
  (ps_lo s < ps_hi s)%Qc /\ forall w, In w (ps_values s) -> (ps_lo s <= w)%Qc /\ (w <= ps_hi s)%Qc.
(** Line k covers the Voronoi cell of the sample v. *)
Definition covers_cell (s : pset) (l : lines) (k : nat) (v : Qc) : Prop :=
  exists a b, nth_error (l_min l) k = Some a /\ nth_error (l_max l) k = Some b /\ (a < b)%Qc /\
    forall x, voronoi_interval (ps_lo s) (ps_hi s) (ps_values s) v x <-> (a <= x)%Qc /\ (x <= b)%Qc.
(** The height of line k is the probability p divided by the length of the line. *)
Definition height_is (l : lines) (k : nat) (p : Qc) : Prop :=
  exists a b, nth_error (l_min l) k = Some a /\ nth_error (l_max l) k = Some b /\ nth_error (l_y l) k = Some (Fin (p / (b - a))%Qc).
