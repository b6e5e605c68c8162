From Coq Require Import List Arith QArith Qcanon.
From Verif Require Import Num Ext Query_Spec Volume_Spec.
Import ListNotations.
Local Open Scope nat_scope.

(** Finite non-negative numbers that sum to one. *)
Definition probability_vector (l : list xnum) : Prop :=
  exists v, l = map Fin v /\ (forall x, In x v -> (0 <= x)%Qc) /\ qsum v = 1%Qc.

(** The box [left, right] has side length [size_j / cells_j] in direction j. *)
Definition cell_sides (size : list Qc) (cells : list nat) (left right : list Qc) : Prop :=
  length left = length size /\ length right = length size /\
  forall j s n l r, nth_error size j = Some s -> nth_error cells j = Some n ->
    nth_error left j = Some l -> nth_error right j = Some r -> (r - l = s / qn n)%Qc.
