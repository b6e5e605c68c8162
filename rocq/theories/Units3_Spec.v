From Coq Require Import List Arith QArith Qcanon.
From Verif Require Import Num Gradient_Spec Units_Spec.
Import ListNotations.
Local Open Scope nat_scope.

(** The same model with parameters in units (u, c) and quantity of interest i in
    units (w i, z i) *)
Definition same_model (d o : nat) (u c : list Qc) (w z : nat -> Qc) (f f' : qoi) : Prop :=
  forall x i, length x = d -> i < o -> f' i (in_units u c x) = (w i * f i x + z i)%Qc.
