From Coq Require Import List Arith QArith Qcanon.
From Verif Require Import Err Num Ext Query_Model Query_Spec.
Import ListNotations.
Local Open Scope nat_scope.

(** Two overlapping boxes in the plane. *)
Definition maxes2 : list (list Qc) := [[Q2Qc 2; Q2Qc 2]; [Q2Qc 3; Q2Qc 3]].
Definition mins2 : list (list Qc) := [[0; 0]; [1; 1]]%Qc.
Definition grid2 : list (list Qc) := [[0; 1; Q2Qc 3]; [Q2Qc (-1); 0; 1; Q2Qc 5]]%Qc.
