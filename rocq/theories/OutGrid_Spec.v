From Coq Require Import List Arith QArith Qcanon.
From Verif Require Import Err Num Ext Query_Model.
Import ListNotations.
Local Open Scope nat_scope.

(** cells_per_dimension multiplied, dimension by dimension *)
Definition multiplied (ms cells : list nat) : list nat := map (fun p => fst p * snd p) (combine ms cells).
(** The cells in which the query of the set finds the outputs, on every process *)
Definition found_in (s : rset) (outputs : list (list (list Qc))) (ptrs : list (list nat)) : Prop :=
  Forall2 (Forall2 (fun x k => exists e, rect_query s x 1 = Ok [(k, e)])) outputs ptrs.
