From Coq Require Import List Arith QArith Qcanon.
From Verif Require Import Num Units_Spec.
Import ListNotations.

(** The domain of the parameters in other units *)
Definition domain_in_units (a b : list Qc) (dom : list (Qc * Qc)) : list (Qc * Qc) :=
  map (fun t => (fst (fst t) * fst (snd t) + snd (fst t), fst (fst t) * snd (snd t) + snd (fst t)))%Qc (combine (combine a b) dom).
(** Samples with their probabilities: the probabilities stay *)
Definition samples_in_units (a b : list Qc) (s : list (list Qc * Qc)) : list (list Qc * Qc) := map (fun e => (in_units a b (fst e), snd e)) s.
(** One parameter in other units *)
Definition number_in_units (u c x : Qc) : Qc := (u * x + c)%Qc.
