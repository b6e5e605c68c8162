From Coq Require Import List Arith QArith Qcanon.
From Verif Require Import Num Sampling_Spec.
Import ListNotations.
Local Open Scope nat_scope.

(** The p-th power of the distance in the p-norm, p >= 1: the same sample is
    nearest for the power and for the distance. *)
Definition pdist (p : nat) (x v : list Qc) : Qc := qsum (map (fun e => (qabs (fst e - snd e) ^ p)%Qc) (combine x v)).
(** The distance for p = inf. *)
Definition supdist (x v : list Qc) : Qc := fold_right (fun e m => if qltb m (qabs (fst e - snd e)) then qabs (fst e - snd e) else m) 0%Qc (combine x v).

(** The box with the sample in the middle, with sides of one n-th of the domain. *)
Definition cell_box (domain : list (Qc * Qc)) (ns : list nat) (v : list Qc) : list (Qc * Qc) :=
  map (fun e => let '((ab, n), y) := e in let h := ((snd ab - fst ab) / qn (2 * n))%Qc in ((y - h)%Qc, (y + h)%Qc)) (combine (combine domain ns) v).
Fixpoint box_volume (d : list (Qc * Qc)) : Qc :=
  match d with [] => 1 | ab :: r => (snd ab - fst ab) * box_volume r end%Qc.
(** The corresponding breakpoints for a partition into boxes. *)
Definition breaks (domain : list (Qc * Qc)) (ns : list nat) : list (list Qc) :=
  map (fun e => map (fun k => (fst (fst e) + qn k * ((snd (fst e) - fst (fst e)) / qn (snd e)))%Qc) (seq 0 (snd e + 1))) (combine domain ns).
