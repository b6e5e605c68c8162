(** bet/sample.py:2174-2187, ball_sample_set.exact_volume.  [unit] is the constant
    2^dim gamma(1 + 1/p)^dim / gamma(1 + dim/p), the volume of the unit ball.  As for
    rectangles, a degenerate domain and one of the wrong dimension are rejected. *)
From Coq Require Import List Arith Bool QArith Qcanon.
From Verif Require Import Err Num Ext Query_Model.
Import ListNotations.
Local Open Scope nat_scope.

Definition ball_exact_volume (unit : Qc) (dom : list (Qc * Qc)) (s : bset) : option (list Qc) :=
  if (length dom =? bdim s) && forallb (fun p => negb (qeqb (fst p) (snd p))) dom
  then let domain_vol := qprod (map (fun p => (snd p - fst p)%Qc) dom) in
       let v := map (fun r => (unit * r ^ bdim s * (1 / domain_vol))%Qc) (radii s) in
       Some (v ++ [(1 - qsum v)%Qc])
  else None.
