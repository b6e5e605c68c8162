From Coq Require Import List Arith QArith Qcanon.
From Verif Require Import Num.
Import ListNotations.

(** Other units: coordinate j becomes a_j times its value plus b_j; lengths are
    multiplied by a_j. *)
Definition in_units (a b v : list Qc) : list Qc := map (fun t => fst (fst t) * snd t + snd (fst t))%Qc (combine (combine a b) v).
Definition length_in_units (a v : list Qc) : list Qc := map (fun t => fst t * snd t)%Qc (combine a v).
(** Squared Euclidean distance *)
Definition distance2 (x y : list Qc) : Qc := qsum (map (fun p => (fst p - snd p) * (fst p - snd p))%Qc (combine x y)).
