(** A concrete set for the examples of CompareInit_Props.v. *)
From Coq Require Import List Arith QArith Qcanon.
From Verif Require Import Err Num Ext CompareInit_Model.
Import ListNotations.

Definition one_minus (v : points) : result (list xnum) := Ok (map (fun r => Fin (1 - nth 0 r 0))%Qc v).
Definition identity (v : points) : result (list xnum) := Ok (map (fun r => Fin (nth 0 r 0))%Qc v).
Definition set_ex : mset := mk_mset true 1 (Some [[0%Qc]; [1%Qc]]) one_minus identity.
Definition voronoi_ex : mset := mk_mset false 1 (Some [[0%Qc]; [1%Qc]]) one_minus identity.
