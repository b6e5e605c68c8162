From Coq Require Import List Arith QArith Qcanon.
From Verif Require Import Err Num Ext PlotVoronoi_Model PlotVoronoi2_Spec.
Import ListNotations.
Definition probs2 : list Qc := [Q2Qc (1 # 4); Q2Qc (3 # 4)].
Definition vol2 : list Qc := [Q2Qc (1 # 8); Q2Qc (7 # 8)].
Definition plot2 : pset := {| ps_dim := 2; ps_values := []; ps_probs := Some probs2; ps_probs_local := None; ps_lo := 0%Qc; ps_hi := 1%Qc |}.
Lemma plot2_ok_ex : plot2_ok probs2 vol2.
Proof.
  split; [reflexivity|]. split; [intros p [<-|[<-|[]]]; discriminate|]. split; [exists (Q2Qc (1 # 4)); split; [left; reflexivity | reflexivity]|]. intros v [<-|[<-|[]]]; reflexivity.
Qed.
