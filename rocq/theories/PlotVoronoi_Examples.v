From Coq Require Import List Arith QArith Qcanon.
From Verif Require Import Err Num Ext Show Volume_Model Volume_Spec Volume_Examples PlotVoronoi_Model PlotVoronoi_Spec.
Import ListNotations.
Local Open Scope nat_scope.
Definition probs3 : list Qc := [Q2Qc (1 # 4); Q2Qc (1 # 4); Q2Qc (1 # 2)].
Definition plot3 : pset := {| ps_dim := 1; ps_values := samples3; ps_probs := Some probs3; ps_probs_local := None; ps_lo := 0%Qc; ps_hi := 1%Qc |}.
Definition plot3_local : pset := {| ps_dim := 1; ps_values := samples3; ps_probs := None; ps_probs_local := Some probs3; ps_lo := 0%Qc; ps_hi := 1%Qc |}.
Lemma plot3_ok : plot_set plot3 probs3.
Proof.
  split; [reflexivity|]. split; [reflexivity|]. split; [reflexivity|]. split; [discriminate|]. split; [exact samples3_NoDup|]. split; [reflexivity | exact samples3_in].
Qed.
Definition lines_show (l : lines) : list (Z * Q) * (list Q * list Q) := (map xshow (l_y l), (map this (l_min l), map this (l_max l))).
Lemma lines_show_inj x y : lines_show x = lines_show y -> x = y.
Proof.
  destruct x as [a b c], y as [a' b' c']. unfold lines_show. cbn. intro H. assert (a = a') as -> by (apply xlist_eq; congruence). assert (b = b') as -> by (apply qlist_eq; congruence). assert (c = c') as -> by (apply qlist_eq; congruence). reflexivity.
Qed.
Ltac lines_compute := apply (ok_eq lines_show); [exact lines_show_inj | vm_compute; reflexivity].
