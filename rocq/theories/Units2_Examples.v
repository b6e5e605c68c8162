From Coq Require Import List Arith ZArith QArith Qcanon.
From Verif Require Import Err Num Ext SampleSet_Spec Query_Model Volume_Model Volume_Spec Sampling_Model Post_Model Units_Spec Units_Examples Units2_Spec.
Import ListNotations.
Local Open Scope nat_scope.

Definition up_dom : list (Qc * Qc) := [(Q2Qc 10, Q2Qc 30); (0%Qc, 1%Qc)].
Definition up_qs (l : list (list Qc)) : list (list Q) := map (map this) l.
Definition up_blocks : list (list (list Qc * Qc)) := [[([Q2Qc 15; Q2Qc (1 # 4)], Q2Qc (1 # 2)); ([Q2Qc 25; Q2Qc (3 # 4)], Q2Qc (1 # 4))]; [([Q2Qc 30; Q2Qc (3 # 4)], Q2Qc (1 # 4))]].
Lemma up_case : up_qs (regular_values up_dom [2; 1]) = [[15 # 1; 1 # 2]; [25 # 1; 1 # 2]]%Q /\
  up_qs (regular_values (domain_in_units un_a un_b up_dom) [2; 1]) = [[59 # 1; 500 # 1]; [77 # 1; 500 # 1]]%Q /\
  map this (marginal_1D up_dom [2; 2] up_blocks 0) = [1 # 2; 1 # 2]%Q /\
  map this (marginal_1D (domain_in_units un_a un_b up_dom) [2; 2] (map (samples_in_units un_a un_b) up_blocks) 0) = [1 # 2; 1 # 2]%Q.
Proof. repeat split; vm_compute; reflexivity. Qed.
Definition up_fin (r : result (list xnum)) : list Q := match r with Ok l => map (fun x => match x with Fin q => this q | _ => (-1 # 1)%Q end) l | Raise _ => [] end.
Lemma up_volumes : up_fin (exact_volume_1D (fun _ => [1; 0; 2]) (Q2Qc 10) (Q2Qc 30) [Q2Qc 20; Q2Qc 14; Q2Qc 28]) = [7 # 20; 7 # 20; 3 # 10]%Q /\
  up_fin (exact_volume_1D (fun _ => [1; 0; 2]) (Q2Qc 50) (Q2Qc 86) [Q2Qc 68; number_in_units (Q2Qc (9 # 5)) (Q2Qc 32) (Q2Qc 14); number_in_units (Q2Qc (9 # 5)) (Q2Qc 32) (Q2Qc 28)]) = [7 # 20; 7 # 20; 3 # 10]%Q.
Proof. split; vm_compute; reflexivity. Qed.
Lemma up_emulated nn : nn_contract distance2 nn -> estimate_volume_emulated 2 (nn un_values) [[un_zero]] = [Fin 1%Qc; Fin 0%Qc] /\
  estimate_volume_emulated 2 (nn (map (in_units un_three un_zero) un_values)) [[in_units un_three un_zero un_zero]] = [Fin 0%Qc; Fin 1%Qc].
Proof.
  intros H. destruct (un_voronoi nn H) as [A B]. unfold estimate_volume_emulated. cbn [map]. rewrite A, B. split; vm_compute; repeat f_equal; apply Qc_is_canon; reflexivity.
Qed.
