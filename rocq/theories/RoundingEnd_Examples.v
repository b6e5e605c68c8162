From Coq Require Import List Arith ZArith QArith Qcanon.
From Verif Require Import Err Num Prob_Model Prob_Spec Rounding_Model Rounding_Spec Rounding_Examples RoundingEnd_Model RoundingEnd_Spec.
Import ListNotations.
Local Open Scope nat_scope.

(** Four samples on two ranks, seven points, 8 binary digits *)
Definition end_rnd : Qc -> Qc := round_to 8.
Definition end_counts : list nat := [1; 2; 1; 3].
Definition end_vols : list (list Qc) := [[(qn 1 / qn 7)%Qc; (qn 2 / qn 7)%Qc]; [(qn 1 / qn 7)%Qc; (qn 3 / qn 7)%Qc]].
Definition end_vols_fl : list (list Qc) := [[end_rnd (qn 1 / qn 7)%Qc; end_rnd (qn 2 / qn 7)%Qc]; [end_rnd (qn 1 / qn 7)%Qc; end_rnd (qn 3 / qn 7)%Qc]].
Definition end_ptrs2 : list (list nat) := [[0; 0]; [1; 0]].
Definition end_line (r : result (list Qc)) : list Q := match r with Ok l => map this l | Raise _ => [] end.
Definition end_exact : result (list Qc) := bind (prob rounding_probs rounding_ptrs end_vols) (transfer 2 end_ptrs2).
Definition end_floats : result (list Qc) := bind (prob_fl end_rnd (left_sum end_rnd) (left_sum end_rnd) rounding_probs rounding_ptrs end_vols_fl) (transfer_fl (left_sum end_rnd) (left_sum end_rnd) 2 end_ptrs2).
Lemma end_shown : end_line end_exact = [47 # 50; 3 # 50]%Q /\ end_line end_floats = [15 # 16; 245 # 4096]%Q.
Proof. split; vm_compute; reflexivity. Qed.
