From Coq Require Import List Arith QArith Qcanon.
From Verif Require Import Err Num Ext Gradient_Model Gradient_Spec Units_Spec Units3_Spec Units3_Proofs Units3_Examples.
Import ListNotations.
Local Open Scope nat_scope.

(** C196: gradients in other units.  Without normalization every derivative is
    multiplied by the factor of its quantity of interest and divided by that of
    its parameter, for every model. *)
Theorem gradient_units_forward_partial : forall d o u c w z f f' cs r, length u = d -> length c = d -> length r = d -> 0 < d -> cs <> [] -> points d cs ->
  (forall q, In q u -> (0 < q)%Qc) -> (forall h, In h r -> h <> 0%Qc) -> same_model d o u c w z f f' -> forall mf, exists pts g g', pick_ffd_points d (Some cs) r = Ok pts /\
  pick_ffd_points d (Some (map (in_units u c) cs)) (length_in_units u r) = Ok (map (in_units u c) pts) /\
  calculate_gradients_ffd mf d o (Some pts) (Some (map (outputs o f) pts)) false = Ok g /\
  calculate_gradients_ffd mf d o (Some (map (in_units u c) pts)) (Some (map (outputs o f') (map (in_units u c) pts))) false = Ok g' /\
  forall k a b, k < length cs -> a < o -> b < d -> exists q, entry (g_jac g) k a b = Some (Fin q) /\ entry (g_jac g') k a b = Some (Fin (w a * q / nth b u 0))%Qc.
Proof. exact ffd_gradients_units. Qed.
Print Assumptions gradient_units_forward_partial.
Theorem gradient_units_centered_partial : forall d o u c w z f f' cs r, length u = d -> length c = d -> length r = d -> 0 < d -> cs <> [] -> points d cs ->
  (forall q, In q u -> (0 < q)%Qc) -> (forall h, In h r -> h <> 0%Qc) -> same_model d o u c w z f f' -> forall mf, exists pts g g', pick_cfd_points d (Some cs) r = Ok pts /\
  pick_cfd_points d (Some (map (in_units u c) cs)) (length_in_units u r) = Ok (map (in_units u c) pts) /\
  calculate_gradients_cfd mf d o (Some pts) (Some (map (outputs o f) pts)) false = Ok g /\
  calculate_gradients_cfd mf d o (Some (map (in_units u c) pts)) (Some (map (outputs o f') (map (in_units u c) pts))) false = Ok g' /\
  forall k a b, k < length cs -> a < o -> b < d -> exists q, entry (g_jac g) k a b = Some (Fin q) /\ entry (g_jac g') k a b = Some (Fin (w a * q / nth b u 0))%Qc.
Proof. exact cfd_gradients_units. Qed.
Print Assumptions gradient_units_centered_partial.
(** With normalization, the default, they do not: the gradient (1/2, 1/2)
    becomes (1/4, 3/4) although the factors are 1 and 3, 1. *)
Theorem gradient_units_normalized_refuted : exists f f' u c cs r, same_model 2 1 u c (fun _ => Q2Qc 1) (fun _ => 0%Qc) f f' /\ map this u = [3 # 1; 1 # 1]%Q /\
  ug_jac true f cs r = [[[1 # 2; 1 # 2]]]%Q /\ ug_jac true f' (map (in_units u c) cs) (length_in_units u r) = [[[1 # 4; 3 # 4]]]%Q.
Proof. exists ug_f, ug_f', ug_u, ug_c, ug_cs, ug_r. split; [exact ug_same|]. split; [reflexivity|]. exact (proj2 (proj2 ug_case)). Qed.
Print Assumptions gradient_units_normalized_refuted.
Example gradient_units_case : same_model 2 1 ug_u ug_c (fun _ => Q2Qc 1) (fun _ => 0%Qc) ug_f ug_f' /\
  ug_jac false ug_f ug_cs ug_r = [[[1 # 1; 1 # 1]]]%Q /\ ug_jac false ug_f' (map (in_units ug_u ug_c) ug_cs) (length_in_units ug_u ug_r) = [[[1 # 3; 1 # 1]]]%Q.
Proof. split; [exact ug_same|]. split; [exact (proj1 ug_case)|exact (proj1 (proj2 ug_case))]. Qed.
