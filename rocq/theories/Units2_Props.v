From Coq Require Import List Arith QArith Qcanon.
From Verif Require Import Err Num Ext SampleSet_Spec Query_Model Volume_Model Volume_Spec Sampling_Model Post_Model Units_Spec Units_Examples Units2_Spec Units2_Proofs Units2_Examples.
Import ListNotations.
Local Open Scope nat_scope.

(** C195: units of the parameters.  The samples made from the same draws are
    the converted samples. *)
Theorem parameter_units_samples : forall a b dom,
  (forall U, uniform_values (domain_in_units a b dom) U = map (in_units a b) (uniform_values dom U)) /\ uniform_domain (domain_in_units a b dom) = domain_in_units a b (uniform_domain dom) /\
  (forall H P, lhs_values (domain_in_units a b dom) H P = map (in_units a b) (lhs_values dom H P)) /\
  (forall ns, length a = length b -> length a = length dom -> length dom = length ns -> regular_values (domain_in_units a b dom) ns = map (in_units a b) (regular_values dom ns)).
Proof. intros a b dom. split; [exact (uniform_units a b dom)|]. split; [exact (uniform_domain_units a b dom)|]. split; [exact (lhs_units a b dom)|exact (regular_units a b dom)]. Qed.
Print Assumptions parameter_units_samples.
(** Exact volumes in one dimension *)
Theorem parameter_units_volumes_1D : forall u c, (0 < u)%Qc -> (forall xs p, is_argsort (map (number_in_units u c) xs) p <-> is_argsort xs p) /\
  forall argsort argsort' lo hi xs, argsort' (map (number_in_units u c) xs) = argsort xs ->
  exact_volume_1D argsort' (number_in_units u c lo) (number_in_units u c hi) (map (number_in_units u c) xs) = exact_volume_1D argsort lo hi xs.
Proof. intros u c U. split; [intros xs p; exact (argsort_units (u, c) xs p U)|intros f g lo hi xs; exact (volume_1D_units f g (u, c) lo hi xs U)]. Qed.
Print Assumptions parameter_units_volumes_1D.
(** Volumes of rectangles *)
Theorem parameter_units_rectangles : forall a b dom, length a = length b -> length a = length dom -> (forall u, In u a -> (0 < u)%Qc) ->
  forall maxes mins s, rect_setup (length a) maxes mins = Ok s -> exists s', rect_setup (length a) (map (in_units a b) maxes) (map (in_units a b) mins) = Ok s' /\
  exact_volume_lebesgue (domain_in_units a b dom) s' = exact_volume_lebesgue dom s.
Proof. exact rectangles_lemma. Qed.
Print Assumptions parameter_units_rectangles.
(** Marginals *)
Theorem parameter_units_marginals : forall a b dom, length a = length b -> length a = length dom -> (forall u, In u a -> (0 < u)%Qc) ->
  forall nbins blocks, (forall bl e, In bl blocks -> In e bl -> length (fst e) = length a) -> forall i j, i < length a -> j < length a ->
  marginal_1D (domain_in_units a b dom) nbins (map (samples_in_units a b) blocks) i = marginal_1D dom nbins blocks i /\
  marginal_2D (domain_in_units a b dom) nbins (map (samples_in_units a b) blocks) i j = marginal_2D dom nbins blocks i j.
Proof. intros a b dom L1 L2 P n bl HL i j Hi Hj. split; [apply marginal_1D_units|apply marginal_2D_units]; assumption. Qed.
Print Assumptions parameter_units_marginals.
(** Emulated volumes of Voronoi cells change, for every nearest neighbour search *)
Theorem parameter_units_emulated_refuted : forall nn, nn_contract distance2 nn -> exists values x a b, length a = length x /\ length b = length x /\ (forall u, In u a -> (0 < u)%Qc) /\
  estimate_volume_emulated (length values) (nn (map (in_units a b) values)) [[in_units a b x]] <> estimate_volume_emulated (length values) (nn values) [[x]].
Proof.
  intros nn H. exists un_values, un_zero, un_three, un_zero. destruct (up_emulated nn H) as [A B]. change (length un_values) with 2. rewrite A, B. repeat split; [|discriminate]. intros u [<-|[<-|[]]]; reflexivity.
Qed.
Print Assumptions parameter_units_emulated_refuted.
Example parameter_units_case : up_qs (regular_values up_dom [2; 1]) = [[15 # 1; 1 # 2]; [25 # 1; 1 # 2]]%Q /\
  up_qs (regular_values (domain_in_units un_a un_b up_dom) [2; 1]) = [[59 # 1; 500 # 1]; [77 # 1; 500 # 1]]%Q /\
  map this (marginal_1D up_dom [2; 2] up_blocks 0) = [1 # 2; 1 # 2]%Q /\
  map this (marginal_1D (domain_in_units un_a un_b up_dom) [2; 2] (map (samples_in_units un_a un_b) up_blocks) 0) = [1 # 2; 1 # 2]%Q.
Proof. exact up_case. Qed.
Example parameter_units_volumes_case : up_fin (exact_volume_1D (fun _ => [1; 0; 2]) (Q2Qc 10) (Q2Qc 30) [Q2Qc 20; Q2Qc 14; Q2Qc 28]) = [7 # 20; 7 # 20; 3 # 10]%Q /\
  up_fin (exact_volume_1D (fun _ => [1; 0; 2]) (Q2Qc 50) (Q2Qc 86) [Q2Qc 68; number_in_units (Q2Qc (9 # 5)) (Q2Qc 32) (Q2Qc 14); number_in_units (Q2Qc (9 # 5)) (Q2Qc 32) (Q2Qc 28)]) = [7 # 20; 7 # 20; 3 # 10]%Q.
Proof. exact up_volumes. Qed.
