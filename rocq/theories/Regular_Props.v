From Coq Require Import List Arith QArith Qcanon Lia.
From Verif Require Import Err Num Ext Query_Model Volume_Model Volume_Spec SampleSet_Spec Sampling_Model Sampling_Spec Regular_Spec Regular_Proofs Show.
Import ListNotations.
Local Open Scope nat_scope.

(** C136 *)
Theorem regular_cells : forall p domain ns x i v, 0 < p -> length domain = length ns -> (forall n, In n ns -> 0 < n) -> (forall ab, In ab domain -> (fst ab < snd ab)%Qc) ->
  inside_closed domain x -> nth_error (regular_values domain ns) i = Some v ->
  (nearest (pdist p) (regular_values domain ns) x i <-> inside_closed (cell_box domain ns v) x).
Proof. exact regular_cells_lemma. Qed.
Print Assumptions regular_cells.
Theorem regular_cells_cover : forall domain ns x, length domain = length ns -> (forall n, In n ns -> 0 < n) -> (forall ab, In ab domain -> (fst ab < snd ab)%Qc) ->
  inside_closed domain x -> exists i v, nth_error (regular_values domain ns) i = Some v /\ inside_closed (cell_box domain ns v) x.
Proof. exact regular_cover_lemma. Qed.
Print Assumptions regular_cells_cover.
Example regular_cells_ex : regular_values inf_domain [1; 2] = [[Q2Qc (5 # 1); Q2Qc (1 # 2)]; [Q2Qc (5 # 1); Q2Qc (3 # 2)]] /\
  map fst (cell_box inf_domain [1; 2] [Q2Qc (5 # 1); Q2Qc (1 # 2)]) = [0%Qc; 0%Qc] /\ map snd (cell_box inf_domain [1; 2] [Q2Qc (5 # 1); Q2Qc (1 # 2)]) = [Q2Qc (10 # 1); 1%Qc] /\ inside_closed inf_domain inf_point.
Proof. split; [qc_compute|]. split; [qc_compute|]. split; [qc_compute|]. repeat constructor; discriminate. Qed.

(** The Monte Carlo assumption on volumes is exact for regular samples. *)
Theorem regular_mc_exact : forall domain ns i v, length domain = length ns -> (forall n, In n ns -> 0 < n) -> (forall ab, In ab domain -> (fst ab < snd ab)%Qc) ->
  nth_error (regular_values domain ns) i = Some v ->
  nth_error (estimate_volume_mc (length (regular_values domain ns))) i = Some (Fin (box_volume (cell_box domain ns v) / box_volume domain)%Qc).
Proof. exact mc_exact_lemma. Qed.
Print Assumptions regular_mc_exact.
Theorem regular_1D_volumes : forall (argsort : list Qc -> list nat) a b n, 2 <= n -> (a < b)%Qc ->
  is_argsort (concat (regular_values [(a, b)] [n])) (argsort (concat (regular_values [(a, b)] [n]))) ->
  exact_volume_1D argsort a b (concat (regular_values [(a, b)] [n])) = Ok (estimate_volume_mc n).
Proof. exact regular_1D_volumes_lemma. Qed.
Print Assumptions regular_1D_volumes.
Theorem regular_box_volumes : forall domain ns, length domain = length ns -> (forall n, In n ns -> 0 < n) -> (forall ab, In ab domain -> (fst ab < snd ab)%Qc) -> domain <> [] ->
  exists s, cart_setup (length domain) (breaks domain ns) = Ok s /\
    exact_volume_lebesgue domain s = Some (repeat (1 / qn (length (regular_values domain ns)))%Qc (length (regular_values domain ns)) ++ [0%Qc]).
Proof. exact regular_boxes_lemma. Qed.
Print Assumptions regular_box_volumes.
Example regular_volumes_ex : concat (regular_values [(0%Qc, Q2Qc (3 # 1))] [3]) = [Q2Qc (1 # 2); Q2Qc (3 # 2); Q2Qc (5 # 2)] /\
  exact_volume_1D (fun _ => [0; 1; 2]) 0%Qc (Q2Qc (3 # 1)) [Q2Qc (1 # 2); Q2Qc (3 # 2); Q2Qc (5 # 2)] = Ok (repeat (Fin (Q2Qc (1 # 3))) 3) /\
  breaks inf_domain [1; 2] = [[0%Qc; Q2Qc (10 # 1)]; [0%Qc; 1%Qc; Q2Qc (2 # 1)]].
Proof. split; [qc_compute|]. split; qc_compute. Qed.

(** For p = inf the samples of the boxes are still nearest, but points may have
    other nearest samples whose boxes do not contain them. *)
Theorem regular_cells_inf_partial : forall domain ns x i v, length domain = length ns -> (forall n, In n ns -> 0 < n) -> (forall ab, In ab domain -> (fst ab < snd ab)%Qc) ->
  inside_closed domain x -> nth_error (regular_values domain ns) i = Some v ->
  inside_closed (cell_box domain ns v) x -> nearest supdist (regular_values domain ns) x i.
Proof. exact regular_sup_lemma. Qed.
Print Assumptions regular_cells_inf_partial.
Theorem regular_cells_inf_refuted : exists domain ns x i v, length domain = length ns /\ (forall n, In n ns -> 0 < n) /\ (forall ab, In ab domain -> (fst ab < snd ab)%Qc) /\
  inside_closed domain x /\ nth_error (regular_values domain ns) i = Some v /\ nearest supdist (regular_values domain ns) x i /\ ~ inside_closed (cell_box domain ns v) x.
Proof. exact regular_sup_witness. Qed.
Print Assumptions regular_cells_inf_refuted.
