From Coq Require Import List Arith QArith Qcanon.
From Verif Require Import Err Num Prob_Model Prob_Spec OutCells_Spec OutCells_Proofs OutCells_Examples.
Import ListNotations.
Local Open Scope nat_scope.

(** C192: finer output cells.  The probability of the contour event of an old
    cell stays if every part of positive probability is hit. *)
Theorem finer_cells_partial : forall g coarse fine ptrs cptrs vols Q C, same_lengths ptrs vols -> nonneg (concat vols) -> nonneg fine -> (forall k, In k (concat ptrs) -> k < length fine) ->
  subdivides g coarse fine -> cptrs = map (map g) ptrs -> prob fine ptrs vols = Ok Q -> prob coarse cptrs vols = Ok C -> forall i p, nth_error coarse i = Some p ->
  (forall k q, nth_error fine k = Some q -> g k = i -> (0 < q)%Qc -> (0 < in_cell (concat ptrs) (concat vols) k)%Qc) ->
  in_parts g (concat ptrs) (concat Q) i = p /\ in_cell (concat cptrs) (concat C) i = p.
Proof. exact finer_keeps. Qed.
Print Assumptions finer_cells_partial.
(** It never grows *)
Theorem finer_cells_less : forall g coarse fine ptrs cptrs vols Q C, same_lengths ptrs vols -> nonneg (concat vols) -> nonneg fine -> (forall k, In k (concat ptrs) -> k < length fine) ->
  subdivides g coarse fine -> cptrs = map (map g) ptrs -> prob fine ptrs vols = Ok Q -> prob coarse cptrs vols = Ok C -> forall i p, nth_error coarse i = Some p ->
  (in_parts g (concat ptrs) (concat Q) i <= in_cell (concat cptrs) (concat C) i)%Qc.
Proof. exact finer_le. Qed.
Print Assumptions finer_cells_less.
(** A part that no sample hits takes its probability away *)
Theorem finer_cells_refuted : forall g coarse fine ptrs vols Q, same_lengths ptrs vols -> nonneg fine -> (forall k, In k (concat ptrs) -> k < length fine) ->
  subdivides g coarse fine -> prob fine ptrs vols = Ok Q -> forall i p k q, nth_error coarse i = Some p -> nth_error fine k = Some q -> g k = i -> (0 < q)%Qc ->
  in_cell (concat ptrs) (concat vols) k = 0%Qc -> (in_parts g (concat ptrs) (concat Q) i <= p - q)%Qc.
Proof. exact finer_loses. Qed.
Print Assumptions finer_cells_refuted.
(** A sample keeps its probability exactly if the part has the same density *)
Theorem finer_cells_same : forall g coarse fine ptrs cptrs vols Q C, same_lengths ptrs vols -> nonneg (concat vols) -> nonneg fine -> (forall k, In k (concat ptrs) -> k < length fine) ->
  subdivides g coarse fine -> cptrs = map (map g) ptrs -> prob fine ptrs vols = Ok Q -> prob coarse cptrs vols = Ok C -> forall j k x q c pk pi,
  nth_error (concat ptrs) j = Some k -> nth_error (concat vols) j = Some x -> (0 < x)%Qc -> nth_error fine k = Some pk -> nth_error coarse (g k) = Some pi ->
  nth_error (concat Q) j = Some q -> nth_error (concat C) j = Some c ->
  (q = c <-> pk * in_cell (concat cptrs) (concat vols) (g k) = pi * in_cell (concat ptrs) (concat vols) k)%Qc.
Proof. exact finer_same. Qed.
Print Assumptions finer_cells_same.
(** Two cells cut into halves; the last part is not hit. *)
Example finer_cells_case : subdivides Nat.div2 oc_coarse oc_fine /\ nonneg oc_fine /\ nonneg (concat oc_vols) /\ same_lengths oc_ptrs oc_vols /\
  oc_shown (prob oc_fine oc_ptrs oc_vols) = [[1 # 4; 1 # 4]; [1 # 16; 3 # 16]]%Q /\
  oc_shown (prob oc_coarse (map (map Nat.div2) oc_ptrs) oc_vols) = [[1 # 4; 1 # 4]; [1 # 8; 3 # 8]]%Q.
Proof. exact oc_case. Qed.
