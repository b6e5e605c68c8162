From Coq Require Import List Arith QArith Qcanon.
From Verif Require Import Err Num Ext Prob_Model Prob_Spec Query_Model SimpleFun_Model OutCells_Spec OutGrid_Spec OutGrid_Proofs OutGrid_Examples.
Import ListNotations.
Local Open Scope nat_scope.

(** C193: cells_per_dimension multiplied.  If every new cell is hit by samples
    of positive volume, the contour event of every old cell keeps its
    probability. *)
Theorem finer_partition_partial : forall dim Q size ms cells, length Q = dim -> length size = dim -> length ms = dim -> length cells = dim -> 1 <= dim ->
  (forall s, In s size -> (0 < s)%Qc) -> (forall m, In m ms -> 0 < m) -> (forall n, In n cells -> 0 < n) ->
  forall s t pf pc outputs fptrs cptrs vols F C, regular_partition dim Q size (multiplied ms cells) = Ok (s, map Fin pf) -> regular_partition dim Q size cells = Ok (t, map Fin pc) ->
  (forall x, In x (concat outputs) -> length x = dim) -> found_in s outputs fptrs -> found_in t outputs cptrs -> same_lengths fptrs vols -> nonneg (concat vols) ->
  prob pf fptrs vols = Ok F -> prob pc cptrs vols = Ok C -> (forall k, k < fold_right Nat.mul 1 (multiplied ms cells) -> (0 < in_cell (concat fptrs) (concat vols) k)%Qc) ->
  forall i p, nth_error pc i = Some p -> in_cell (concat cptrs) (concat F) i = p /\ in_cell (concat cptrs) (concat C) i = p.
Proof. intros dim Q size ms cells a b c d e f g h s t pf pc o fp cp v F C i1 i2 i3 i4 i5 i6 i7 i8 i9 A i p Ep. exact (proj2 (regular_finer_lemma dim Q size ms cells a b c d e f g h s t pf pc o fp cp v F C i1 i2 i3 i4 i5 i6 i7 i8 i9 i p Ep) A). Qed.
Print Assumptions finer_partition_partial.
(** It never grows *)
Theorem finer_partition_less : forall dim Q size ms cells, length Q = dim -> length size = dim -> length ms = dim -> length cells = dim -> 1 <= dim ->
  (forall s, In s size -> (0 < s)%Qc) -> (forall m, In m ms -> 0 < m) -> (forall n, In n cells -> 0 < n) ->
  forall s t pf pc outputs fptrs cptrs vols F C, regular_partition dim Q size (multiplied ms cells) = Ok (s, map Fin pf) -> regular_partition dim Q size cells = Ok (t, map Fin pc) ->
  (forall x, In x (concat outputs) -> length x = dim) -> found_in s outputs fptrs -> found_in t outputs cptrs -> same_lengths fptrs vols -> nonneg (concat vols) ->
  prob pf fptrs vols = Ok F -> prob pc cptrs vols = Ok C -> forall i p, nth_error pc i = Some p -> (in_cell (concat cptrs) (concat F) i <= in_cell (concat cptrs) (concat C) i)%Qc.
Proof. intros dim Q size ms cells a b c d e f g h s t pf pc o fp cp v F C i1 i2 i3 i4 i5 i6 i7 i8 i9 i p Ep. exact (proj1 (regular_finer_lemma dim Q size ms cells a b c d e f g h s t pf pc o fp cp v F C i1 i2 i3 i4 i5 i6 i7 i8 i9 i p Ep)). Qed.
Print Assumptions finer_partition_less.
(** A new cell that is not hit takes its probability away from an old cell *)
Theorem finer_partition_refuted : forall dim Q size ms cells, length Q = dim -> length size = dim -> length ms = dim -> length cells = dim -> 1 <= dim ->
  (forall s, In s size -> (0 < s)%Qc) -> (forall m, In m ms -> 0 < m) -> (forall n, In n cells -> 0 < n) ->
  forall s t pf pc outputs fptrs cptrs vols F, regular_partition dim Q size (multiplied ms cells) = Ok (s, map Fin pf) -> regular_partition dim Q size cells = Ok (t, map Fin pc) ->
  (forall x, In x (concat outputs) -> length x = dim) -> found_in s outputs fptrs -> found_in t outputs cptrs -> same_lengths fptrs vols -> prob pf fptrs vols = Ok F ->
  forall k, k < fold_right Nat.mul 1 (multiplied ms cells) -> in_cell (concat fptrs) (concat vols) k = 0%Qc ->
  exists i p, nth_error pc i = Some p /\ (in_cell (concat cptrs) (concat F) i <= p - 1 / qn (fold_right Nat.mul 1%nat (multiplied ms cells)))%Qc.
Proof. exact regular_loses_lemma. Qed.
Print Assumptions finer_partition_refuted.
(** Every old cell is a union of new ones with the sum of their probabilities,
    and both queries agree with it. *)
Theorem finer_partition_nested : forall dim Q size ms cells, length Q = dim -> length size = dim -> length ms = dim -> length cells = dim -> 1 <= dim ->
  (forall s, In s size -> (0 < s)%Qc) -> (forall m, In m ms -> 0 < m) -> (forall n, In n cells -> 0 < n) ->
  forall s t pf pc, regular_partition dim Q size (multiplied ms cells) = Ok (s, map Fin pf) -> regular_partition dim Q size cells = Ok (t, map Fin pc) -> exists g,
  subdivides g pc pf /\ forall x k e j e', length x = dim -> rect_query s x 1 = Ok [(k, e)] -> rect_query t x 1 = Ok [(j, e')] -> j = g k /\ k < length pf.
Proof. exact regular_nested_lemma. Qed.
Print Assumptions finer_partition_nested.
(** Two cells cut into halves; the last new cell is not hit. *)
Example finer_partition_case : (forall cs, cs = og_cells \/ cs = multiplied og_times og_cells ->
    regular_partition 2 og_ref og_size cs = Ok (fst (og_part cs), map Fin (snd (og_part cs))) /\ found_in (fst (og_part cs)) og_points (og_ptrs cs)) /\
  og_ptrs og_cells = [[0; 0]; [1; 1]] /\ og_ptrs (multiplied og_times og_cells) = [[0; 1]; [2; 2]] /\
  og_shown (prob (snd (og_part og_cells)) (og_ptrs og_cells) og_vols) = [[1 # 4; 1 # 4]; [1 # 4; 1 # 4]]%Q /\
  og_shown (prob (snd (og_part (multiplied og_times og_cells))) (og_ptrs (multiplied og_times og_cells)) og_vols) = [[1 # 4; 1 # 4]; [1 # 8; 1 # 8]]%Q.
Proof. split; [intros cs H; split; [apply og_regular|apply og_found]; exact H|exact og_case]. Qed.
