(** C02, C03: work sharing. *)
From Coq Require Import List Arith ZArith QArith.
From Verif Require Import NumPy Layout_Model Layout_Proofs.
Import ListNotations.
Local Open Scope nat_scope.

(** C02: the counts of the P ranks are non-negative, add up to n and differ by
    at most one (both forms of the count used in the code). *)
Theorem sample_counts_exact : forall n P, (0 < P)%nat ->
  fold_right Z.add 0%Z (map (draw_count n P) (seq 0 P)) = Z.of_nat n /\
  fold_right Z.add 0%Z (map (mc_count n P) (seq 0 P)) = Z.of_nat n.
Proof. exact (fun n P H => conj (draw_count_sum n P H) (mc_count_sum n P H)). Qed.
Print Assumptions sample_counts_exact.
Example sample_counts_exact_ex :
  map (draw_count 10 4) (seq 0 4) = [3; 3; 2; 2]%Z /\ map (mc_count 2 5) (seq 0 5) = [1; 1; 0; 0; 0]%Z.
Proof. split; reflexivity. Qed.

Theorem sample_counts_balanced : forall n P r r', (0 < P)%nat ->
  (0 <= draw_count n P r /\ Z.abs (draw_count n P r - draw_count n P r') <= 1)%Z /\
  (0 <= mc_count n P r /\ Z.abs (mc_count n P r - mc_count n P r') <= 1)%Z.
Proof. exact (fun n P r r' H => conj (draw_count_balanced n P r r' H) (mc_count_balanced n P r r' H)). Qed.
Print Assumptions sample_counts_balanced.
Example sample_counts_balanced_ex : (draw_count 7 3 0 = 3 /\ draw_count 7 3 2 = 2 /\ mc_count 7 3 0 = 3)%Z.
Proof. repeat split; reflexivity. Qed.

(** C02: random_sample_set returns exactly n rows, whatever the generators of
    the ranks return, as long as each returns as many rows as it is asked for. *)
Theorem random_sample_set_count : forall A (draw : nat -> nat -> list A) n P, (0 < P)%nat ->
  (forall r k, length (draw r k) = k) -> length (random_rows draw n P) = n.
Proof. exact @random_rows_length. Qed.
Print Assumptions random_sample_set_count.
Example random_sample_set_count_ex :
  (forall r k : nat, length (repeat r k) = k) /\
  random_rows (fun r k => repeat r k) 5 3 = [0; 0; 1; 1; 2].
Proof. split; [intros; apply repeat_length | reflexivity]. Qed.

(** C03: position i holds the value computed for cell i, every i < num. *)
Theorem strided_cells_each_once : forall A (zero : A) vol num P, (0 < P)%nat ->
  strided_volumes zero vol num P = Some (map vol (seq 0 num)).
Proof. exact @strided_volumes_eq. Qed.
Print Assumptions strided_cells_each_once.
Example strided_cells_each_once_ex :
  map (local_cells 7 3) [0; 1; 2] = [[0; 3; 6]; [1; 4]; [2; 5]] /\
  strided_volumes 99 (fun i => i * i) 7 3 = Some [0; 1; 4; 9; 16; 25; 36].
Proof. split; reflexivity. Qed.
