(** C124: smoothing of marginals. *)
From Coq Require Import ZArith List Arith Bool Reals Lra Lia.
From Verif Require Import Err CompareR_Model MarginalDist_Model Smooth_Model Smooth_Spec Smooth_Proofs.
Import ListNotations.
Local Open Scope R_scope.

(** With two or more bins the result is a distribution on the same bins. *)
Theorem smooth_is_distribution_partial : forall nx sigma dx marg, (2 <= nx)%nat -> 0 < sigma -> 0 < dx -> length marg = nx -> marginal_ok marg ->
  exists l, smooth_1D nx sigma dx marg = Ok l /\ probability_vector nx l.
Proof. exact smooth_lemma. Qed.
Print Assumptions smooth_is_distribution_partial.
Example smooth_is_distribution_ex : marginal_ok [/ 4; / 2; / 4].
Proof. split; [intros x [<-|[<-|[<-|[]]]]; lra | exists (/ 4); split; [left; reflexivity | lra]]. Qed.
(** One bin: 0/0. *)
Theorem smooth_one_bin_refuted : forall sigma dx x, 0 < sigma -> 0 < dx -> smooth_1D 1 sigma dx [x] = Ok [None].
Proof. exact one_bin_lemma. Qed.
Print Assumptions smooth_one_bin_refuted.
Example smooth_one_bin_ex : smooth_1D 1 10 1 [1] = Ok [None].
Proof. apply one_bin_lemma; lra. Qed.
Theorem smooth_rejects_lengths : forall nx sigma dx marg, length marg <> nx -> length marg <> 1%nat -> smooth_1D nx sigma dx marg = Raise PyValueError.
Proof. exact length_lemma. Qed.
Print Assumptions smooth_rejects_lengths.
Example smooth_rejects_lengths_ex : smooth_1D 3 10 1 [1; 2] = Raise PyValueError.
Proof. apply length_lemma; discriminate. Qed.
(** An odd number of bins: everything is moved one bin to the left. *)
Theorem smooth_centred_odd_refuted : forall q m sigma dx, (1 <= q)%nat -> (1 <= m)%nat -> (m < 2 * q + 1)%nat -> 0 < sigma -> 0 < dx ->
  exists p, smooth_1D (2 * q + 1) sigma dx (unit_mass (2 * q + 1) m) = Ok (map Some p) /\ peak_at p (m - 1).
Proof. exact odd_lemma. Qed.
Print Assumptions smooth_centred_odd_refuted.
(** An even number of bins: everything is moved half a bin to the left. *)
Theorem smooth_centred_even_refuted : forall q m sigma dx, (1 <= q)%nat -> (1 <= m)%nat -> (m < 2 * q)%nat -> 0 < sigma -> 0 < dx ->
  exists p, smooth_1D (2 * q) sigma dx (unit_mass (2 * q) m) = Ok (map Some p) /\ double_peak_at p (m - 1).
Proof. exact even_lemma. Qed.
Print Assumptions smooth_centred_even_refuted.
Example smooth_centred_ex : unit_mass 3 1 = [0; 1; 0] /\ (exists p, smooth_1D 3 10 1 (unit_mass 3 1) = Ok (map Some p) /\ peak_at p 0) /\
  exists p, smooth_1D 4 10 1 (unit_mass 4 2) = Ok (map Some p) /\ double_peak_at p 1.
Proof. split; [reflexivity|]. split; [apply (odd_lemma 1 1); lra || lia | apply (even_lemma 2 2); lra || lia]. Qed.
