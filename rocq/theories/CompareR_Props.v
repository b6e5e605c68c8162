From Coq Require Import List Reals Lra.
From Verif Require Import CompareR_Model CompareR_Proofs.
Import ListNotations.
Local Open Scope R_scope.

(** C86 *)
Theorem hell_is_metric : forall factor p q r, 0 < factor -> length p = length q -> length q = length r ->
  (forall x, In x p \/ In x q \/ In x r -> 0 <= x) ->
  0 <= hell factor p q /\ hell factor p q = hell factor q p /\ (hell factor p q = 0 <-> p = q) /\ hell factor p r <= hell factor p q + hell factor q r /\ Rsqr (hell factor p q) = sqhell factor p q.
Proof. exact hell_metric_lemma. Qed.
Print Assumptions hell_is_metric.
Theorem hell_bounded : forall p q, length p = length q -> (forall x, In x p \/ In x q -> 0 <= x) -> 0 < rsum p -> 0 < rsum q ->
  sqhell 1 (rnorm p) (rnorm q) <= 1 /\ sqhell 1 (rnorm p) (rnorm q) <= rsum (map (fun e => Rabs (fst e - snd e)) (combine (rnorm p) (rnorm q))) / 2.
Proof. exact hell_bounded_lemma. Qed.
Print Assumptions hell_bounded.
(** With normalize the factor is still one over the number of points. *)
Theorem hell_normalize_refuted : forall n p q, 0 < n -> hell (1 / n) p q = hell 1 p q / sqrt n.
Proof. exact hell_normalized_scale. Qed.
Print Assumptions hell_normalize_refuted.
Theorem euclid_is_metric : forall factor p q r, 0 < factor -> length p = length q -> length q = length r ->
  0 <= euclid factor p q /\ euclid factor p q = euclid factor q p /\ (euclid factor p q = 0 <-> p = q) /\ euclid factor p r <= euclid factor p q + euclid factor q r.
Proof. exact euclid_metric_lemma. Qed.
Print Assumptions euclid_is_metric.
(** With the factor one over the number of points: the root mean square difference. *)
Theorem euclid_is_root_of_scaled_squares : forall factor p q, 0 <= factor -> 0 <= euclid factor p q /\
  Rsqr (euclid factor p q) = factor * rsum (map (fun e => Rsqr (fst e - snd e)) (combine p q)).
Proof. exact euclid_square_lemma. Qed.
Print Assumptions euclid_is_root_of_scaled_squares.
Example hell_ex : sqhell 1 [1; 0] [0; 1] = 1 /\ 0 < rsum [1; 0].
Proof. unfold sqhell, sq_diff, Rsqr. simpl. rewrite sqrt_0, sqrt_1. lra. Qed.

(** C87 *)
Theorem kl_nonnegative : forall p q, length p = length q -> (forall x, In x p \/ In x q -> 0 <= x) -> 0 < rsum p -> 0 < rsum q ->
  (forall v, kl p q = Some v -> 0 <= v) /\ (kl p q = Some 0 <-> rnorm p = rnorm q).
Proof. exact kl_lemma. Qed.
Print Assumptions kl_nonnegative.
Example kl_ex : kl [1; 0] [2; 2] = Some (ln 2) /\ kl [2; 2] [1; 0] = None.
Proof. exact kl_example. Qed.
