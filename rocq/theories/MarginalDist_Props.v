(** C123: distances of marginals. *)
From Coq Require Import List Arith Reals Lra Lia.
From Verif Require Import Err CompareR_Model MarginalDist_Model MarginalDist_Spec MarginalDist_Proofs MarginalDist_Examples.
Import ListNotations.
Local Open Scope R_scope.

(** The sum over n equally spaced points approximates the integral. *)
Theorem marginal_tv_error : forall f g a b Lf Lg n w, (2 <= n)%nat -> a <= b -> 0 <= Lf -> 0 <= Lg -> lipschitz Lf f a b -> lipschitz Lg g a b -> integral (fun x => Rabs (f x - g x)) a b w ->
  exists r, distance_marginal TV f g a b n = Ok r /\ Rabs (r - / 2 * w) <= sum_error ((Lf + Lg) / 2) a b n.
Proof. exact tv_error_lemma. Qed.
Print Assumptions marginal_tv_error.
(** With enough points distance_marginal and distance_marginal_quad agree. *)
Theorem marginal_tv_agrees_with_quad : forall f g a b Lf Lg quad, a <= b -> 0 <= Lf -> 0 <= Lg -> lipschitz Lf f a b -> lipschitz Lg g a b -> accurate quad (fun x => Rabs (f x - g x)) a b ->
  forall eps, 0 < eps -> exists N, forall n, (N <= n)%nat -> exists r, distance_marginal TV f g a b n = Ok r /\ Rabs (r - distance_quad quad TV f g a b) <= eps.
Proof. exact converge_lemma. Qed.
Print Assumptions marginal_tv_agrees_with_quad.
Theorem marginal_euclid_error : forall f g a b L n w, (2 <= n)%nat -> a <= b -> 0 <= L -> lipschitz L (fun x => Rsqr (f x - g x)) a b -> integral (fun x => Rsqr (f x - g x)) a b w ->
  exists r, distance_marginal Euclid f g a b n = Ok r /\ 0 <= r /\ Rabs (Rsqr r - w) <= sum_error L a b n.
Proof. exact sq_error_lemma. Qed.
Print Assumptions marginal_euclid_error.
Theorem marginal_hell_error : forall f g a b L n w, (2 <= n)%nat -> a <= b -> 0 <= L -> lipschitz L (fun x => / 2 * Rsqr (sqrt (f x) - sqrt (g x))) a b -> integral (fun x => / 2 * Rsqr (sqrt (f x) - sqrt (g x))) a b w ->
  exists r, distance_marginal SqHell f g a b n = Ok r /\ Rabs (r - w) <= sum_error L a b n /\ distance_marginal Hell f g a b n = Ok (sqrt r).
Proof. exact hell_error_lemma. Qed.
Print Assumptions marginal_hell_error.
Example marginal_hell_error_ex : lipschitz 0 (fun x => / 2 * Rsqr (sqrt (flat x) - sqrt (flat x + 3))) 0 1 /\ exists w, integral (fun x => / 2 * Rsqr (sqrt (flat x) - sqrt (flat x + 3))) 0 1 w.
Proof.
  split; [intros x y _ _; unfold flat; rewrite Rminus_diag_eq, Rabs_R0 by reflexivity; lra|]. eexists. exact (integral_const (/ 2 * Rsqr (sqrt 1 - sqrt (1 + 3))) 0 1).
Qed.
Example marginal_error_ex : lipschitz 0 flat 0 1 /\ lipschitz 1 tilt 0 1.
Proof. exact (conj flat_lipschitz tilt_lipschitz). Qed.
Example marginal_euclid_error_ex : lipschitz 0 (fun x => Rsqr (flat x - (flat x + 1))) 0 1 /\ exists w, integral (fun x => Rsqr (flat x - (flat x + 1))) 0 1 w.
Proof.
  split; [intros x y _ _; unfold flat; rewrite Rminus_diag_eq, Rabs_R0 by reflexivity; lra|]. exists (Rsqr (1 - (1 + 1)) * (1 - 0)). exact (integral_const (Rsqr (1 - (1 + 1))) 0 1).
Qed.
(** Distance of distributions. *)
Theorem quad_tv_bounded : forall quad f g a b, a <= b -> density f a b -> density g a b -> accurate quad (fun x => Rabs (f x - g x)) a b -> accurate quad (fun x => Rabs (g x - f x)) a b ->
  0 <= distance_quad quad TV f g a b <= 1 /\ distance_quad quad TV f g a b = distance_quad quad TV g f a b.
Proof. exact quad_tv_lemma. Qed.
Print Assumptions quad_tv_bounded.
Theorem quad_tv_triangle : forall quad f g h a b, a <= b -> accurate quad (fun x => Rabs (f x - g x)) a b -> accurate quad (fun x => Rabs (g x - h x)) a b -> accurate quad (fun x => Rabs (f x - h x)) a b ->
  distance_quad quad TV f h a b <= distance_quad quad TV f g a b + distance_quad quad TV g h a b.
Proof. exact quad_triangle_lemma. Qed.
Print Assumptions quad_tv_triangle.
Theorem quad_tv_zero_iff : forall quad f g a b Lf Lg, a < b -> 0 <= Lf -> 0 <= Lg -> lipschitz Lf f a b -> lipschitz Lg g a b -> accurate quad (fun x => Rabs (f x - g x)) a b ->
  (distance_quad quad TV f g a b = 0 <-> forall x, a <= x <= b -> f x = g x).
Proof. exact quad_zero_lemma. Qed.
Print Assumptions quad_tv_zero_iff.
Theorem quad_hell_bounded : forall quad f g a b, a <= b -> density f a b -> density g a b -> accurate quad (fun x => Rabs (f x - g x)) a b -> accurate quad (fun x => Rabs (g x - f x)) a b ->
  accurate quad (fun x => / 2 * Rsqr (sqrt (f x) - sqrt (g x))) a b ->
  0 <= distance_quad quad SqHell f g a b /\ Rsqr (distance_quad quad Hell f g a b) = distance_quad quad SqHell f g a b /\
  distance_quad quad SqHell f g a b <= distance_quad quad TV f g a b /\ 0 <= distance_quad quad Hell f g a b <= 1.
Proof. exact quad_hell_lemma. Qed.
Print Assumptions quad_hell_bounded.
Theorem quad_kl_nonnegative : forall quad f g a b, a <= b -> density f a b -> density g a b -> (forall x, a < x < b -> 0 < f x /\ 0 < g x) -> accurate quad (fun x => f x * ln (f x / g x)) a b ->
  0 <= distance_quad quad KL f g a b.
Proof. exact quad_kl_lemma. Qed.
Print Assumptions quad_kl_nonnegative.
Example quad_distance_ex : density flat 0 1 /\ density tilt 0 1 /\ (forall x, 0 < x < 1 -> 0 < flat x /\ 0 < tilt x) /\
  (exists quad, accurate quad (fun x => Rabs (flat x - tilt x)) 0 1 /\ accurate quad (fun x => Rabs (tilt x - flat x)) 0 1 /\
     accurate quad (fun x => / 2 * Rsqr (sqrt (flat x) - sqrt (tilt x))) 0 1) /\
  exists quad, accurate quad (fun x => flat x * ln (flat x / tilt x)) 0 1.
Proof.
  split; [exact flat_density|]. split; [exact tilt_density|]. split; [intros x Hx; unfold flat, tilt, slope; lra|]. exact (conj accurate_for_tv_hell accurate_for_kl).
Qed.
Theorem marginal_euclid_agrees_with_quad : forall f g a b L quad, a <= b -> 0 <= L -> lipschitz L (fun x => Rsqr (f x - g x)) a b -> accurate quad (fun x => Rsqr (f x - g x)) a b ->
  forall eps, 0 < eps -> exists N, forall n, (N <= n)%nat -> exists r, distance_marginal Euclid f g a b n = Ok r /\ Rabs (r - distance_quad quad Euclid f g a b) <= eps.
Proof. exact euclid_converge_lemma. Qed.
Print Assumptions marginal_euclid_agrees_with_quad.
Theorem marginal_hell_agrees_with_quad : forall f g a b L quad, a <= b -> 0 <= L -> lipschitz L (fun x => / 2 * Rsqr (sqrt (f x) - sqrt (g x))) a b ->
  accurate quad (fun x => / 2 * Rsqr (sqrt (f x) - sqrt (g x))) a b ->
  forall eps, 0 < eps -> exists N, forall n, (N <= n)%nat -> exists r, distance_marginal SqHell f g a b n = Ok r /\ Rabs (r - distance_quad quad SqHell f g a b) <= eps.
Proof. exact hell_converge_lemma. Qed.
Print Assumptions marginal_hell_agrees_with_quad.
(** The Euclidean distance is the root of the integral of the square, and a distance. *)
Theorem quad_euclid_exact : forall quad f g a b w, a <= b -> accurate quad (fun x => Rsqr (f x - g x)) a b -> integral (fun x => Rsqr (f x - g x)) a b w ->
  0 <= distance_quad quad Euclid f g a b /\ Rsqr (distance_quad quad Euclid f g a b) = w.
Proof. exact quad_euclid_lemma. Qed.
Print Assumptions quad_euclid_exact.
Theorem quad_euclid_symmetric : forall quad f g a b, a <= b -> accurate quad (fun x => Rsqr (f x - g x)) a b -> accurate quad (fun x => Rsqr (g x - f x)) a b ->
  distance_quad quad Euclid f g a b = distance_quad quad Euclid g f a b.
Proof. exact quad_euclid_sym_lemma. Qed.
Print Assumptions quad_euclid_symmetric.
Theorem quad_euclid_triangle : forall quad f g h a b, a <= b -> accurate quad (fun x => Rsqr (f x - g x)) a b -> accurate quad (fun x => Rsqr (g x - h x)) a b ->
  accurate quad (fun x => Rsqr (f x - h x)) a b -> distance_quad quad Euclid f h a b <= distance_quad quad Euclid f g a b + distance_quad quad Euclid g h a b.
Proof. exact quad_euclid_triangle_lemma. Qed.
Print Assumptions quad_euclid_triangle.
Theorem quad_hell_triangle : forall quad f g h a b, a <= b -> accurate quad (fun x => / 2 * Rsqr (sqrt (f x) - sqrt (g x))) a b ->
  accurate quad (fun x => / 2 * Rsqr (sqrt (g x) - sqrt (h x))) a b -> accurate quad (fun x => / 2 * Rsqr (sqrt (f x) - sqrt (h x))) a b ->
  distance_quad quad Hell f h a b <= distance_quad quad Hell f g a b + distance_quad quad Hell g h a b.
Proof. exact quad_hell_triangle_lemma. Qed.
Print Assumptions quad_hell_triangle.
Example quad_euclid_ex : let quad := fun (h : R -> R) a b => h 0 * (b - a) in
  accurate quad (fun x => Rsqr (flat x - (flat x + 3))) 0 2 /\ distance_quad quad Euclid flat (fun x => flat x + 3) 0 2 = sqrt 18.
Proof.
  cbv zeta. split; [exact (integral_const (Rsqr (1 - (1 + 3))) 0 2)|]. cbn. f_equal. unfold flat, Rsqr. ring.
Qed.
(** 'norm' integrates the difference itself: the distance of any two densities is 0. *)
Theorem quad_norm_refuted : forall quad f g a b, density f a b -> density g a b -> accurate quad (fun x => f x - g x) a b -> distance_quad quad Norm f g a b = 0.
Proof. exact quad_norm_lemma. Qed.
Print Assumptions quad_norm_refuted.
Example quad_norm_ex : accurate (fun _ _ _ => 0) (fun x => flat x - tilt x) 0 1 /\ flat 0 <> tilt 0.
Proof. exact norm_example. Qed.
(** 'norm' of distance_marginal grows with the number of points. *)
Theorem marginal_norm_refuted : forall f g c a b n, (1 <= n)%nat -> (forall x, f x - g x = c) -> distance_marginal Norm f g a b n = Ok (sqrt (INR n) * Rabs c).
Proof. exact norm_grows_lemma. Qed.
Print Assumptions marginal_norm_refuted.
Example marginal_norm_ex : (forall x, slope x - (fun y => slope y - 3) x = 3) /\ distance_marginal Norm slope (fun y => slope y - 3) 0 1 4 = Ok (sqrt (INR 4) * Rabs 3).
Proof. split; [intro x; lra | apply norm_grows_lemma; [lia | intro x; lra]]. Qed.
