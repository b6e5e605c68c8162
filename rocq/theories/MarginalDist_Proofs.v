From Coq Require Import ZArith List Arith Reals Lra Lia Psatz.
From Verif Require Import Err CompareR_Model MarginalDist_Model MarginalDist_Spec.
Import ListNotations.
Local Open Scope R_scope.

(** ** Rules for integrals *)
Lemma integral_unique h a b v w : integral h a b v -> integral h a b w -> v = w.
Proof. intros (p & <-) (q & <-). apply RiemannInt_P5. Qed.
Lemma integral_le h k a b v w : a <= b -> (forall x, a < x < b -> h x <= k x) -> integral h a b v -> integral k a b w -> v <= w.
Proof. intros L H (p & <-) (q & <-). apply RiemannInt_P19; assumption. Qed.
Lemma integral_lin h k l a b v w : integral h a b v -> integral k a b w -> integral (fun x => h x + l * k x) a b (v + l * w).
Proof. intros (p & <-) (q & <-). exists (RiemannInt_P10 l p q). apply RiemannInt_P13. Qed.
Lemma integral_const c a b : integral (fun _ => c) a b (c * (b - a)).
Proof. exists (RiemannInt_P14 a b c). apply RiemannInt_P15. Qed.
Lemma integral_abs h a b v : integral h a b v -> exists w, integral (fun x => Rabs (h x)) a b w.
Proof. intros (p & _). exists (RiemannInt (RiemannInt_P16 p)). eexists. reflexivity. Qed.
Lemma integral_eq_on h k a b v w : a <= b -> (forall x, a < x < b -> h x = k x) -> integral h a b v -> integral k a b w -> v = w.
Proof. intros L E (p & <-) (q & <-). apply RiemannInt_P18; assumption. Qed.
Lemma integral_ge0 h a b v : a <= b -> (forall x, a < x < b -> 0 <= h x) -> integral h a b v -> 0 <= v.
Proof. intros L H I. replace 0 with (0 * (b - a)) by lra. exact (integral_le _ _ _ _ _ _ L H (integral_const 0 a b) I). Qed.
Lemma integral_sub h a b c d v : a <= c <= d -> d <= b -> integral h a b v -> exists w, integral h c d w.
Proof.
  intros (L1 & L2) L3 (p & _). assert (Riemann_integrable h a d) as q by (apply (RiemannInt_P22 p); lra). assert (Riemann_integrable h c d) as r by (apply (RiemannInt_P23 q); lra).
  exists (RiemannInt r), r. reflexivity.
Qed.
Lemma integral_split h a c b v w u : integral h a c v -> integral h c b w -> integral h a b u -> u = v + w.
Proof. intros (p & <-) (q & <-) (r & <-). symmetry. apply RiemannInt_P26. Qed.
Lemma minus_as_lin h k a b v w : integral h a b v -> integral k a b w -> exists u, integral (fun x => h x - k x) a b u /\ u = v - w.
Proof.
  intros H K. assert (integral (fun x => h x + (-1) * k x) a b (v + (-1) * w)) as M by (apply integral_lin; assumption).
  destruct M as (p & E). assert (Riemann_integrable (fun x => h x - k x) a b) as q.
  { intro eps. destruct (p eps) as (phi & psi & P1 & P2). exists phi, psi. split; [|exact P2]. intros t Ht. specialize (P1 t Ht). replace (h t - k t) with (h t + (-1) * k t) by ring. exact P1. }
  exists (RiemannInt q). split; [exists q; reflexivity|]. destruct (Rle_dec a b) as [L|L].
  - transitivity (RiemannInt p); [|lra]. apply RiemannInt_P18; [exact L|]. intros x _. ring.
  - assert (Riemann_integrable (fun x => h x - k x) b a) as q' by (apply RiemannInt_P1; exact q). assert (Riemann_integrable (fun x => h x + (-1) * k x) b a) as p' by (apply RiemannInt_P1; exact p).
    rewrite (RiemannInt_P8 q q'). rewrite (RiemannInt_P8 p p') in E. assert (RiemannInt q' = RiemannInt p') as EE. { apply RiemannInt_P18; [lra|]. intros x _. ring. } lra.
Qed.

(** ** Sums over equally spaced points *)
Fixpoint left_sum (h : R -> R) (a d : R) (m : nat) : R :=
  match m with O => 0 | S k => left_sum h a d k + h (a + INR k * d) end.
Lemma rsum_app l m : rsum (l ++ m) = rsum l + rsum m.
Proof. unfold rsum. induction l as [|x l IH]; cbn [fold_right app]; [ring|]. rewrite IH. ring. Qed.
Lemma rsum_seq h a d m : rsum (map h (map (fun k => a + INR k * d) (seq 0 m))) = left_sum h a d m.
Proof.
  induction m as [|m IH]; [reflexivity|]. rewrite seq_S. rewrite !map_app, rsum_app, IH. cbn [map Nat.add left_sum]. unfold rsum at 1. cbn [fold_right]. ring.
Qed.
Lemma left_sum_bound h a b d L m v : 0 <= d -> 0 <= L -> lipschitz L h a b -> a + INR m * d <= b -> integral h a (a + INR m * d) v ->
  Rabs (d * left_sum h a d m - v) <= INR m * (L * d * d).
Proof.
  intros D L0 Lip. revert v. induction m as [|m IH]; intros v B I.
  - cbn in I |- *. replace (a + 0 * d) with a in I by ring. destruct I as (p & <-). rewrite RiemannInt_P9. rewrite Rmult_0_r, Rminus_0_r, Rabs_R0. lra.
  - rewrite S_INR in B, I. pose proof (pos_INR m) as Hm. assert (0 <= INR m * d) as Hmd by (apply Rmult_le_pos; assumption).
    set (c := a + INR m * d) in *. assert (a + (INR m + 1) * d = c + d) as Ec by (unfold c; ring). rewrite Ec in B, I.
    destruct (integral_sub h a (c + d) a c v) as (v1 & I1); [split; unfold c; lra | lra | exact I |].
    destruct (integral_sub h a (c + d) c (c + d) v) as (v2 & I2); [split; unfold c; lra | lra | exact I |].
    rewrite (integral_split _ _ _ _ _ _ _ I1 I2 I). specialize (IH v1). cbn [left_sum]. fold c.
    assert (Rabs (d * h c - v2) <= L * d * d) as H2.
    { assert (forall x, c < x < c + d -> h c - L * d <= h x <= h c + L * d) as Hx.
      { intros x Hx. assert (Rabs (h c - h x) <= L * Rabs (c - x)) as Q by (apply Lip; unfold c in *; lra). rewrite (Rabs_left1 (c - x)) in Q by lra.
        assert (L * (- (c - x)) <= L * d) as Q2 by (apply Rmult_le_compat_l; lra). unfold Rabs in Q; destruct (Rcase_abs (h c - h x)) in Q; lra. }
      assert (c <= c + d) as Hcd by lra.
      pose proof (integral_le _ _ _ _ _ _ Hcd (fun x Hx' => proj1 (Hx x Hx')) (integral_const _ _ _) I2) as Q1.
      pose proof (integral_le _ _ _ _ _ _ Hcd (fun x Hx' => proj2 (Hx x Hx')) I2 (integral_const _ _ _)) as Q2.
      apply Rabs_le. split; nra. }
    assert (a + INR m * d <= b) as Hb by (fold c; lra).
    specialize (IH Hb I1). rewrite S_INR.
    replace (d * (left_sum h a d m + h c) - (v1 + v2)) with ((d * left_sum h a d m - v1) + (d * h c - v2)) by ring.
    eapply Rle_trans; [apply Rabs_triang|]. lra.
Qed.
Lemma left_sum_dev h a d m y e : (forall k, (k < m)%nat -> Rabs (h (a + INR k * d) - y) <= e) -> Rabs (left_sum h a d m - INR m * y) <= INR m * e.
Proof.
  induction m as [|m IH]; intro H.
  - cbn. rewrite !Rmult_0_l, Rminus_0_r, Rabs_R0. lra.
  - rewrite S_INR. cbn [left_sum]. replace (left_sum h a d m + h (a + INR m * d) - (INR m + 1) * y) with ((left_sum h a d m - INR m * y) + (h (a + INR m * d) - y)) by ring.
    eapply Rle_trans; [apply Rabs_triang|]. assert (Rabs (left_sum h a d m - INR m * y) <= INR m * e) by (apply IH; intros k Hk; apply H; lia). assert (Rabs (h (a + INR m * d) - y) <= e) by (apply H; lia). lra.
Qed.
Lemma linspace_eq a b n : (2 <= n)%nat -> linspace a b n = map (fun k => a + INR k * ((b - a) / INR (n - 1))) (seq 0 n).
Proof. intro H. destruct n as [|[|n]]; [lia | lia | reflexivity]. Qed.
Lemma linspace_hd a b n : (1 <= n)%nat -> hd 0 (linspace a b n) = a.
Proof. intro H. destruct n as [|[|n]]; [lia | reflexivity|]. rewrite linspace_eq by lia. cbn. lra. Qed.
Lemma linspace_last a b n : (2 <= n)%nat -> last (linspace a b n) 0 = b.
Proof.
  intro H. rewrite linspace_eq by exact H. destruct n as [|n]; [lia|]. rewrite seq_S, map_app. cbn [map Nat.add]. rewrite last_last. replace (S n - 1)%nat with n by lia. field. apply not_0_INR. lia.
Qed.
Lemma mean_error h a b L n v : (2 <= n)%nat -> a <= b -> 0 <= L -> lipschitz L h a b -> integral h a b v ->
  Rabs (1 / INR n * (b - a) * rsum (map h (linspace a b n)) - v) <= sum_error L a b n.
Proof.
  intros Hn Hab HL Lip I. rewrite linspace_eq by exact Hn. destruct n as [|m]; [lia|]. replace (S m - 1)%nat with m in * by lia. unfold sum_error. replace (S m - 1)%nat with m by lia.
  assert (0 < INR m) as M by (apply lt_0_INR; lia). set (d := (b - a) / INR m).
  assert (0 <= d) as D by (apply Rmult_le_pos; [lra | left; apply Rinv_0_lt_compat; exact M]). assert (INR m * d = b - a) as Md by (unfold d; field; lra).
  rewrite rsum_seq. cbn [left_sum]. assert (a + INR m * d = b) as Eb by lra. rewrite Eb. rewrite S_INR.
  assert (Rabs (d * left_sum h a d m - v) <= INR m * (L * d * d)) as E1. { apply (left_sum_bound h a b); try assumption; [lra|]. rewrite Eb. exact I. }
  assert (Rabs (left_sum h a d m - INR m * h b) <= INR m * (L * (b - a))) as E2.
  { apply left_sum_dev. intros k Hk. assert (0 <= INR k * d) as K1 by (apply Rmult_le_pos; [apply pos_INR | exact D]).
    assert (INR k * d <= INR m * d) as K2 by (apply Rmult_le_compat_r; [exact D | apply le_INR; lia]).
    eapply Rle_trans; [apply (Lip (a + INR k * d) b); lra|]. apply Rmult_le_compat_l; [exact HL|]. rewrite Rabs_left1 by lra. lra. }
  set (s := left_sum h a d m) in *.
  replace (1 / (INR m + 1) * (b - a) * (s + h b) - v) with ((d * s - v) - (d / (INR m + 1)) * (s - INR m * h b)).
  2:{ rewrite <- Md. field. lra. }
  unfold Rminus at 1. eapply Rle_trans; [apply Rabs_triang|]. rewrite Rabs_Ropp, Rabs_mult.
  assert (0 <= d / (INR m + 1)) as D1 by (apply Rmult_le_pos; [exact D | left; apply Rinv_0_lt_compat; lra]). rewrite (Rabs_right (d / (INR m + 1))) by lra.
  assert (INR m * (L * d * d) = L * Rsqr (b - a) * / INR m) as F1. { unfold d, Rsqr. field. lra. }
  assert (d / (INR m + 1) * Rabs (s - INR m * h b) <= d / (INR m + 1) * (INR m * (L * (b - a)))) as F2 by (apply Rmult_le_compat_l; assumption).
  assert (d / (INR m + 1) * (INR m * (L * (b - a))) = L * Rsqr (b - a) * / (INR m + 1)) as F3. { unfold d, Rsqr. field. lra. }
  lra.
Qed.
Lemma map_combine2 {A B} (F : R -> R -> A) (f g : B -> R) l : map (fun e => F (fst e) (snd e)) (combine (map f l) (map g l)) = map (fun t => F (f t) (g t)) l.
Proof. induction l as [|x l IH]; cbn; congruence. Qed.
Lemma scaled_integral h c a b v : integral h a b v -> integral (fun x => 0 + c * h x) a b (c * v).
Proof. intro H. replace (c * v) with (0 * (b - a) + c * v) by lra. apply (integral_lin (fun _ => 0)); [apply integral_const | exact H]. Qed.
Lemma rsum_map_ext {A} (f g : A -> R) l : (forall x, f x = g x) -> rsum (map f l) = rsum (map g l).
Proof. intro H. f_equal. apply map_ext. exact H. Qed.
Lemma tv_error_lemma : forall f g a b Lf Lg n w, (2 <= n)%nat -> a <= b -> 0 <= Lf -> 0 <= Lg -> lipschitz Lf f a b -> lipschitz Lg g a b -> integral (fun x => Rabs (f x - g x)) a b w ->
  exists r, distance_marginal TV f g a b n = Ok r /\ Rabs (r - / 2 * w) <= sum_error ((Lf + Lg) / 2) a b n.
Proof.
  intros f g a b Lf Lg n w Hn Hab P Q Hf Hg I. unfold distance_marginal. replace (Nat.eqb n 0) with false by (symmetry; apply Nat.eqb_neq; lia). eexists. split; [reflexivity|].
  rewrite linspace_hd, linspace_last by lia. unfold abs_diff. rewrite (map_combine2 (fun x y => / 2 * Rabs (x - y))).
  rewrite (rsum_map_ext _ (fun t => 0 + / 2 * Rabs (f t - g t))) by (intro; ring).
  apply (mean_error (fun t => 0 + / 2 * Rabs (f t - g t))); try assumption; [lra | | apply (scaled_integral (fun x => Rabs (f x - g x))); exact I].
  intros x y Hx Hy. specialize (Hf x y Hx Hy). specialize (Hg x y Hx Hy).
  replace (0 + / 2 * Rabs (f x - g x) - (0 + / 2 * Rabs (f y - g y))) with (/ 2 * (Rabs (f x - g x) - Rabs (f y - g y))) by ring. rewrite Rabs_mult, (Rabs_right (/ 2)) by lra.
  assert (Rabs (Rabs (f x - g x) - Rabs (f y - g y)) <= Rabs ((f x - g x) - (f y - g y))) as T by apply Rabs_triang_inv2.
  assert (Rabs ((f x - g x) - (f y - g y)) <= Rabs (f x - f y) + Rabs (g x - g y)) as U. { replace ((f x - g x) - (f y - g y)) with ((f x - f y) + - (g x - g y)) by ring. rewrite <- (Rabs_Ropp (g x - g y)). apply Rabs_triang. }
  lra.
Qed.
Lemma INR_above y : exists n, y < INR n.
Proof.
  exists (Z.to_nat (up y)). rewrite INR_IZR_INZ. destruct (archimed y) as (H & _). destruct (Z_le_dec 0 (up y)) as [P|P].
  - rewrite Z2Nat.id by exact P. lra.
  - assert (IZR (up y) <= 0) as Q by (apply IZR_le; lia). assert (0 <= IZR (Z.of_nat (Z.to_nat (up y)))) as T by (apply IZR_le; lia). lra.
Qed.
Lemma sum_error_small L a b : forall eps, 0 < eps -> exists N, forall n, (N <= n)%nat -> sum_error L a b n <= eps.
Proof.
  intros eps He. set (C := Rabs (L * Rsqr (b - a)) + 1). assert (0 < C) as HC by (pose proof (Rabs_pos (L * Rsqr (b - a))); unfold C; lra).
  destruct (INR_above (2 * C / eps)) as (N & HN). exists (S (S N)). intros n Hn. unfold sum_error.
  assert (INR N < INR (n - 1)) as H1 by (apply lt_INR; lia). assert (INR N < INR n) as H2 by (apply lt_INR; lia). assert (0 < 2 * C / eps) as P by (apply Rdiv_lt_0_compat; lra).
  assert (forall m, INR N < INR m -> / INR m <= eps / (2 * C)) as K. { intros m Hm. replace (eps / (2 * C)) with (/ (2 * C / eps)) by (field; lra). left. apply Rinv_lt_contravar; [|lra]. apply Rmult_lt_0_compat; lra. }
  pose proof (K _ H1) as K1. pose proof (K _ H2) as K2. assert (L * Rsqr (b - a) <= C) as HL by (pose proof (Rle_abs (L * Rsqr (b - a))); unfold C; lra).
  assert (0 < / INR n) as I1 by (apply Rinv_0_lt_compat; lra). assert (0 < / INR (n - 1)) as I2 by (apply Rinv_0_lt_compat; lra).
  apply Rle_trans with (C * (/ INR n + / INR (n - 1))); [apply Rmult_le_compat_r; lra|]. apply Rle_trans with (C * (eps / (2 * C) + eps / (2 * C))); [apply Rmult_le_compat_l; lra|]. right. field. lra.
Qed.
Lemma converge_lemma : forall f g a b Lf Lg quad, a <= b -> 0 <= Lf -> 0 <= Lg -> lipschitz Lf f a b -> lipschitz Lg g a b -> accurate quad (fun x => Rabs (f x - g x)) a b ->
  forall eps, 0 < eps -> exists N, forall n, (N <= n)%nat -> exists r, distance_marginal TV f g a b n = Ok r /\ Rabs (r - distance_quad quad TV f g a b) <= eps.
Proof.
  intros f g a b Lf Lg quad Hab P Q Hf Hg A eps He. destruct (sum_error_small ((Lf + Lg) / 2) a b eps He) as (N & HN). exists (S (S N)). intros n Hn.
  destruct (tv_error_lemma f g a b Lf Lg n (quad (fun x => Rabs (f x - g x)) a b)) as (r & E & B); try assumption; [lia|]. exists r. split; [exact E|]. cbn. specialize (HN n). assert (sum_error ((Lf + Lg) / 2) a b n <= eps) by (apply HN; lia). lra.
Qed.
(** squared distances *)
Lemma sq_error_lemma : forall f g a b L n w, (2 <= n)%nat -> a <= b -> 0 <= L -> lipschitz L (fun x => Rsqr (f x - g x)) a b -> integral (fun x => Rsqr (f x - g x)) a b w ->
  exists r, distance_marginal Euclid f g a b n = Ok r /\ 0 <= r /\ Rabs (Rsqr r - w) <= sum_error L a b n.
Proof.
  intros f g a b L n w Hn Hab P Lip I. unfold distance_marginal. replace (Nat.eqb n 0) with false by (symmetry; apply Nat.eqb_neq; lia). eexists. split; [reflexivity|].
  rewrite linspace_hd, linspace_last by lia. unfold sq_diff. rewrite (map_combine2 (fun x y => Rsqr (x - y))).
  assert (0 < INR n) as N by (apply lt_0_INR; lia). assert (0 <= 1 / INR n * (b - a)) as F by (apply Rmult_le_pos; [left; apply Rdiv_lt_0_compat; lra | lra]).
  assert (forall l : list R, 0 <= rsum (map (fun t => Rsqr (f t - g t)) l)) as S0. { induction l as [|x l IH]; unfold rsum in *; cbn; [lra|]. pose proof (Rle_0_sqr (f x - g x)). lra. }
  split; [apply Rmult_le_pos; apply sqrt_pos|]. rewrite Rsqr_mult, !Rsqr_sqrt by (try exact F; apply S0). apply (mean_error (fun t => Rsqr (f t - g t))); assumption.
Qed.
Lemma norm_grows_lemma : forall f g c a b n, (1 <= n)%nat -> (forall x, f x - g x = c) -> distance_marginal Norm f g a b n = Ok (sqrt (INR n) * Rabs c).
Proof.
  intros f g c a b n Hn H. unfold distance_marginal. replace (Nat.eqb n 0) with false by (symmetry; apply Nat.eqb_neq; lia). f_equal. unfold sq_diff. rewrite (map_combine2 (fun x y => Rsqr (x - y))).
  assert (forall l : list R, rsum (map (fun t => Rsqr (f t - g t)) l) = INR (length l) * Rsqr c) as E. { induction l as [|x l IH]; [cbn; ring|]. cbn [map length]. rewrite S_INR. unfold rsum in *. cbn [fold_right]. rewrite IH, H. ring. }
  rewrite E. replace (length (linspace a b n)) with n. 2:{ destruct n as [|[|n]]; [lia | reflexivity|]. rewrite linspace_eq by lia. rewrite map_length, seq_length. reflexivity. }
  rewrite sqrt_mult by (try apply pos_INR; apply Rle_0_sqr). rewrite sqrt_Rsqr_abs. reflexivity.
Qed.
(** ** Quadrature *)
Lemma quad_tv_lemma : forall quad f g a b, a <= b -> density f a b -> density g a b -> accurate quad (fun x => Rabs (f x - g x)) a b -> accurate quad (fun x => Rabs (g x - f x)) a b ->
  0 <= distance_quad quad TV f g a b <= 1 /\ distance_quad quad TV f g a b = distance_quad quad TV g f a b.
Proof.
  intros quad f g a b Hab (Pf & If) (Pg & Ig) A B. cbn. unfold accurate in *. split; [split|].
  - assert (0 <= quad (fun x => Rabs (f x - g x)) a b) by (apply (integral_ge0 (fun x => Rabs (f x - g x)) a b); [exact Hab | intros; apply Rabs_pos | exact A]). lra.
  - assert (quad (fun x => Rabs (f x - g x)) a b <= 1 + 1 * 1) as K. 2: lra.
    apply (integral_le (fun x => Rabs (f x - g x)) (fun x => f x + 1 * g x) a b); [exact Hab | | exact A | apply integral_lin; assumption].
    intros x Hx. assert (0 <= f x) by (apply Pf; lra). assert (0 <= g x) by (apply Pg; lra). apply Rabs_le. lra.
  - f_equal. apply (integral_eq_on (fun x => Rabs (f x - g x)) (fun x => Rabs (g x - f x)) a b); [exact Hab | intros; apply Rabs_minus_sym | exact A | exact B].
Qed.
Lemma quad_triangle_lemma : forall quad f g h a b, a <= b -> accurate quad (fun x => Rabs (f x - g x)) a b -> accurate quad (fun x => Rabs (g x - h x)) a b -> accurate quad (fun x => Rabs (f x - h x)) a b ->
  distance_quad quad TV f h a b <= distance_quad quad TV f g a b + distance_quad quad TV g h a b.
Proof.
  intros quad f g h a b Hab A B C. cbn. unfold accurate in *. assert (quad (fun x => Rabs (f x - h x)) a b <= quad (fun x => Rabs (f x - g x)) a b + 1 * quad (fun x => Rabs (g x - h x)) a b) as K. 2: lra.
  eapply (integral_le (fun x => Rabs (f x - h x)) (fun x => Rabs (f x - g x) + 1 * Rabs (g x - h x)) a b); [exact Hab | | exact C | apply (integral_lin (fun x => Rabs (f x - g x)) (fun x => Rabs (g x - h x))); assumption].
  intros x _. replace (f x - h x) with ((f x - g x) + (g x - h x)) by ring. rewrite Rmult_1_l. apply Rabs_triang.
Qed.
Lemma positive_integral h a b L v x0 : a < b -> 0 <= L -> lipschitz L h a b -> (forall x, a <= x <= b -> 0 <= h x) -> a <= x0 <= b -> 0 < h x0 -> integral h a b v -> 0 < v.
Proof.
  intros Hab HL Lip Pos Hx0 H0 I. set (rho := h x0 / (2 * (L + 1))). assert (0 < rho) as R0 by (apply Rdiv_lt_0_compat; lra).
  set (c := Rmax a (x0 - rho)). set (d := Rmin b (x0 + rho)).
  assert (a <= c /\ c < d /\ d <= b /\ x0 - rho <= c /\ d <= x0 + rho) as (C1 & C2 & C3 & C4 & C5). { unfold c, d, Rmax, Rmin. destruct (Rle_dec a (x0 - rho)), (Rle_dec b (x0 + rho)); lra. }
  destruct (integral_sub h a b a c v) as (v1 & I1); [lra | lra | exact I|]. destruct (integral_sub h a b c d v) as (v2 & I2); [lra | lra | exact I|]. destruct (integral_sub h a b d b v) as (v3 & I3); [lra | lra | exact I|]. destruct (integral_sub h a b c b v) as (v4 & I4); [lra | lra | exact I|].
  rewrite (integral_split _ _ _ _ _ _ _ I1 I4 I). rewrite (integral_split _ _ _ _ _ _ _ I2 I3 I4).
  assert (0 <= v1) by (apply (integral_ge0 h a c); [lra | intros; apply Pos; lra | exact I1]). assert (0 <= v3) by (apply (integral_ge0 h d b); [lra | intros; apply Pos; lra | exact I3]).
  assert (h x0 / 2 * (d - c) <= v2) as K.
  { apply (integral_le (fun _ => h x0 / 2) h c d); [lra | | apply integral_const | exact I2]. intros x Hx. assert (Rabs (h x0 - h x) <= L * Rabs (x0 - x)) as Q by (apply Lip; lra).
    assert (Rabs (x0 - x) <= rho) as Q1 by (apply Rabs_le; lra). assert (L * Rabs (x0 - x) <= L * rho) as Q2 by (apply Rmult_le_compat_l; lra).
    assert (L * rho <= h x0 / 2) as Q3. { unfold rho. apply Rmult_le_reg_r with (2 * (L + 1)); [lra|]. field_simplify; [|lra]. nra. } unfold Rabs in Q at 1. destruct (Rcase_abs (h x0 - h x)); lra. }
  assert (0 < h x0 / 2 * (d - c)) by (apply Rmult_lt_0_compat; lra). lra.
Qed.
Lemma quad_zero_lemma : forall quad f g a b Lf Lg, a < b -> 0 <= Lf -> 0 <= Lg -> lipschitz Lf f a b -> lipschitz Lg g a b -> accurate quad (fun x => Rabs (f x - g x)) a b ->
  (distance_quad quad TV f g a b = 0 <-> forall x, a <= x <= b -> f x = g x).
Proof.
  intros quad f g a b Lf Lg Hab P Q Hf Hg A. cbn. unfold accurate in A. split.
  - intros E x Hx. destruct (Req_dec (f x) (g x)) as [D|D]; [exact D|]. exfalso.
    assert (0 < quad (fun x => Rabs (f x - g x)) a b) as K. 2: lra.
    apply (positive_integral (fun x => Rabs (f x - g x)) a b (Lf + Lg) _ x); [exact Hab | lra | | intros; apply Rabs_pos | exact Hx | apply Rabs_pos_lt; lra | exact A].
    intros u v Hu Hv. specialize (Hf u v Hu Hv). specialize (Hg u v Hu Hv). eapply Rle_trans; [apply Rabs_triang_inv2|].
    replace ((f u - g u) - (f v - g v)) with ((f u - f v) + - (g u - g v)) by ring. eapply Rle_trans; [apply Rabs_triang|]. rewrite Rabs_Ropp. lra.
  - intro H. assert (quad (fun x => Rabs (f x - g x)) a b = 0 * (b - a)) as K. 2: lra.
    apply (integral_eq_on (fun x => Rabs (f x - g x)) (fun _ => 0) a b); [lra | | exact A | apply integral_const]. intros x Hx. rewrite (H x) by lra. rewrite Rminus_diag_eq by reflexivity. apply Rabs_R0.
Qed.
Lemma sqrt_gap x y : 0 <= x -> 0 <= y -> Rsqr (sqrt x - sqrt y) <= Rabs (x - y).
Proof.
  intros Hx Hy. pose proof (sqrt_pos x) as Sx. pose proof (sqrt_pos y) as Sy. pose proof (sqrt_sqrt x Hx) as Ex. pose proof (sqrt_sqrt y Hy) as Ey. unfold Rsqr, Rabs. destruct (Rcase_abs (x - y)) as [C|C].
  - assert (sqrt x <= sqrt y) by (apply sqrt_le_1; lra). nra.
  - assert (sqrt y <= sqrt x) by (apply sqrt_le_1; lra). nra.
Qed.
Lemma quad_hell_lemma : forall quad f g a b, a <= b -> density f a b -> density g a b -> accurate quad (fun x => Rabs (f x - g x)) a b -> accurate quad (fun x => Rabs (g x - f x)) a b ->
  accurate quad (fun x => / 2 * Rsqr (sqrt (f x) - sqrt (g x))) a b ->
  0 <= distance_quad quad SqHell f g a b /\ Rsqr (distance_quad quad Hell f g a b) = distance_quad quad SqHell f g a b /\
  distance_quad quad SqHell f g a b <= distance_quad quad TV f g a b /\ 0 <= distance_quad quad Hell f g a b <= 1.
Proof.
  intros quad f g a b Hab Df Dg A A' B. pose proof (quad_tv_lemma quad f g a b Hab Df Dg A A') as ((_ & T) & _). destruct Df as (Pf & _), Dg as (Pg & _). unfold accurate in *. cbn in *. unfold sqhell_quad in *.
  assert (0 <= quad (fun x => / 2 * Rsqr (sqrt (f x) - sqrt (g x))) a b) as N. { apply (integral_ge0 (fun x => / 2 * Rsqr (sqrt (f x) - sqrt (g x))) a b); [exact Hab | | exact B]. intros x _. pose proof (Rle_0_sqr (sqrt (f x) - sqrt (g x))). lra. }
  assert (quad (fun x => / 2 * Rsqr (sqrt (f x) - sqrt (g x))) a b <= / 2 * quad (fun x => Rabs (f x - g x)) a b) as K.
  { apply (integral_le (fun x => / 2 * Rsqr (sqrt (f x) - sqrt (g x))) (fun x => 0 + / 2 * Rabs (f x - g x)) a b); [exact Hab | | exact B | apply (scaled_integral (fun x => Rabs (f x - g x))); exact A].
    intros x Hx. pose proof (sqrt_gap (f x) (g x) ltac:(apply Pf; lra) ltac:(apply Pg; lra)). lra. }
  split; [exact N|]. split; [apply Rsqr_sqrt; exact N|]. split; [exact K|]. split; [apply sqrt_pos|]. rewrite <- sqrt_1. apply sqrt_le_1; lra.
Qed.
Lemma quad_norm_lemma : forall quad f g a b, density f a b -> density g a b -> accurate quad (fun x => f x - g x) a b -> distance_quad quad Norm f g a b = 0.
Proof.
  intros quad f g a b (_ & If) (_ & Ig) A. cbn. destruct (minus_as_lin f g a b 1 1 If Ig) as (u & I & ->). rewrite (integral_unique _ _ _ _ _ A I). lra.
Qed.
Lemma quad_kl_lemma : forall quad f g a b, a <= b -> density f a b -> density g a b -> (forall x, a < x < b -> 0 < f x /\ 0 < g x) -> accurate quad (fun x => f x * ln (f x / g x)) a b ->
  0 <= distance_quad quad KL f g a b.
Proof.
  intros quad f g a b Hab (_ & If) (_ & Ig) Pos A. cbn. destruct (minus_as_lin f g a b 1 1 If Ig) as (u & I & ->). replace 0 with (1 - 1) by ring.
  apply (integral_le (fun x => f x - g x) (fun x => f x * ln (f x / g x)) a b); [exact Hab | | exact I | exact A]. intros x Hx. destruct (Pos x Hx) as (F & G).
  assert (1 + ln (g x / f x) <= g x / f x) as E. { pose proof (exp_ineq1_le (ln (g x / f x))) as E. rewrite exp_ln in E by (apply Rdiv_lt_0_compat; assumption). exact E. }
  replace (ln (f x / g x)) with (- ln (g x / f x)). 2:{ rewrite <- ln_Rinv by (apply Rdiv_lt_0_compat; assumption). f_equal. field. lra. }
  assert (f x * (1 + ln (g x / f x)) <= f x * (g x / f x)) as M by (apply Rmult_le_compat_l; lra). replace (f x * (g x / f x)) with (g x) in M by (field; lra). lra.
Qed.
Lemma hell_error_lemma : forall f g a b L n w, (2 <= n)%nat -> a <= b -> 0 <= L -> lipschitz L (fun x => / 2 * Rsqr (sqrt (f x) - sqrt (g x))) a b -> integral (fun x => / 2 * Rsqr (sqrt (f x) - sqrt (g x))) a b w ->
  exists r, distance_marginal SqHell f g a b n = Ok r /\ Rabs (r - w) <= sum_error L a b n /\ distance_marginal Hell f g a b n = Ok (sqrt r).
Proof.
  intros f g a b L n w Hn Hab P Lip I. unfold distance_marginal. replace (Nat.eqb n 0) with false by (symmetry; apply Nat.eqb_neq; lia). eexists. split; [reflexivity|]. split; [|reflexivity].
  rewrite linspace_hd, linspace_last by lia. unfold sq_diff. rewrite !map_map. rewrite (map_combine2 (fun x y => Rsqr (x - y))).
  assert (forall l : list R, / 2 * rsum (map (fun t => Rsqr (sqrt (f t) - sqrt (g t))) l) = rsum (map (fun t => / 2 * Rsqr (sqrt (f t) - sqrt (g t))) l)) as E. { induction l as [|x l IH]; unfold rsum in *; cbn [map fold_right]; [ring|]. rewrite Rmult_plus_distr_l, IH. reflexivity. }
  replace (/ 2 * (1 / INR n * (b - a)) * rsum (map (fun t => Rsqr (sqrt (f t) - sqrt (g t))) (linspace a b n))) with (1 / INR n * (b - a) * rsum (map (fun t => / 2 * Rsqr (sqrt (f t) - sqrt (g t))) (linspace a b n))) by (rewrite <- E; ring).
  apply (mean_error (fun t => / 2 * Rsqr (sqrt (f t) - sqrt (g t)))); assumption.
Qed.
(** ** Euclidean and Hellinger distance *)
Lemma square_split u v t : 0 < t -> Rsqr (u + v) <= (1 + t) * Rsqr u + (1 + / t) * Rsqr v.
Proof.
  intros T. assert (0 <= / t * Rsqr (t * u - v)) as H by (apply Rmult_le_pos; [left; apply Rinv_0_lt_compat; exact T|apply Rle_0_sqr]).
  replace ((1 + t) * Rsqr u + (1 + / t) * Rsqr v) with (Rsqr (u + v) + / t * Rsqr (t * u - v)) by (unfold Rsqr; field; lra). lra.
Qed.
Lemma root_triangle A B D : 0 <= A -> 0 <= B -> (forall t, 0 < t -> D <= (1 + t) * A + (1 + / t) * B) -> sqrt D <= sqrt A + sqrt B.
Proof.
  intros HA HB H. pose proof (sqrt_pos A) as SA. pose proof (sqrt_pos B) as SB.
  assert (K : D <= Rsqr (sqrt A + sqrt B)).
  { apply le_epsilon. intros e He. unfold Rsqr. pose proof (sqrt_sqrt A HA) as EA. pose proof (sqrt_sqrt B HB) as EB. set (p := sqrt A) in *. set (q := sqrt B) in *.
    (* t = (q + d) / (p + d) with a small d *)
    set (d := Rmin 1 (e / (2 * (p + q + 1)))). assert (D0 : 0 < d) by (unfold d; apply Rmin_glb_lt; [lra|apply Rdiv_lt_0_compat; lra]).
    assert (D1 : d * (2 * (p + q + 1)) <= e).
    { assert (d <= e / (2 * (p + q + 1))) as Q by apply Rmin_r. apply (Rmult_le_compat_r (2 * (p + q + 1))) in Q; [|lra]. replace (e / (2 * (p + q + 1)) * (2 * (p + q + 1))) with e in Q by (field; lra). exact Q. }
    specialize (H ((q + d) / (p + d)) ltac:(apply Rdiv_lt_0_compat; lra)). rewrite <- EA, <- EB in H.
    assert (X : (q + d) / (p + d) * (p * p) <= (q + d) * p).
    { replace ((q + d) / (p + d) * (p * p)) with ((q + d) * p * (p / (p + d))) by (field; lra). rewrite <- (Rmult_1_r ((q + d) * p)) at 2.
      apply Rmult_le_compat_l; [apply Rmult_le_pos; lra|]. apply Rmult_le_reg_r with (p + d); [lra|]. replace (p / (p + d) * (p + d)) with p by (field; lra). lra. }
    assert (Y : / ((q + d) / (p + d)) * (q * q) <= (p + d) * q).
    { replace (/ ((q + d) / (p + d)) * (q * q)) with ((p + d) * q * (q / (q + d))) by (field; lra). rewrite <- (Rmult_1_r ((p + d) * q)) at 2.
      apply Rmult_le_compat_l; [apply Rmult_le_pos; lra|]. apply Rmult_le_reg_r with (q + d); [lra|]. replace (q / (q + d) * (q + d)) with q by (field; lra). lra. }
    nra. }
  rewrite <- (sqrt_Rsqr (sqrt A + sqrt B)) by lra. apply sqrt_le_1_alt. exact K.
Qed.
Lemma minkowski u v w a b A B D : a <= b -> (forall x, a < x < b -> w x = u x + v x) ->
  integral (fun x => Rsqr (u x)) a b A -> integral (fun x => Rsqr (v x)) a b B -> integral (fun x => Rsqr (w x)) a b D -> sqrt D <= sqrt A + sqrt B.
Proof.
  intros L E IA IB ID.
  assert (A0 : 0 <= A) by (apply (integral_ge0 (fun x => Rsqr (u x)) a b); [exact L|intros; apply Rle_0_sqr|exact IA]).
  assert (B0 : 0 <= B) by (apply (integral_ge0 (fun x => Rsqr (v x)) a b); [exact L|intros; apply Rle_0_sqr|exact IB]).
  apply root_triangle; [exact A0|exact B0|]. intros t T.
  replace ((1 + t) * A + (1 + / t) * B) with ((0 * (b - a) + (1 + t) * A) + (1 + / t) * B) by ring.
  apply (integral_le (fun x => Rsqr (w x)) (fun x => (0 + (1 + t) * Rsqr (u x)) + (1 + / t) * Rsqr (v x)) a b); [exact L| |exact ID|].
  - intros x Hx. rewrite (E x Hx). pose proof (square_split (u x) (v x) t T). lra.
  - apply (integral_lin (fun x => 0 + (1 + t) * Rsqr (u x)) (fun x => Rsqr (v x))); [|exact IB].
    apply (integral_lin (fun _ => 0) (fun x => Rsqr (u x))); [apply integral_const|exact IA].
Qed.
Lemma quad_euclid_lemma : forall quad f g a b w, a <= b -> accurate quad (fun x => Rsqr (f x - g x)) a b -> integral (fun x => Rsqr (f x - g x)) a b w ->
  0 <= distance_quad quad Euclid f g a b /\ Rsqr (distance_quad quad Euclid f g a b) = w.
Proof.
  intros quad f g a b w L A I. cbn. split; [apply sqrt_pos|]. rewrite Rsqr_sqrt; [exact (integral_unique _ _ _ _ _ A I)|].
  apply (integral_ge0 (fun x => Rsqr (f x - g x)) a b); [exact L|intros; apply Rle_0_sqr|exact A].
Qed.
Lemma quad_euclid_sym_lemma : forall quad f g a b, a <= b -> accurate quad (fun x => Rsqr (f x - g x)) a b -> accurate quad (fun x => Rsqr (g x - f x)) a b ->
  distance_quad quad Euclid f g a b = distance_quad quad Euclid g f a b.
Proof.
  intros quad f g a b L A B. cbn. f_equal. apply (integral_eq_on (fun x => Rsqr (f x - g x)) (fun x => Rsqr (g x - f x)) a b); [exact L| |exact A|exact B].
  intros x _. unfold Rsqr. ring.
Qed.
Lemma quad_euclid_triangle_lemma : forall quad f g h a b, a <= b -> accurate quad (fun x => Rsqr (f x - g x)) a b -> accurate quad (fun x => Rsqr (g x - h x)) a b ->
  accurate quad (fun x => Rsqr (f x - h x)) a b -> distance_quad quad Euclid f h a b <= distance_quad quad Euclid f g a b + distance_quad quad Euclid g h a b.
Proof.
  intros quad f g h a b L A B C. cbn. apply (minkowski (fun x => f x - g x) (fun x => g x - h x) (fun x => f x - h x) a b); try assumption. intros; ring.
Qed.
Lemma integral_ext h k a b v : a <= b -> (forall x, h x = k x) -> integral h a b v -> integral k a b v.
Proof.
  intros L E (p & <-). assert (q : Riemann_integrable k a b).
  { intros eps. destruct (p eps) as (phi & psi & H1 & H2). exists phi, psi. split; [|exact H2]. intros t Ht. rewrite <- (E t). exact (H1 t Ht). }
  exists q. apply RiemannInt_P18; [exact L|]. intros; symmetry; apply E.
Qed.
Lemma quad_hell_triangle_lemma : forall quad f g h a b, a <= b -> accurate quad (fun x => / 2 * Rsqr (sqrt (f x) - sqrt (g x))) a b ->
  accurate quad (fun x => / 2 * Rsqr (sqrt (g x) - sqrt (h x))) a b -> accurate quad (fun x => / 2 * Rsqr (sqrt (f x) - sqrt (h x))) a b ->
  distance_quad quad Hell f h a b <= distance_quad quad Hell f g a b + distance_quad quad Hell g h a b.
Proof.
  intros quad f g h a b L A B C. cbn. unfold sqhell_quad, accurate in *.
  assert (E : forall y, / 2 * Rsqr y = Rsqr (sqrt (/ 2) * y)) by (intro y; rewrite Rsqr_mult, Rsqr_sqrt by lra; reflexivity).
  apply (minkowski (fun x => sqrt (/ 2) * (sqrt (f x) - sqrt (g x))) (fun x => sqrt (/ 2) * (sqrt (g x) - sqrt (h x))) (fun x => sqrt (/ 2) * (sqrt (f x) - sqrt (h x))) a b); [exact L | | | |].
  - intros; ring.
  - refine (integral_ext _ _ _ _ _ L _ A). intros; apply E.
  - refine (integral_ext _ _ _ _ _ L _ B). intros; apply E.
  - refine (integral_ext _ _ _ _ _ L _ C). intros; apply E.
Qed.
Lemma abs_le_of_sq x e : 0 <= e -> Rsqr x <= e * e -> Rabs x <= e.
Proof. intros H Q. rewrite <- (Rabs_right e) by lra. apply Rsqr_le_abs_0. exact Q. Qed.
Lemma euclid_converge_lemma : forall f g a b L quad, a <= b -> 0 <= L -> lipschitz L (fun x => Rsqr (f x - g x)) a b -> accurate quad (fun x => Rsqr (f x - g x)) a b ->
  forall eps, 0 < eps -> exists N, forall n, (N <= n)%nat -> exists r, distance_marginal Euclid f g a b n = Ok r /\ Rabs (r - distance_quad quad Euclid f g a b) <= eps.
Proof.
  intros f g a b L quad Hab P Lip A eps He. destruct (sum_error_small L a b (eps * eps)) as (N & HN); [apply Rmult_lt_0_compat; exact He|]. exists (S (S N)). intros n Hn.
  destruct (sq_error_lemma f g a b L n (quad (fun x => Rsqr (f x - g x)) a b)) as (r & E & R0 & B); try assumption; [lia|]. exists r. split; [exact E|]. cbn.
  assert (Q0 : 0 <= quad (fun x => Rsqr (f x - g x)) a b) by (apply (integral_ge0 (fun x => Rsqr (f x - g x)) a b); [exact Hab|intros; apply Rle_0_sqr|exact A]).
  specialize (HN n ltac:(lia)). pose proof (sqrt_gap (Rsqr r) _ (Rle_0_sqr r) Q0) as G. rewrite (sqrt_Rsqr r R0) in G. apply abs_le_of_sq; lra.
Qed.
Lemma hell_converge_lemma : forall f g a b L quad, a <= b -> 0 <= L -> lipschitz L (fun x => / 2 * Rsqr (sqrt (f x) - sqrt (g x))) a b ->
  accurate quad (fun x => / 2 * Rsqr (sqrt (f x) - sqrt (g x))) a b ->
  forall eps, 0 < eps -> exists N, forall n, (N <= n)%nat -> exists r, distance_marginal SqHell f g a b n = Ok r /\ Rabs (r - distance_quad quad SqHell f g a b) <= eps.
Proof.
  intros f g a b L quad Hab P Lip A eps He. destruct (sum_error_small L a b eps He) as (N & HN). exists (S (S N)). intros n Hn.
  destruct (hell_error_lemma f g a b L n (quad (fun x => / 2 * Rsqr (sqrt (f x) - sqrt (g x))) a b)) as (r & E & B & _); try assumption; [lia|]. exists r. split; [exact E|].
  cbn. unfold sqhell_quad. specialize (HN n ltac:(lia)). lra.
Qed.
