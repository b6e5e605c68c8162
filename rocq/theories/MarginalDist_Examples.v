(** The densities 1 and 1/2 + x on [0, 1]. *)
From Coq Require Import List Arith Reals Lra FunctionalExtensionality.
From Verif Require Import Err CompareR_Model MarginalDist_Model MarginalDist_Spec MarginalDist_Proofs.
Import ListNotations.
Local Open Scope R_scope.

Definition flat (x : R) : R := 1.
Definition slope (x : R) : R := 2 * x.
Lemma derive_square : derive Rsqr derivable_Rsqr = slope.
Proof. apply functional_extensionality. intro x. unfold derive, slope. rewrite <- (derive_pt_Rsqr x). apply pr_nu. Qed.
Lemma slope_continuous : continuity slope.
Proof. unfold slope. apply (continuity_scal (fun x => x)). apply derivable_continuous, derivable_id. Qed.
Lemma square_cont : continuity (derive Rsqr derivable_Rsqr).
Proof. rewrite derive_square. exact slope_continuous. Qed.
Lemma slope_integral : integral slope 0 1 1.
Proof.
  assert (Riemann_integrable slope 0 1) as pr by (apply continuity_implies_RiemannInt; [lra | intros x _; apply slope_continuous]).
  exists pr. assert (Riemann_integrable (derive (mkC1 square_cont) (diff0 (mkC1 square_cont))) 0 1) as pr2.
  { apply continuity_implies_RiemannInt; [lra | intros x _; apply square_cont]. }
  pose proof (FTC_Riemann (mkC1 square_cont) pr2) as E. transitivity (RiemannInt pr2).
  - apply RiemannInt_P18; [lra|]. intros x _. cbn. rewrite derive_square. reflexivity.
  - rewrite E. cbn. unfold Rsqr. lra.
Qed.
Lemma flat_integral : integral flat 0 1 1.
Proof. pose proof (integral_const 1 0 1) as H. replace (1 * (1 - 0)) with 1 in H by lra. exact H. Qed.
Lemma flat_density : density flat 0 1.
Proof. split; [intros; unfold flat; lra | exact flat_integral]. Qed.
Definition tilt (x : R) : R := / 2 + / 2 * slope x.
Lemma tilt_integral : integral tilt 0 1 1.
Proof. pose proof (integral_lin (fun _ => / 2) slope (/ 2) 0 1 _ _ (integral_const (/ 2) 0 1) slope_integral) as H. replace (/ 2 * (1 - 0) + / 2 * 1) with 1 in H by lra. exact H. Qed.
Lemma tilt_density : density tilt 0 1.
Proof. split; [intros; unfold tilt, slope; lra | exact tilt_integral]. Qed.
Lemma flat_lipschitz : lipschitz 0 flat 0 1.
Proof. intros x y _ _. unfold flat. rewrite Rminus_diag_eq, Rabs_R0 by reflexivity. lra. Qed.
Lemma tilt_lipschitz : lipschitz 1 tilt 0 1.
Proof. intros x y _ _. unfold tilt, slope. replace (/ 2 + / 2 * (2 * x) - (/ 2 + / 2 * (2 * y))) with (x - y) by field. lra. Qed.
Lemma tilt_continuous : continuity tilt.
Proof. unfold tilt. apply (continuity_plus (fun _ => / 2) (fun x => / 2 * slope x)); [apply continuity_const; intros x y; reflexivity | apply (continuity_scal slope); exact slope_continuous]. Qed.
Lemma continuous_integral h : (forall x, 0 <= x <= 1 -> continuity_pt h x) -> exists w, integral h 0 1 w.
Proof. intro H. assert (Riemann_integrable h 0 1) as pr by (apply continuity_implies_RiemannInt; [lra | exact H]). exists (RiemannInt pr), pr. reflexivity. Qed.
Lemma hell_integrand : exists w, integral (fun x => / 2 * Rsqr (sqrt (flat x) - sqrt (tilt x))) 0 1 w.
Proof.
  apply continuous_integral. intros x Hx. apply (continuity_pt_scal (fun x => Rsqr (sqrt (flat x) - sqrt (tilt x)))). apply (continuity_pt_comp (fun x => sqrt (flat x) - sqrt (tilt x)) Rsqr).
  - apply (continuity_pt_minus (fun x => sqrt (flat x)) (fun x => sqrt (tilt x))).
    + apply (continuity_pt_const (fun x => sqrt (flat x))). intros u v. reflexivity.
    + apply (continuity_pt_comp tilt sqrt); [apply tilt_continuous | apply continuity_pt_sqrt; unfold tilt, slope; lra].
  - apply derivable_continuous_pt, derivable_pt_Rsqr.
Qed.
Lemma kl_integrand : exists w, integral (fun x => flat x * ln (flat x / tilt x)) 0 1 w.
Proof.
  apply continuous_integral. intros x Hx. apply (continuity_pt_mult flat (fun x => ln (flat x / tilt x))); [apply continuity_pt_const; intros u v; reflexivity|].
  assert (0 < tilt x) as T by (unfold tilt, slope; lra). apply (continuity_pt_comp (fun x => flat x / tilt x) ln).
  - apply (continuity_pt_div flat tilt); [apply continuity_pt_const; intros u v; reflexivity | apply tilt_continuous | lra].
  - apply derivable_continuous_pt. exists (/ (flat x / tilt x)). apply derivable_pt_lim_ln. apply Rdiv_lt_0_compat; unfold flat; lra.
Qed.
Lemma accurate_for_kl : exists quad, accurate quad (fun x => flat x * ln (flat x / tilt x)) 0 1.
Proof. destruct kl_integrand as (w & H). exists (fun _ _ _ => w). exact H. Qed.
Lemma accurate_for_tv_hell : exists quad, accurate quad (fun x => Rabs (flat x - tilt x)) 0 1 /\ accurate quad (fun x => Rabs (tilt x - flat x)) 0 1 /\
  accurate quad (fun x => / 2 * Rsqr (sqrt (flat x) - sqrt (tilt x))) 0 1.
Proof.
  destruct (minus_as_lin flat tilt 0 1 1 1 flat_integral tilt_integral) as (u & I & _). destruct (integral_abs _ _ _ _ I) as (w & J).
  destruct (minus_as_lin tilt flat 0 1 1 1 tilt_integral flat_integral) as (u' & I' & _). destruct (integral_abs _ _ _ _ I') as (w' & J').
  assert (w' = w) as ->. { eapply integral_eq_on; [| |exact J' | exact J]; [lra | intros; apply Rabs_minus_sym]. }
  destruct hell_integrand as (v & K). exists (fun F _ _ => if Rle_dec (F 0) (/ 4) then v else w).
  assert (Rabs (flat 0 - tilt 0) = / 2) as A. { unfold flat, tilt, slope. rewrite Rabs_right; lra. }
  split; [|split]; unfold accurate.
  - destruct (Rle_dec (Rabs (flat 0 - tilt 0)) (/ 4)) as [C|C]; [lra | exact J].
  - destruct (Rle_dec (Rabs (tilt 0 - flat 0)) (/ 4)) as [C|C]; [rewrite Rabs_minus_sym in C; lra | exact J'].
  - destruct (Rle_dec (/ 2 * Rsqr (sqrt (flat 0) - sqrt (tilt 0))) (/ 4)) as [C|C]; [exact K|]. exfalso. apply C.
    pose proof (sqrt_gap (flat 0) (tilt 0)) as G. rewrite A in G. assert (0 <= flat 0 /\ 0 <= tilt 0) as (G1 & G2) by (unfold flat, tilt, slope; lra). specialize (G G1 G2). lra.
Qed.
Lemma norm_example : accurate (fun _ _ _ => 0) (fun x => flat x - tilt x) 0 1 /\ flat 0 <> tilt 0.
Proof.
  destruct (minus_as_lin flat tilt 0 1 1 1 flat_integral tilt_integral) as (u & I & ->). split; [|unfold flat, tilt, slope; lra]. unfold accurate. replace 0 with (1 - 1) at 2 by lra. exact I.
Qed.
