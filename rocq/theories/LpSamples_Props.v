From Coq Require Import List Arith Lia Reals Lra Psatz.
From Verif Require Import Err GradientR_Model GradientR_Spec GradientR_Proofs LpSamples_Model LpSamples_Spec LpSamples_Proofs.
Import ListNotations.
Local Open Scope R_scope.
Local Open Scope err_scope.

Lemma affine_factor a b x : forall dim loc z, length z = dim -> length loc = dim -> affine (repeat a dim) loc z = affine (repeat b dim) loc z -> In x z -> x <> 0 -> a = b.
Proof.
  intros dim loc z. revert dim loc. induction z as [|y z IH]; intros [|dim] [|l loc] Lz Ll E I N; try discriminate; [contradiction|]. cbn in E. injection E as E1 E2. injection Lz as Lz. injection Ll as Ll.
  destruct I as [->|I]; [|eapply IH; eassumption]. apply (Rmult_eq_reg_r x); [|exact N]. lra.
Qed.
Lemma rpow_fixed s q : 0 < s -> s <> 1 -> 0 < q -> q <> 1 -> rpow s (1 / q) <> s.
Proof.
  intros Hs Ns Hq Nq E. unfold rpow in E. destruct (Req_EM_T s 0); [lra|]. apply (f_equal ln) in E. unfold Rpower in E. rewrite ln_exp in E.
  assert (ln s <> 0) by (intros Z; rewrite <- ln_1 in Z; apply ln_inv in Z; lra). assert (1 / q = 1) by (apply (Rmult_eq_reg_r (ln s)); lra). apply Nq. apply (f_equal (Rmult q)) in H0. field_simplify in H0; lra.
Qed.

(** C189: scale and location of the uniform and beta samplers. *)
Theorem lp_uniform_scales : forall dim p scale loc ws, (0 < dim)%nat -> (forall q, p = Finite q -> 0 < q) -> length scale = dim -> length loc = dim -> Forall (drawn dim) ws ->
  exists standard, lp_generalized_uniform dim p (ones dim) (zeros dim) ws = Ok standard /\ length standard = length ws /\
    lp_generalized_uniform dim p scale loc ws = Ok (map (affine scale loc) standard).
Proof.
  intros dim p scale loc ws Hd Hp Ls Ll W. assert (Ez : fitting dim (ones dim) (zeros dim) = true) by (apply fitting_ok; apply repeat_length). pose proof (fitting_ok dim scale loc Ls Ll) as Ef.
  assert (Pd : 0 < INR dim) by (apply lt_0_INR; exact Hd). destruct p as [q|]; unfold lp_generalized_uniform.
  - rewrite (shape_pos q (Hp q eq_refl)), (beta_pos _ _ Pd Rlt_0_1), Ez, Ef. cbn [bind]. eexists. split; [reflexivity|]. split; [apply map_length|]. f_equal. rewrite map_map. apply map_ext_in. intros w Hw. unfold uniform_row. apply affine_uniform; try assumption.
    apply normal_length; [eapply Forall_forall; eassumption|apply repeat_length|apply repeat_length].
  - rewrite Ez, Ef. eexists. split; [reflexivity|]. split; [apply map_length|]. f_equal. rewrite map_map. apply map_ext_in. intros w Hw. apply affine_linf; try assumption. eapply Forall_forall in W; [apply W|exact Hw].
Qed.
Print Assumptions lp_uniform_scales.
Theorem lp_beta_scales_partial : forall dim q d scale loc ws, (0 < dim)%nat -> 0 < q -> 0 < d -> length scale = dim -> length loc = dim -> Forall (drawn dim) ws ->
  exists standard, lp_generalized_beta dim (Finite q) d (ones dim) (zeros dim) ws = Ok standard /\ length standard = length ws /\
    lp_generalized_beta dim (Finite q) d scale loc ws = Ok (map (affine scale loc) standard).
Proof.
  intros dim q d scale loc ws Hd Hq Pd' Ls Ll W. assert (Ez : fitting dim (ones dim) (zeros dim) = true) by (apply fitting_ok; apply repeat_length). pose proof (fitting_ok dim scale loc Ls Ll) as Ef.
  assert (Pd : 0 < INR dim) by (apply lt_0_INR; exact Hd). unfold lp_generalized_beta. rewrite (shape_pos q Hq), beta_pos, Ez, Ef; [|apply Rdiv_lt_0_compat; assumption|apply Rdiv_lt_0_compat; assumption]. cbn [bind].
  eexists. split; [reflexivity|]. split; [apply map_length|]. f_equal. rewrite map_map. apply map_ext_in. intros w Hw. unfold beta_row, lp_beta. apply affine_uniform; try assumption.
  apply normal_length; [eapply Forall_forall; eassumption|apply repeat_length|apply repeat_length].
Qed.
Print Assumptions lp_beta_scales_partial.
(** The normal sampler multiplies by scale**(1/p) instead. *)
Theorem lp_normal_scales_partial : forall dim q scale loc ws, 0 < q -> length scale = dim -> length loc = dim -> (forall s, In s scale -> 0 <= s) -> Forall (drawn dim) ws ->
  exists standard, lp_generalized_normal dim (Finite q) (ones dim) (zeros dim) ws = Ok standard /\ length standard = length ws /\
    lp_generalized_normal dim (Finite q) scale loc ws = Ok (map (affine (map (fun s => rpow s (1 / q)) scale) loc) standard) /\
    (q = 1 -> lp_generalized_normal dim (Finite q) scale loc ws = Ok (map (affine scale loc) standard)).
Proof.
  intros dim q scale loc ws Hq Ls Ll N W. assert (Ez : fitting dim (ones dim) (zeros dim) = true) by (apply fitting_ok; apply repeat_length). pose proof (fitting_ok dim scale loc Ls Ll) as Ef.
  assert (X : lp_generalized_normal dim (Finite q) scale loc ws = Ok (map (affine (map (fun s => rpow s (1 / q)) scale) loc) (map (normal_row (Finite q) (ones dim) (zeros dim)) ws))).
  { unfold lp_generalized_normal. rewrite (shape_pos q Hq), (no_negative_ok scale N), Ef. cbn [bind]. f_equal. rewrite map_map. apply map_ext_in. intros w Hw. apply affine_normal; try assumption. eapply Forall_forall; eassumption. }
  exists (map (normal_row (Finite q) (ones dim) (zeros dim)) ws). split; [unfold lp_generalized_normal; rewrite (shape_pos q Hq), (no_negative_ok _ (ones_nonneg dim)), Ez; reflexivity|]. split; [apply map_length|]. split; [exact X|]. intros ->. rewrite X. f_equal.
  replace (map (fun s => rpow s (1 / 1)) scale) with scale; [reflexivity|]. rewrite <- (map_id scale) at 1. apply map_ext_in. intros s Hs. specialize (N s Hs). unfold rpow. destruct (Req_EM_T s 0) as [->|Z]; [reflexivity|]. replace (1 / 1) with 1 by field. symmetry. apply Rpower_1. lra.
Qed.
Print Assumptions lp_normal_scales_partial.
Theorem lp_normal_scale_refuted : forall dim q s loc w, 0 < q -> q <> 1 -> 0 < s -> s <> 1 -> length loc = dim -> drawn dim w -> not_zero w ->
  exists standard x, lp_generalized_normal dim (Finite q) (ones dim) (zeros dim) [w] = Ok [standard] /\ lp_generalized_normal dim (Finite q) (repeat s dim) loc [w] = Ok [x] /\ x <> affine (repeat s dim) loc standard.
Proof.
  intros dim q s loc w Hq Nq Hs Ns Ll W NZ. destruct (lp_normal_scales_partial dim q (repeat s dim) loc [w] Hq (repeat_length _ _) Ll) as (st & E1 & L & E2 & _); [intros x Hx; apply repeat_spec in Hx; lra|constructor; [exact W|constructor]|].
  destruct st as [|st [|? ?]]; try discriminate. exists st. eexists. split; [exact E1|]. split; [exact E2|]. intros E.
  assert (ST : st = normal_row (Finite q) (ones dim) (zeros dim) w).
  { unfold lp_generalized_normal in E1. rewrite (shape_pos q Hq), (no_negative_ok _ (ones_nonneg dim)), fitting_ok in E1 by apply repeat_length. cbn in E1. injection E1 as E1. symmetry. exact E1. }
  destruct (normal_nz dim q w W NZ) as (x & Ix & Nx). rewrite <- ST in Ix. apply (rpow_fixed s q Hs Ns Hq Nq).
  replace (map (fun s => rpow s (1 / q)) (repeat s dim)) with (repeat (rpow s (1 / q)) dim) in E by (clear; induction dim; cbn; congruence).
  apply (affine_factor _ _ x dim loc st); try assumption. rewrite ST. apply normal_length; [exact W|apply repeat_length|apply repeat_length].
Qed.
Print Assumptions lp_normal_scale_refuted.
(** p = inf is accepted by the normal sampler, but scale and gamma draws then have no
    effect; the beta sampler refuses it. *)
Theorem lp_infinite_refuted : forall dim d scale loc ws, length scale = dim -> length loc = dim -> (forall s, In s scale -> 0 <= s) -> Forall (drawn dim) ws ->
  lp_generalized_normal dim Infinite scale loc ws = Ok (map (fun w => map (fun e => snd e + sign (fst e)) (combine (normals w) loc)) ws) /\
  lp_generalized_beta dim Infinite d scale loc ws = Raise PyValueError.
Proof.
  intros dim d scale loc ws Ls Ll N W. split.
  - unfold lp_generalized_normal. cbn [shape_ok bind]. rewrite (no_negative_ok scale N), (fitting_ok _ _ _ Ls Ll). cbn [bind]. f_equal. apply map_ext_in. intros w Hw. apply (corners dim); try assumption. eapply Forall_forall; eassumption.
  - unfold lp_generalized_beta, beta_ok. destruct (Rlt_dec 0 0); [lra|reflexivity].
Qed.
Print Assumptions lp_infinite_refuted.
(** A uniform sample lies in the ball of t times the radii exactly if the beta draw is
    at most t, so with probability t^dim, the share of the volume.  For p = inf, exactly
    if every uniform draw is within t/2 of 1/2. *)
Theorem lp_uniform_balls : forall dim q scale loc ws t, (0 < dim)%nat -> 0 < q -> 0 < t -> length scale = dim -> length loc = dim -> (forall s, In s scale -> 0 < s) -> Forall (drawn dim) ws -> Forall not_zero ws -> Forall (fun w => 0 <= betas w) ws ->
  exists xs, lp_generalized_uniform dim (Finite q) scale loc ws = Ok xs /\
    Forall2 (fun w x => in_lp_ball q (smaller t scale) loc x <-> betas w <= t) ws xs /\
    (forall F, beta_distribution (INR dim) F -> t <= 1 -> F t = t ^ dim).
Proof.
  intros dim q scale loc ws t Hd Hq Ht Ls Ll Ps W NZ B. assert (Pd : 0 < INR dim) by (apply lt_0_INR; exact Hd). unfold lp_generalized_uniform.
  rewrite (shape_pos q Hq), (beta_pos _ _ Pd Rlt_0_1), (fitting_ok _ _ _ Ls Ll). cbn [bind]. eexists. split; [reflexivity|]. split.
  - induction ws as [|w ws IH]; [constructor|]. inversion W; inversion NZ; inversion B; subst. constructor; [|apply IH; assumption]. unfold uniform_row.
    assert (L : length (normal_row (Finite q) (ones (length scale)) (zeros (length scale)) w) = length scale) by (apply normal_length; [assumption|apply repeat_length|apply repeat_length]).
    apply in_smaller; try assumption; [apply normal_nz; assumption|rewrite L; reflexivity|rewrite L; assumption].
  - intros F HF T. rewrite (beta_cdf _ F HF t) by lra. apply Rpower_pow. exact Ht.
Qed.
Print Assumptions lp_uniform_balls.
Theorem lp_uniform_balls_infinite : forall dim scale loc ws t, 0 <= t -> length scale = dim -> length loc = dim -> (forall s, In s scale -> 0 < s) -> Forall (drawn dim) ws ->
  exists xs, lp_generalized_uniform dim Infinite scale loc ws = Ok xs /\
    Forall2 (fun w x => in_linf_ball (smaller t scale) loc x <-> forall u, In u (uniforms w) -> Rabs (u - 1 / 2) <= t / 2) ws xs.
Proof.
  intros dim scale loc ws t Ht Ls Ll Ps W. unfold lp_generalized_uniform. rewrite (fitting_ok _ _ _ Ls Ll). eexists. split; [reflexivity|].
  induction W as [|w ws (_ & _ & Hw) W IH]; [constructor|]. constructor; [|exact IH]. apply linf_smaller; try assumption; congruence.
Qed.
Print Assumptions lp_uniform_balls_infinite.
(** With d = p the beta sampler puts a sample into the smaller ball with the same
    probability t^dim. *)
Theorem lp_beta_balls : forall dim q d scale loc ws t, (0 < dim)%nat -> 0 < q -> 0 < d -> 0 < t -> length scale = dim -> length loc = dim -> (forall s, In s scale -> 0 < s) -> Forall (drawn dim) ws -> Forall not_zero ws -> Forall (fun w => 0 <= betas w) ws ->
  exists xs, lp_generalized_beta dim (Finite q) d scale loc ws = Ok xs /\
    Forall2 (fun w x => in_lp_ball q (smaller t scale) loc x <-> betas w <= Rpower t q) ws xs /\
    (d = q -> forall F, beta_distribution (INR dim / q) F -> t <= 1 -> F (Rpower t q) = t ^ dim).
Proof.
  intros dim q d scale loc ws t Hd Hq Hd' Ht Ls Ll Ps W NZ B. assert (Pd : 0 < INR dim) by (apply lt_0_INR; exact Hd). unfold lp_generalized_beta.
  rewrite (shape_pos q Hq), beta_pos, (fitting_ok _ _ _ Ls Ll); [|apply Rdiv_lt_0_compat; assumption|apply Rdiv_lt_0_compat; assumption]. cbn [bind]. eexists. split; [reflexivity|]. split.
  - induction ws as [|w ws IH]; [constructor|]. inversion W; inversion NZ; inversion B; subst. constructor; [|apply IH; assumption]. unfold beta_row, lp_beta.
    assert (L : length (normal_row (Finite q) (ones (length scale)) (zeros (length scale)) w) = length scale) by (apply normal_length; [assumption|apply repeat_length|apply repeat_length]).
    rewrite in_smaller; try assumption; [|apply rpow_nonneg|apply normal_nz; assumption|rewrite L; reflexivity|rewrite L; assumption].
    assert (E : rpow t q = Rpower t q) by (unfold rpow; destruct (Req_EM_T t 0); [lra|reflexivity]). rewrite <- E. rewrite <- (rpow_le_iff _ t q Hq (rpow_nonneg _ _)) by lra.
    assert (R : rpow (rpow (betas w) (1 / q)) q = betas w).
    { assert (B0 : 0 <= betas w) by assumption. destruct B0 as [B0|B0]; [apply (rpow_root _ _ Hq); assumption|]. rewrite <- B0. unfold rpow. destruct (Req_EM_T 0 0) as [_|N]; [|congruence]. destruct (Req_EM_T 0 0); congruence. }
    rewrite R. reflexivity.
  - intros -> F HF T. assert (Q : 0 < Rpower t q) by apply exp_pos.
    assert (Q1 : Rpower t q <= 1). { pose proof (rpow_le1 t q Hq ltac:(lra)) as X. unfold rpow in X. destruct (Req_EM_T t 0); [lra|exact X]. }
    rewrite (beta_cdf _ F HF _) by lra. rewrite Rpower_mult. replace (q * (INR dim / q)) with (INR dim) by (field; lra). apply Rpower_pow. exact Ht.
Qed.
Print Assumptions lp_beta_balls.
(** Changing the sign of a normal draw mirrors the coordinate. *)
Theorem lp_mirrored : forall dim q d e ws, (0 < dim)%nat -> 0 < q -> 0 < d -> length e = dim -> signs e -> Forall (drawn dim) ws ->
  (forall p, (p = Infinite \/ p = Finite q) -> exists xs, lp_generalized_normal dim p (ones dim) (zeros dim) ws = Ok xs /\ lp_generalized_normal dim p (ones dim) (zeros dim) (map (mirror e) ws) = Ok (map (affine e (zeros dim)) xs)) /\
  (exists xs, lp_generalized_uniform dim (Finite q) (ones dim) (zeros dim) ws = Ok xs /\ lp_generalized_uniform dim (Finite q) (ones dim) (zeros dim) (map (mirror e) ws) = Ok (map (affine e (zeros dim)) xs)) /\
  (exists xs, lp_generalized_beta dim (Finite q) d (ones dim) (zeros dim) ws = Ok xs /\ lp_generalized_beta dim (Finite q) d (ones dim) (zeros dim) (map (mirror e) ws) = Ok (map (affine e (zeros dim)) xs)).
Proof.
  intros dim q d e ws Hd Hq Hd' Le S W. assert (Ez : fitting dim (ones dim) (zeros dim) = true) by (apply fitting_ok; apply repeat_length). assert (Pd : 0 < INR dim) by (apply lt_0_INR; exact Hd).
  assert (N : forall p w, In w ws -> normal_row p (ones dim) (zeros dim) (mirror e w) = affine e (zeros dim) (normal_row p (ones dim) (zeros dim) w)) by (intros p w Hw; apply mirror_normal; try assumption; eapply Forall_forall; eassumption).
  assert (L : forall p w, In w ws -> length (normal_row p (ones dim) (zeros dim) w) = dim) by (intros p w Hw; apply normal_length; [eapply Forall_forall; eassumption|apply repeat_length|apply repeat_length]).
  split; [|split].
  - intros p Hp. unfold lp_generalized_normal. rewrite (no_negative_ok _ (ones_nonneg dim)), Ez. assert (Es : shape_ok p = Ok tt) by (destruct Hp as [-> | ->]; [reflexivity|apply shape_pos; exact Hq]). rewrite Es. cbn [bind].
    eexists. split; [reflexivity|]. f_equal. rewrite !map_map. apply map_ext_in. intros w Hw. apply N. exact Hw.
  - unfold lp_generalized_uniform. rewrite (shape_pos q Hq), (beta_pos _ _ Pd Rlt_0_1), Ez. cbn [bind]. eexists. split; [reflexivity|]. f_equal. rewrite !map_map. apply map_ext_in. intros w Hw. unfold uniform_row. rewrite N by exact Hw. apply mirror_uniform; try assumption. apply L. exact Hw.
  - unfold lp_generalized_beta. rewrite (shape_pos q Hq), beta_pos, Ez; [|apply Rdiv_lt_0_compat; assumption|apply Rdiv_lt_0_compat; assumption]. cbn [bind]. eexists. split; [reflexivity|]. f_equal. rewrite !map_map. apply map_ext_in. intros w Hw. unfold beta_row, lp_beta. rewrite N by exact Hw. apply mirror_uniform; try assumption. apply L. exact Hw.
Qed.
Print Assumptions lp_mirrored.
Example lp_mirrored_ex : signs [1; -1].
Proof. constructor; [left; reflexivity|]. constructor; [right; reflexivity|constructor]. Qed.
(** A draw in the plane; and a distribution function as required exists. *)
Example lp_samples_draw : drawn 2 (mk_draws [1; 4] [1; -2] (1 / 2) [0; 1]) /\ not_zero (mk_draws [1; 4] [1; -2] (1 / 2) [0; 1]).
Proof. split; [repeat split|]. exists 0%nat. cbn. split; lra. Qed.
Example lp_samples_distribution : beta_distribution 2 (fun t => Rpower t 2).
Proof.
  assert (D : forall t, 0 < t -> derivable_pt_lim (fun t => Rpower t 2) t (2 * Rpower t (2 - 1))) by (intros t Ht; apply derivable_pt_lim_power; exact Ht).
  split; [unfold Rpower; rewrite ln_1, Rmult_0_r, exp_0; reflexivity|]. split; [|intros t Ht; apply D; lra]. intros t Ht. apply derivable_continuous_pt. eexists. apply D. lra.
Qed.
Example lp_normal_scaled : exists x, lp_generalized_normal 1 (Finite 2) [4] [0] [mk_draws [1] [3] 0 [0]] = Ok [[x]] /\ x = 2.
Proof.
  assert (R4 : rpow 4 (1 / 2) = 2). { unfold rpow. destruct (Req_EM_T 4 0); [lra|]. replace (1 / 2) with (/ 2) by field. rewrite Rpower_sqrt by lra. replace 4 with (2 * 2) by ring. apply sqrt_square. lra. }
  unfold lp_generalized_normal. rewrite (shape_pos 2) by lra. rewrite no_negative_ok by (intros s [<-|[]]; lra). cbn. eexists. split; [reflexivity|]. unfold sign. destruct (Rlt_dec 3 0); [lra|]. destruct (Rlt_dec 0 3); [|lra]. rewrite !Rmult_1_r, (Rabs_right 4) by lra. rewrite R4. ring.
Qed.
