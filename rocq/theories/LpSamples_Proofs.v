From Coq Require Import List Arith Lia Reals Lra Psatz.
From Verif Require Import Err GradientR_Model GradientR_Spec GradientR_Proofs LpSamples_Model LpSamples_Spec.
Import ListNotations.
Local Open Scope R_scope.
Local Open Scope err_scope.

Lemma affine_uniform q : forall dim z r scale loc, length z = dim -> length scale = dim -> length loc = dim ->
  lp_uniform q z r scale loc = affine scale loc (lp_uniform q z r (ones dim) (zeros dim)).
Proof.
  intros dim z r scale loc Lz Ls Ll. unfold lp_uniform, affine. set (n := rpow _ _). clearbody n. revert dim scale loc Lz Ls Ll.
  induction z as [|x z IH]; intros [|dim] [|s scale] [|l loc] Lz Ls Ll; try discriminate; [reflexivity|]. cbn. f_equal; [ring|]. apply (IH dim); [injection Lz|injection Ls|injection Ll]; trivial.
Qed.
Lemma affine_linf : forall dim u scale loc, length u = dim -> length scale = dim -> length loc = dim -> linf_uniform u scale loc = affine scale loc (linf_uniform u (ones dim) (zeros dim)).
Proof.
  intros dim u. unfold linf_uniform, affine. revert dim. induction u as [|x u IH]; intros [|dim] [|s scale] [|l loc] Lz Ls Ll; try discriminate; [reflexivity|]. cbn. f_equal; [field|]. apply (IH dim); [injection Lz|injection Ls|injection Ll]; trivial.
Qed.
Lemma normal_length dim p scale loc w : drawn dim w -> length scale = dim -> length loc = dim -> length (normal_row p scale loc w) = dim.
Proof. intros (A & B & _) C D. unfold normal_row. rewrite map_length, !combine_length. lia. Qed.
Lemma root_mul q s u : 0 <= s -> root (Finite q) (s * u) = rpow s (1 / q) * root (Finite q) u.
Proof. intros H. unfold root. rewrite Rabs_mult, (Rabs_right s) by lra. apply rpow_mul; [exact H|apply Rabs_pos]. Qed.
Lemma affine_normal q : forall dim scale loc w, drawn dim w -> length scale = dim -> length loc = dim -> (forall s, In s scale -> 0 <= s) ->
  normal_row (Finite q) scale loc w = affine (map (fun s => rpow s (1 / q)) scale) loc (normal_row (Finite q) (ones dim) (zeros dim) w).
Proof.
  intros dim scale loc [gs ns b us] (A & B & _). cbn [gammas normals] in A, B. unfold normal_row, affine. cbn [gammas normals]. revert dim scale loc ns A B.
  induction gs as [|x gs IH]; intros [|dim] [|s scale] [|l loc] [|n ns] A B Ls Ll N; try discriminate; [reflexivity|]. cbn [map combine ones zeros repeat fst snd]. f_equal.
  - rewrite root_mul by (apply N; left; reflexivity). rewrite Rmult_1_l. ring.
  - apply (IH dim); [injection A|injection B|injection Ls|injection Ll|]; trivial. intros t Ht. apply N. right. exact Ht.
Qed.
Lemma fitting_ok dim scale loc : length scale = dim -> length loc = dim -> fitting dim scale loc = true.
Proof. intros A B. unfold fitting. rewrite A, B, Nat.eqb_refl. reflexivity. Qed.
Lemma no_negative_ok l : (forall s, In s l -> 0 <= s) -> no_negative l = Ok tt.
Proof. induction l as [|x l IH]; intros H; cbn [no_negative]; [reflexivity|]. destruct (Rlt_dec x 0) as [L|_]; [specialize (H x (or_introl eq_refl)); lra|]. apply IH. intros s Hs. apply H. right. exact Hs. Qed.
Lemma ones_nonneg dim s : In s (ones dim) -> 0 <= s.
Proof. intros H. apply repeat_spec in H. lra. Qed.
Lemma shape_pos q : 0 < q -> shape_ok (Finite q) = Ok tt.
Proof. intros H. cbn. destruct (Req_EM_T q 0); [lra|]. destruct (Rlt_dec q 0); [lra|]. reflexivity. Qed.
Lemma beta_pos a b : 0 < a -> 0 < b -> beta_ok a b = Ok tt.
Proof. intros A B. unfold beta_ok. destruct (Rlt_dec 0 a); [|contradiction]. destruct (Rlt_dec 0 b); [reflexivity|contradiction]. Qed.

(** ** Radii *)
Lemma sign_nz x : x <> 0 -> sign x <> 0.
Proof. intros H. unfold sign. destruct (Rlt_dec x 0); [lra|]. destruct (Rlt_dec 0 x); lra. Qed.
Lemma rpow_pos x p : 0 < x -> 0 < rpow x p.
Proof. intros H. unfold rpow. destruct (Req_EM_T x 0); [lra|]. apply exp_pos. Qed.
Lemma normal_nz dim q w : drawn dim w -> not_zero w -> exists x, In x (normal_row (Finite q) (ones dim) (zeros dim) w) /\ x <> 0.
Proof.
  destruct w as [gs ns b us]. intros (A & B & _) (j & G & N). cbn [gammas normals] in *. unfold normal_row. cbn [gammas normals]. revert dim ns j A B G N.
  induction gs as [|x gs IH]; intros [|dim] [|n ns] j A B G N; try discriminate; [destruct j; cbn in G; lra|]. cbn [map combine ones zeros repeat fst snd]. destruct j as [|j].
  - cbn in G, N. eexists. split; [left; reflexivity|]. rewrite Rplus_0_r, Rmult_1_l. apply Rmult_integral_contrapositive. split; [|apply sign_nz; exact N]. unfold root. pose proof (rpow_pos (Rabs x) (1 / q) (Rabs_pos_lt x G)). lra.
  - destruct (IH dim ns j) as (y & Iy & Ny); [injection A|injection B| | |]; trivial. exists y. split; [right; exact Iy|exact Ny].
Qed.
Lemma radius_sum p z r t scale loc : 0 < p -> 0 <= r -> 0 < t -> (exists x, In x z /\ x <> 0) -> (forall s, In s scale -> 0 < s) -> length scale = length z -> length loc = length z ->
  rsum (map (fun e => rpow (Rabs ((snd (fst e) - snd e) / fst (fst e))) p) (combine (combine (smaller t scale) (lp_uniform p z r scale loc)) loc)) = rpow (r / t) p.
Proof.
  intros Hp Hr Ht Hz Hs Ls Ll. unfold lp_uniform. set (S := rsum (map (fun x => rpow (Rabs x) p) z)). assert (PS : 0 < S) by (apply rsum_pos_elem, Hz). destruct (rpow_root S p Hp PS) as [Pn En]. set (n := rpow S (1 / p)) in *.
  assert (Pt : 0 < t * n) by (apply Rmult_lt_0_compat; assumption).
  assert (G : forall z scale loc, (forall s, In s scale -> 0 < s) -> length scale = length z -> length loc = length z ->
    rsum (map (fun e => rpow (Rabs ((snd (fst e) - snd e) / fst (fst e))) p)
      (combine (combine (smaller t scale) (map (fun e => fst (fst e) / n * r * snd (fst e) + snd e) (combine (combine z scale) loc))) loc)) =
    rpow (r / (t * n)) p * rsum (map (fun x => rpow (Rabs x) p) z)).
  { clear - Hr Pn Ht Pt. intro z'. induction z' as [|x z' IH]; intros [|s scale] [|l loc] Hs Ls Ll; simpl in Ls, Ll; try discriminate; [cbn; ring|].
    cbn. specialize (IH scale loc ltac:(intros; apply Hs; right; assumption) ltac:(lia) ltac:(lia)). unfold rsum, smaller in *. rewrite IH.
    assert (Ps : 0 < s) by (apply Hs; left; reflexivity).
    replace ((x / n * r * s + l - l) / (t * s)) with (r / (t * n) * x) by (field; lra).
    rewrite Rabs_mult. assert (0 <= r / (t * n)) by (apply Rmult_le_pos; [lra | left; apply Rinv_0_lt_compat, Pt]).
    rewrite (Rabs_right (r / (t * n))) by lra. rewrite rpow_mul by (try lra; apply Rabs_pos). ring. }
  rewrite G by assumption. fold S. replace (r / (t * n)) with (r / t * / n) by (field; lra). assert (0 <= r / t) by (apply Rmult_le_pos; [lra | left; apply Rinv_0_lt_compat, Ht]).
  rewrite rpow_mul; [|lra|left; apply Rinv_0_lt_compat, Pn]. rewrite rpow_inv by exact Pn. rewrite En. rewrite Rmult_assoc, Rinv_l by lra. ring.
Qed.
Lemma rpow_one p : rpow 1 p = 1.
Proof. unfold rpow. destruct (Req_EM_T 1 0); [lra|]. unfold Rpower. rewrite ln_1, Rmult_0_r, exp_0. reflexivity. Qed.
Lemma rpow_lt x y p : 0 < p -> 0 <= x -> x < y -> rpow x p < rpow y p.
Proof.
  intros Hp Hx L. unfold rpow. destruct (Req_EM_T y 0); [lra|]. destruct (Req_EM_T x 0); [apply exp_pos|]. apply exp_increasing. apply Rmult_lt_compat_l; [exact Hp|]. apply ln_increasing; lra.
Qed.
Lemma rpow_le_iff x y p : 0 < p -> 0 <= x -> 0 <= y -> (rpow x p <= rpow y p <-> x <= y).
Proof. intros Hp Hx Hy. split; intros H; [apply Rnot_lt_le; intros L; apply (rpow_lt _ _ _ Hp Hy) in L; lra|]. destruct H as [L|E]; [left; apply rpow_lt; assumption|rewrite E; lra]. Qed.
Lemma in_smaller p z r t scale loc : 0 < p -> 0 <= r -> 0 < t -> (exists x, In x z /\ x <> 0) -> (forall s, In s scale -> 0 < s) -> length scale = length z -> length loc = length z ->
  (in_lp_ball p (smaller t scale) loc (lp_uniform p z r scale loc) <-> r <= t).
Proof.
  intros Hp Hr Ht Hz Hs Ls Ll. unfold in_lp_ball. rewrite radius_sum by assumption. assert (H0 : 0 <= r / t) by (apply Rmult_le_pos; [lra | left; apply Rinv_0_lt_compat, Ht]).
  assert (E : rpow (r / t) p <= 1 <-> r <= t).
  { rewrite <- (rpow_one p) at 1. rewrite rpow_le_iff by lra. split; intros H.
    - apply (Rmult_le_compat_r t) in H; [|lra]. unfold Rdiv in H. rewrite Rmult_assoc, Rinv_l in H by lra. lra.
    - apply (Rmult_le_reg_r t); [exact Ht|]. unfold Rdiv. rewrite Rmult_assoc, Rinv_l by lra. lra. }
  rewrite <- E. split; [intros [_ H]; exact H|]. intros H. split; [|exact H]. unfold lp_uniform. rewrite map_length, !combine_length. lia.
Qed.
Lemma beta_cdf a F : beta_distribution a F -> forall t, 0 < t <= 1 -> F t = Rpower t a.
Proof.
  intros (F1 & C & D) t [Ht Ht1]. set (h := fun x => F x - Rpower x a).
  assert (DP : forall x, 0 < x -> derivable_pt_lim (fun x => Rpower x a) x (a * Rpower x (a - 1))) by (intros x Hx; apply derivable_pt_lim_power; exact Hx).
  assert (DH : forall x, 0 < x < 1 -> derivable_pt_lim h x 0).
  { intros x Hx. unfold h. apply d_val with (a * Rpower x (a - 1) - a * Rpower x (a - 1)); [|ring]. apply (derivable_pt_lim_minus F (fun x => Rpower x a)); [apply D; exact Hx|apply DP; lra]. }
  assert (CH : forall x, 0 < x <= 1 -> continuity_pt h x).
  { intros x Hx. apply (continuity_pt_minus F (fun x => Rpower x a)); [apply C; exact Hx|]. apply derivable_continuous_pt. eexists. apply DP. lra. }
  assert (Z : constant_D_eq h (fun x => t <= x <= 1) (h t)).
  { apply null_derivative_loc with (pr := fun x (P : t < x < 1) => exist _ 0 (DH x (conj (Rlt_trans _ _ _ Ht (proj1 P)) (proj2 P)))).
    - intros x Hx. apply CH. lra.
    - intros x P. apply derive_pt_eq_0. apply DH. lra. }
  assert (E : h 1 = h t) by (apply Z; lra). unfold h in E. rewrite F1 in E. unfold Rpower at 1 in E. rewrite ln_1, Rmult_0_r, exp_0 in E. lra.
Qed.
Lemma linf_smaller : forall u t scale loc, 0 <= t -> (forall s, In s scale -> 0 < s) -> length scale = length u -> length loc = length u ->
  (in_linf_ball (smaller t scale) loc (linf_uniform u scale loc) <-> forall x, In x u -> Rabs (x - 1 / 2) <= t / 2).
Proof.
  intros u t scale loc Ht Hs Ls Ll. unfold in_linf_ball. assert (L : length (linf_uniform u scale loc) = length loc) by (unfold linf_uniform; rewrite map_length, !combine_length; lia).
  enough (X : (forall j, (j < length (linf_uniform u scale loc))%nat -> Rabs (nth j (linf_uniform u scale loc) 0 - nth j loc 0) <= nth j (smaller t scale) 0) <-> forall x, In x u -> Rabs (x - 1 / 2) <= t / 2) by (rewrite X; tauto).
  rewrite L, Ll. clear L. revert scale loc Hs Ls Ll. induction u as [|x u IH]; intros [|s scale] [|l loc] Hs Ls Ll; try discriminate; [split; [intros _ y []|intros _ j Hj; inversion Hj]|].
  specialize (IH scale loc ltac:(intros; apply Hs; right; assumption) ltac:(injection Ls; trivial) ltac:(injection Ll; trivial)). assert (Ps : 0 < s) by (apply Hs; left; reflexivity).
  assert (E : Rabs ((x - 1 / 2) * 2 * s + l - l) <= t * s <-> Rabs (x - 1 / 2) <= t / 2).
  { replace ((x - 1 / 2) * 2 * s + l - l) with ((2 * s) * (x - 1 / 2)) by ring. rewrite Rabs_mult, (Rabs_right (2 * s)) by lra. split; intros H; nra. }
  split.
  - intros H y [<-|Iy]; [apply E; apply (H 0%nat); cbn; lia|]. apply IH; [|exact Iy]. intros j Hj. apply (H (S j)). cbn. lia.
  - intros H [|j] Hj; [apply E; apply H; left; reflexivity|]. apply (proj2 IH); [intros y Iy; apply H; right; exact Iy|]. cbn in Hj. lia.
Qed.
Lemma corners dim scale loc w : drawn dim w -> length scale = dim -> length loc = dim -> normal_row Infinite scale loc w = map (fun e => snd e + sign (fst e)) (combine (normals w) loc).
Proof.
  destruct w as [gs ns b us]. intros (A & B & _) Ls Ll. unfold normal_row. cbn [gammas normals] in *. revert dim ns scale loc A B Ls Ll.
  induction gs as [|x gs IH]; intros [|dim] [|n ns] [|s scale] [|l loc] A B Ls Ll; try discriminate; [reflexivity|]. cbn. f_equal; [ring|]. apply (IH dim); [injection A|injection B|injection Ls|injection Ll]; trivial.
Qed.
(** ** Symmetry *)
Lemma sign_opp x : sign (- x) = - sign x.
Proof. unfold sign. destruct (Rlt_dec (- x) 0), (Rlt_dec x 0), (Rlt_dec 0 (- x)), (Rlt_dec 0 x); lra. Qed.
Lemma sign_signs e x : e = 1 \/ e = -1 -> sign (e * x) = e * sign x.
Proof. intros [-> | ->]; [rewrite !Rmult_1_l; reflexivity|]. replace (-1 * x) with (- x) by ring. rewrite sign_opp. ring. Qed.
Lemma mirror_normal p : forall dim e w, drawn dim w -> length e = dim -> signs e -> normal_row p (ones dim) (zeros dim) (mirror e w) = affine e (zeros dim) (normal_row p (ones dim) (zeros dim) w).
Proof.
  intros dim e [gs ns b us] (A & B & _). cbn [gammas normals] in A, B. unfold normal_row, affine, mirror. cbn [gammas normals]. revert dim e ns A B.
  induction gs as [|x gs IH]; intros [|dim] [|s e] [|n ns] A B Le S; try discriminate; [reflexivity|]. inversion S; subst. cbn [map combine ones zeros repeat fst snd]. f_equal; [rewrite sign_signs by assumption; ring|].
  apply (IH dim); [injection A|injection B|injection Le|]; trivial.
Qed.
Lemma mirror_norm p : forall dim e z, length e = dim -> length z = dim -> signs e -> map (fun x => rpow (Rabs x) p) (affine e (zeros dim) z) = map (fun x => rpow (Rabs x) p) z.
Proof.
  intros dim e z. revert dim e. induction z as [|x z IH]; intros [|dim] [|s e] Le Lz S; try discriminate; [reflexivity|]. inversion S as [|? ? Hs S1]; subst. unfold affine. cbn [zeros repeat combine map fst snd]. f_equal; [|apply (IH dim); [injection Le|injection Lz|]; trivial].
  f_equal. rewrite Rplus_0_l, Rabs_mult. replace (Rabs s) with 1; [ring|]. destruct Hs as [-> | ->]; [symmetry; apply Rabs_R1|]. rewrite Rabs_left by lra. lra.
Qed.
Lemma mirror_uniform p : forall dim e z r, length e = dim -> length z = dim -> signs e -> lp_uniform p (affine e (zeros dim) z) r (ones dim) (zeros dim) = affine e (zeros dim) (lp_uniform p z r (ones dim) (zeros dim)).
Proof.
  intros dim e z r Le Lz S. unfold lp_uniform. rewrite (mirror_norm p dim e z Le Lz S). set (n := rpow _ _). clearbody n. unfold affine. clear S. revert dim e Le Lz.
  induction z as [|x z IH]; intros [|dim] [|s e] Le Lz; try discriminate; [reflexivity|]. cbn. f_equal; [unfold Rdiv; ring|]. apply (IH dim); [injection Le|injection Lz]; trivial.
Qed.
