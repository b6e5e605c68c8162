(** Proofs about GradientR_Model. *)
From Coq Require Import List Arith Lia Reals Lra Psatz.
From Verif Require Import NumPy Lists Query_Proofs Inverse_Proofs GradientR_Model GradientR_Spec.
Import ListNotations.
Local Open Scope R_scope.

(** ** Rules for derivatives in function form *)
Lemma d_ext f g x l : (forall t, f t = g t) -> derivable_pt_lim f x l -> derivable_pt_lim g x l.
Proof. intros E H eps He. destruct (H eps He) as [del Hd]. exists del. intros h H0 H1. rewrite <- !E. apply Hd; assumption. Qed.
Lemma d_val f x l l' : derivable_pt_lim f x l -> l = l' -> derivable_pt_lim f x l'.
Proof. intros H <-. exact H. Qed.
Lemma d_plus f g x a b : derivable_pt_lim f x a -> derivable_pt_lim g x b -> derivable_pt_lim (fun t => f t + g t) x (a + b).
Proof. exact (derivable_pt_lim_plus f g x a b). Qed.
Lemma d_mult f g x a b : derivable_pt_lim f x a -> derivable_pt_lim g x b -> derivable_pt_lim (fun t => f t * g t) x (a * g x + f x * b).
Proof. exact (derivable_pt_lim_mult f g x a b). Qed.
Lemma d_comp f g x a b : derivable_pt_lim f x a -> derivable_pt_lim g (f x) b -> derivable_pt_lim (fun t => g (f t)) x (b * a).
Proof. exact (derivable_pt_lim_comp f g x a b). Qed.
Lemma d_const c x : derivable_pt_lim (fun _ => c) x 0.
Proof. exact (derivable_pt_lim_const c x). Qed.
Lemma d_id x : derivable_pt_lim (fun t => t) x 1.
Proof. exact (derivable_pt_lim_id x). Qed.
Lemma d_scal c f x a : derivable_pt_lim f x a -> derivable_pt_lim (fun t => c * f t) x (c * a).
Proof. exact (derivable_pt_lim_scal f c x a). Qed.
Lemma d_sqrt f x a : 0 < f x -> derivable_pt_lim f x a -> derivable_pt_lim (fun t => sqrt (f t)) x (/ (2 * sqrt (f x)) * a).
Proof. intros P H. apply (d_comp f sqrt); [exact H | apply derivable_pt_lim_sqrt, P]. Qed.
Lemma d_exp f x a : derivable_pt_lim f x a -> derivable_pt_lim (fun t => exp (f t)) x (exp (f x) * a).
Proof. intro H. apply (d_comp f exp); [exact H | apply derivable_pt_lim_exp]. Qed.
Lemma d_inv f x a : f x <> 0 -> derivable_pt_lim f x a -> derivable_pt_lim (fun t => 1 / f t) x (- a / (f x)²).
Proof.
  intros N H. eapply d_val; [apply (derivable_pt_lim_div (fct_cte 1) f x 0 a); [apply derivable_pt_lim_const | exact H | exact N]|].
  unfold fct_cte, Rsqr. field. exact N.
Qed.

(** ** One coordinate *)
Definition s2 (C b t : R) : R := C + (t - b)².
Lemma s2_nonneg C b t : 0 <= C -> 0 <= s2 C b t.
Proof. intro H. unfold s2. pose proof (Rle_0_sqr (t - b)). lra. Qed.
Lemma d_s2 C b t : derivable_pt_lim (s2 C b) t (2 * (t - b)).
Proof.
  apply (d_ext (fun t => C + (t - b) * (t - b))); [reflexivity|].
  eapply d_val; [apply d_plus; [apply d_const|]; apply d_mult; apply (d_ext (fun t => t + - b)); try reflexivity; apply d_plus; try apply d_id; apply d_const|]. cbv beta. ring.
Qed.
Lemma sqr_sqrt_mult e s : 0 <= s -> (e * sqrt s)² = e² * s.
Proof. intro H. rewrite Rsqr_mult, Rsqr_sqrt by exact H. reflexivity. Qed.

Definition matern (e r : R) : R := (1 + (e * r) + (e * r)² / 3) * exp (- e * r).
Lemma d_matern e r : derivable_pt_lim (matern e) r (- (e² * r * exp (- e * r) * (e * r + 1)) / 3).
Proof.
  unfold matern. apply (d_ext (fun t => (1 + (e * t) + (/ 3 * (e * t * (e * t)))) * exp (- e * t))).
  { intro t. unfold Rsqr. f_equal. f_equal. field. }
  eapply d_val.
  - apply d_mult.
    + apply d_plus; [apply d_plus; [apply d_const | apply d_scal, d_id]|]. apply d_scal. apply d_mult; apply d_scal, d_id.
    + apply d_exp. apply d_scal, d_id.
  - cbv beta. unfold Rsqr. field.
Qed.

Lemma one_coordinate k e C b t : 0 <= C ->
  derivable_pt_lim (fun t => radial_basis_function (sqrt (s2 C b t)) k (Some e)) t
    (radial_basis_function_dxi (sqrt (s2 C b t)) (t - b) k (Some e)).
Proof.
  intro HC. pose proof (s2_nonneg C b) as S. pose proof (fun t => S t HC) as S0. clear S.
  assert (MAT : derivable_pt_lim (fun t => matern e (sqrt (s2 C b t))) t
                 (- (e² * (t - b) * exp (- e * sqrt (s2 C b t)) * (e * sqrt (s2 C b t) + 1)) / 3)).
  { destruct (Rle_lt_or_eq_dec 0 (s2 C b t) (S0 t)) as [P|Z].
    - eapply d_val; [apply (d_comp (fun t => sqrt (s2 C b t)) (matern e)); [apply d_sqrt; [exact P | apply d_s2] | apply d_matern]|].
      pose proof (sqrt_lt_R0 _ P). field. lra.
    - assert (T : t = b /\ C = 0).
      { unfold s2 in Z. pose proof (Rle_0_sqr (t - b)). assert (Q : (t - b)² = 0) by lra. apply Rsqr_0_uniq in Q. split; lra. }
      destruct T as [-> ->]. 
      assert (Eq : forall h, sqrt (s2 0 b (b + h)) = Rabs h) by (intro h; unfold s2; replace (0 + (b + h - b)²) with (h²) by (unfold Rsqr; ring); apply sqrt_Rsqr_abs).
      assert (E0 : sqrt (s2 0 b b) = 0) by (rewrite <- Z; apply sqrt_0).
      intros eps He. destruct (d_matern e 0 eps He) as [del Hd]. exists del. intros h Hh1 Hh2. rewrite Eq, E0.
      assert (A : Rabs h <> 0) by (apply Rabs_no_R0, Hh1).
      specialize (Hd (Rabs h) A). rewrite Rabs_Rabsolu in Hd. specialize (Hd Hh2). rewrite Rplus_0_l in Hd.
      replace (- (e² * (b - b) * exp (- e * 0) * (e * 0 + 1)) / 3) with 0 by field.
      replace (- (e² * 0 * exp (- e * 0) * (e * 0 + 1)) / 3) with 0 in Hd by field.
      rewrite Rminus_0_r in *. unfold Rdiv in *. rewrite Rabs_mult in *. rewrite Rabs_inv in *. rewrite Rabs_Rabsolu in Hd. exact Hd. }
  destruct k as [[| | |]|]; [exact MAT| | | |exact MAT]; unfold radial_basis_function, radial_basis_function_dxi, the_ep; clear MAT.
  - apply (d_ext (fun t => exp (- e² * s2 C b t))).
    { intro u. rewrite sqr_sqrt_mult by apply S0. f_equal. ring. }
    eapply d_val; [apply d_exp, d_scal, d_s2|]. rewrite sqr_sqrt_mult by apply S0. replace (- (e² * s2 C b t)) with (- e² * s2 C b t) by ring. ring.
  - apply (d_ext (fun t => sqrt (1 + e² * s2 C b t))).
    { intro u. rewrite sqr_sqrt_mult by apply S0. reflexivity. }
    assert (P : 0 < 1 + e² * s2 C b t) by (pose proof (Rmult_le_pos _ _ (Rle_0_sqr e) (S0 t)); lra).
    eapply d_val; [apply d_sqrt; [exact P|]; apply d_plus; [apply d_const|]; apply d_scal, d_s2|].
    rewrite sqr_sqrt_mult by apply S0. pose proof (sqrt_lt_R0 _ P). field. lra.
  - apply (d_ext (fun t => 1 / sqrt (1 + e² * s2 C b t))).
    { intro u. rewrite sqr_sqrt_mult by apply S0. reflexivity. }
    assert (P : 0 < 1 + e² * s2 C b t) by (pose proof (Rmult_le_pos _ _ (Rle_0_sqr e) (S0 t)); lra).
    pose proof (sqrt_lt_R0 _ P) as Q.
    eapply d_val; [apply d_inv; [lra|]; apply d_sqrt; [exact P|]; apply d_plus; [apply d_const|]; apply d_scal, d_s2|].
    rewrite sqr_sqrt_mult by apply S0. rewrite Rsqr_sqrt by lra. field. lra.
Qed.

(** ** Several coordinates *)
Definition sqd (x y : list R) : R := rsum (map (fun p => (fst p - snd p)²) (combine x y)).
Lemma sqd_nonneg x y : 0 <= sqd x y.
Proof.
  unfold sqd. revert y; induction x as [|a x IH]; intros [|b y]; try (apply Rle_refl). cbn.
  specialize (IH y). unfold rsum in IH. pose proof (Rle_0_sqr (a - b)). lra.
Qed.
Lemma sqd_put x y i : length x = length y -> (i < length x)%nat ->
  exists C, 0 <= C /\ forall t, sqd (put x i t) y = s2 C (nth i y 0) t.
Proof.
  revert y i; induction x as [|a x IH]; intros [|b y] i L H; simpl in L, H; try lia.
  destruct i as [|i].
  - exists (sqd x y). split; [apply sqd_nonneg|]. intro t. unfold put, s2, sqd. cbn. unfold rsum. lra.
  - destruct (IH y i ltac:(lia) ltac:(lia)) as (C & HC & E). exists (C + (a - b)²). split; [pose proof (Rle_0_sqr (a - b)); lra|].
    intro t. specialize (E t). unfold put, sqd, s2 in *. cbn in *. unfold rsum in *. lra.
Qed.
Lemma put_self x i : (i < length x)%nat -> put x i (nth i x 0) = x.
Proof. revert i; induction x as [|a x IH]; intros [|i] H; simpl in *; try lia; [reflexivity|]. unfold put in *. simpl. f_equal. apply IH. lia. Qed.

Lemma rbf_partial_lemma : forall k ep x y i, length x = length y -> (i < length x)%nat ->
  has_partial (fun z => radial_basis_function (dist z y) k ep) x i
    (radial_basis_function_dxi (dist x y) (nth i x 0 - nth i y 0) k ep).
Proof.
  intros k ep x y i L H. destruct (sqd_put x y i L H) as (C & HC & E).
  assert (G : forall e, has_partial (fun z => radial_basis_function (dist z y) k (Some e)) x i
    (radial_basis_function_dxi (dist x y) (nth i x 0 - nth i y 0) k (Some e))).
  { intro e. unfold has_partial. assert (Ed : forall t, dist (put x i t) y = sqrt (s2 C (nth i y 0) t)) by (intro t; unfold dist; fold (sqd (put x i t) y); rewrite E; reflexivity).
    apply (d_ext (fun t => radial_basis_function (sqrt (s2 C (nth i y 0) t)) k (Some e))); [intro t; rewrite Ed; reflexivity|].
    rewrite <- (put_self x i H) at 2. rewrite Ed. apply one_coordinate, HC. }
  destruct ep as [e|]; [apply G|]. exact (G 1).
Qed.

(** ** Interpolation *)
Lemma kernel_sum_partial phi dphi c i : forall pts coef, length coef = length pts ->
  (forall q, In q pts -> has_partial (fun z => phi (dist z q)) c i (dphi q)) ->
  has_partial (kernel_sum phi pts coef) c i (rdot (map dphi pts) coef).
Proof.
  unfold has_partial. induction pts as [|q pts IH]; intros [|l coef] L H; simpl in L; try lia.
  - apply (d_ext (fun _ => 0)); [reflexivity | apply d_const].
  - unfold kernel_sum, rdot. cbn. apply d_plus.
    + eapply d_val; [apply d_scal; apply H; left; reflexivity|]. ring.
    + apply IH; [lia | intros; apply H; right; assumption].
Qed.
Lemma rdot_sym a b : rdot a b = rdot b a.
Proof. unfold rdot. revert b; induction a as [|x a IH]; intros [|y b]; try reflexivity. cbn. unfold rsum in IH. rewrite IH. ring. Qed.
Lemma rdot_cons x a y b : rdot (x :: a) (y :: b) = x * y + rdot a b.
Proof. reflexivity. Qed.
Lemma rsum_map_add {A} (f g : A -> R) l : rsum (map (fun x => f x + g x) l) = rsum (map f l) + rsum (map g l).
Proof. induction l as [|x l IH]; cbn; [ring|]. unfold rsum in IH. rewrite IH. ring. Qed.
Lemma rsum_map_mul {A} c (f : A -> R) l : rsum (map (fun x => c * f x) l) = c * rsum (map f l).
Proof. induction l as [|x l IH]; cbn; [ring|]. unfold rsum in IH. rewrite IH. ring. Qed.
Lemma rsum_map_zero {A} (f : A -> R) l : (forall x, f x = 0) -> rsum (map f l) = 0.
Proof. intro H. induction l as [|x l IH]; cbn; [reflexivity|]. unfold rsum in IH. rewrite IH, H. ring. Qed.
Lemma rsum_swap {A B} (f : A -> B -> R) la lb :
  rsum (map (fun a => rsum (map (f a) lb)) la) = rsum (map (fun b => rsum (map (fun a => f a b) la)) lb).
Proof.
  induction la as [|a la IH]; cbn.
  - symmetry. apply rsum_map_zero. reflexivity.
  - unfold rsum in *. rewrite IH. symmetry. apply (rsum_map_add (f a) (fun b => rsum (map (fun a => f a b) la))).
Qed.
Lemma rdot_map_combine {A} (f : A -> R) (l : list A) (w : list R) : rdot (map f l) w = rsum (map (fun p => f (fst p) * snd p) (combine l w)).
Proof. unfold rdot. rewrite combine_map_l, map_map. reflexivity. Qed.
(** A symmetric matrix given by a symmetric function *)
Lemma symmetric_swap {A} (K : A -> A -> R) (pts : list A) u v : (forall p q, K p q = K q p) -> length u = length pts -> length v = length pts ->
  rdot u (map (fun p => rdot (map (K p) pts) v) pts) = rdot (map (fun p => rdot (map (K p) pts) u) pts) v.
Proof.
  intros Sy Lu Lv. rewrite rdot_sym. rewrite !rdot_map_combine.
  transitivity (rsum (map (fun a => rsum (map (fun b => K (fst a) (fst b) * snd b * snd a) (combine pts v))) (combine pts u))).
  { f_equal. apply map_ext. intros (p, x). cbn [fst snd]. rewrite rdot_map_combine. rewrite Rmult_comm. rewrite <- rsum_map_mul. f_equal. apply map_ext. intros (q, y). cbn [fst snd]. ring. }
  rewrite rsum_swap. f_equal. apply map_ext. intros (q, y). cbn [fst snd]. rewrite rdot_map_combine. rewrite Rmult_comm. rewrite <- rsum_map_mul.
  f_equal. apply map_ext. intros (p, x). cbn [fst snd]. rewrite (Sy p q). ring.
Qed.
Lemma dist_sym x y : dist x y = dist y x.
Proof.
  unfold dist. f_equal. revert y; induction x as [|a x IH]; intros [|b y]; try reflexivity. cbn. unfold rsum in IH. rewrite IH. f_equal. unfold Rsqr. ring.
Qed.

Lemma set_nth_rdot i v : forall col col' d, set_nth i v col = Some col' -> nth_error col i = Some 0 -> length d = length col ->
  rdot col' d = rdot col d + v * nth i d 0.
Proof.
  induction i as [|i IH]; intros [|x col] col' [|y d] E Z L; simpl in *; try discriminate.
  - injection E as <-. injection Z as ->. rewrite !rdot_cons. ring.
  - destruct (set_nth i v col) as [c'|] eqn:Ec; [|discriminate]. injection E as <-. rewrite !rdot_cons, (IH col c' d Ec Z) by lia. ring.
Qed.
Lemma set_nth_same {A} i (v : A) : forall l l', set_nth i v l = Some l' -> length l' = length l /\ forall j, j <> i -> nth_error l' j = nth_error l j.
Proof.
  induction i as [|i IH]; intros [|x l] l' E; simpl in *; try discriminate.
  - injection E as <-. split; [reflexivity|]. intros [|j] H; [congruence | reflexivity].
  - destruct (set_nth i v l) as [c'|] eqn:Ec; [|discriminate]. injection E as <-. destruct (IH l c' Ec) as [H1 H2]. split; [simpl; lia|].
    intros [|j] H; [reflexivity|]. simpl. apply H2. congruence.
Qed.
Lemma scatter_rdot : forall idx w col col' d, NoDup idx -> scatter col idx w = Some col' -> (forall i, In i idx -> nth_error col i = Some 0) ->
  length d = length col -> rdot col' d = rdot col d + rdot w (map (fun i => nth i d 0) idx).
Proof.
  induction idx as [|i is IH]; intros [|v w] col col' d N E Z L; simpl in E; try discriminate.
  - injection E as <-. unfold rdot. simpl. ring.
  - destruct (set_nth i v col) as [c1|] eqn:E1; [|discriminate]. inversion N as [|? ? N1 N2]; subst.
    destruct (set_nth_same i v col c1 E1) as [L1 S1].
    rewrite (IH w c1 col' d N2 E).
    + rewrite (set_nth_rdot i v col c1 d E1) by (try assumption; apply Z; left; reflexivity). cbn [map]. rewrite rdot_cons. ring.
    + intros j Hj. rewrite S1 by (intros ->; contradiction). apply Z. right. exact Hj.
    + lia.
Qed.
Lemma rdot_zero n d : rdot (repeat 0 n) d = 0.
Proof. revert d; induction n as [|n IH]; intros [|y d]; try reflexivity. simpl repeat. rewrite rdot_cons, IH. ring. Qed.

Lemma rbf_entry_value solve kernel_arg ep samples data nearest c i a g coef pts :
  solves solve -> NoDup nearest -> length data = length samples -> take_idx samples nearest = Some pts ->
  rbf_entry solve kernel_arg ep samples data nearest c i a = Some g ->
  length coef = length pts ->
  interpolates (kernel_sum (fun r => radial_basis_function r (Some (match kernel_arg with Some k => k | None => Gaussian end)) None) pts coef)
     pts (map (fun j => nth a (nth j data []) 0) nearest) ->
  g = rdot (rbf_rhs (match kernel_arg with Some k => k | None => Gaussian end) ep c pts i) coef.
Proof.
  intros Sv N Ld Tk E Lc I. unfold rbf_entry in E. rewrite Tk in E. set (k := match kernel_arg with Some k => k | None => Gaussian end) in *.
  destruct (solve (rbf_matrix k pts) (rbf_rhs k ep c pts i)) as [w|] eqn:Es; [|discriminate].
  destruct (Sv _ _ _ Es) as [Lw Hw]. unfold rbf_matrix in Lw. rewrite map_length in Lw.
  destruct (scatter (repeat 0 (length samples)) nearest w) as [col|] eqn:Ec; [|discriminate]. injection E as <-.
  destruct (take_idx_nth samples nearest pts Tk) as [Lp Hp].
  assert (Rg : forall j, In j nearest -> (j < length samples)%nat).
  { intros j Hj. apply In_nth_error in Hj. destruct Hj as [q Hq]. specialize (Hp q j Hq). 
    assert (q < length pts)%nat by (rewrite Lp; eapply nth_error_lt, Hq). apply nth_error_Some. rewrite <- Hp. apply nth_error_Some. exact H. }
  rewrite (scatter_rdot nearest w _ _ _ N Ec);
    [| intros j Hj; apply nth_error_repeat', Rg, Hj | rewrite map_length, repeat_length; exact Ld].
  rewrite rdot_zero, Rplus_0_l.
  assert (Ev : map (fun j => nth j (map (fun row => nth a row 0) data) 0) nearest = map (fun j => nth a (nth j data []) 0) nearest).
  { apply map_ext_in. intros j Hj. specialize (Rg j Hj). rewrite <- Ld in Rg. 
    apply nth_error_nth. rewrite nth_error_map_eq. rewrite (nth_error_nth' data [] Rg). reflexivity. }
  rewrite Ev, <- I. clear Ev.
  set (K := fun p q => radial_basis_function (dist p q) (Some k) None).
  rewrite (map_ext (kernel_sum _ pts coef) (fun p => rdot (map (K p) pts) coef))
    by (intro p; rewrite rdot_map_combine; unfold kernel_sum, K; f_equal; apply map_ext; intro; ring).
  rewrite symmetric_swap; [| intros p q; unfold K; rewrite dist_sym; reflexivity | lia | exact Lc].
  f_equal. rewrite <- Hw. unfold mat_vec, rbf_matrix. rewrite map_map. reflexivity.
Qed.
Lemma rbf_gradient_lemma : forall solve kernel_arg ep samples data nearest c i a g coef pts,
  solves solve -> NoDup nearest -> length data = length samples -> take_idx samples nearest = Some pts ->
  (forall q, In q pts -> length q = length c) -> (i < length c)%nat -> (ep = None \/ ep = Some 1) ->
  rbf_entry solve kernel_arg ep samples data nearest c i a = Some g ->
  length coef = length pts ->
  interpolates (kernel_sum (fun r => radial_basis_function r (Some (match kernel_arg with Some k => k | None => Gaussian end)) ep) pts coef)
     pts (map (fun j => nth a (nth j data []) 0) nearest) ->
  has_partial (kernel_sum (fun r => radial_basis_function r (Some (match kernel_arg with Some k => k | None => Gaussian end)) ep) pts coef) c i g.
Proof.
  intros solve kernel_arg ep samples data nearest c i a g coef pts Sv N Ld Tk W Hi Ep E Lc I.
  set (k := match kernel_arg with Some k => k | None => Gaussian end) in *.
  assert (Ee : forall r, radial_basis_function r (Some k) ep = radial_basis_function r (Some k) None) by (destruct Ep as [->| ->]; reflexivity).
  assert (I' : interpolates (kernel_sum (fun r => radial_basis_function r (Some k) None) pts coef) pts (map (fun j => nth a (nth j data []) 0) nearest)).
  { unfold interpolates in *. rewrite <- I. apply map_ext. intro p. unfold kernel_sum. f_equal. apply map_ext. intro. rewrite Ee. reflexivity. }
  rewrite (rbf_entry_value solve kernel_arg ep samples data nearest c i a g coef pts Sv N Ld Tk E Lc I').
  unfold rbf_rhs. fold k.
  eapply d_val.
  - apply (kernel_sum_partial _ (fun q => radial_basis_function_dxi (dist c q) (nth i c 0 - nth i q 0) (Some k) ep)); [exact Lc|].
    intros q Hq. apply rbf_partial_lemma; [symmetry; apply W, Hq | exact Hi].
  - reflexivity.
Qed.

(** Weights are found with the kernel of shape parameter one whatever ep is. *)
Lemma sqrt_eq a b : 0 <= b -> a = b * b -> sqrt a = b.
Proof. intros H ->. apply sqrt_square, H. Qed.
Definition ex_solve (m : list (list R)) (b : list R) : option (list R) :=
  match m, b with
  | [[p; q]; [r; s]], [x; y] =>
      if Req_EM_T (p * s - q * r) 0 then None
      else Some [(s * x - q * y) / (p * s - q * r); (p * y - r * x) / (p * s - q * r)]
  | _, _ => None
  end.
Lemma ex_solve_ok : solves ex_solve.
Proof.
  intros m b w E. unfold ex_solve in E.
  destruct m as [|[|p [|q [|]]] [|[|r [|s [|]]] [|]]]; try discriminate. destruct b as [|x [|y [|]]]; try discriminate.
  destruct (Req_EM_T (p * s - q * r) 0); [discriminate|]. injection E as <-. split; [reflexivity|].
  unfold mat_vec, rdot, rsum. cbn. f_equal; [|f_equal]; field; assumption.
Qed.
Lemma rbf_gradient_refuted_lemma : ~ (forall solve kernel_arg ep samples data nearest c i a g coef pts,
  solves solve -> NoDup nearest -> length data = length samples -> take_idx samples nearest = Some pts ->
  (forall q, In q pts -> length q = length c) -> (i < length c)%nat ->
  rbf_entry solve kernel_arg ep samples data nearest c i a = Some g ->
  length coef = length pts ->
  interpolates (kernel_sum (fun r => radial_basis_function r (Some (match kernel_arg with Some k => k | None => Gaussian end)) ep) pts coef)
     pts (map (fun j => nth a (nth j data []) 0) nearest) ->
  has_partial (kernel_sum (fun r => radial_basis_function r (Some (match kernel_arg with Some k => k | None => Gaussian end)) ep) pts coef) c i g).
Proof.
  intro H.
  set (smp := [[0]; [3 / 4]] : list (list R)). set (dt := [[0]; [1]] : list (list R)).
  assert (D00 : dist [0] [0] = 0) by (apply sqrt_eq; [lra|]; cbn; unfold Rsqr; lra).
  assert (D11 : dist [3 / 4] [3 / 4] = 0) by (apply sqrt_eq; [lra|]; cbn; unfold Rsqr; lra).
  assert (D01 : dist [0] [3 / 4] = 3 / 4) by (apply sqrt_eq; [lra|]; cbn; unfold Rsqr; lra).
  assert (D10 : dist [3 / 4] [0] = 3 / 4) by (apply sqrt_eq; [lra|]; cbn; unfold Rsqr; lra).
  assert (Q0 : forall e, sqrt (1 + (e * 0)²) = 1) by (intro; apply sqrt_eq; [lra|]; unfold Rsqr; lra).
  assert (Q1 : sqrt (1 + (1 * (3 / 4))²) = 5 / 4) by (apply sqrt_eq; [lra|]; unfold Rsqr; lra).
  assert (Qe : sqrt (1 + (16 / 9 * (3 / 4))²) = 5 / 3) by (apply sqrt_eq; [lra|]; unfold Rsqr; lra).
  assert (Eg : exists g, rbf_entry ex_solve (Some Multiquadric) (Some (16 / 9)) smp dt [0%nat; 1%nat] [0] 0 0 = Some g /\ g = 1024 / 405).
  { unfold rbf_entry, smp, dt. cbn [take_idx nth_error]. unfold rbf_matrix, rbf_rhs. cbn [map nth].
    rewrite D00, D11, D01, D10. unfold radial_basis_function, radial_basis_function_dxi, the_ep. rewrite !Q0, Q1, Qe. unfold ex_solve.
    destruct (Req_EM_T (1 * 1 - 5 / 4 * (5 / 4)) 0) as [Z|Z]; [lra|]. cbn. eexists. split; [reflexivity|]. unfold rdot, Rsqr. cbn. field; lra. }
  destruct Eg as (g & Eg & Vg).
  assert (Hd := H ex_solve (Some Multiquadric) (Some (16 / 9)) smp dt [0%nat; 1%nat] [0] 0%nat 0%nat g [15 / 16; - (9 / 16)] smp
    ex_solve_ok ltac:(repeat constructor; simpl; intuition discriminate) eq_refl eq_refl
    ltac:(intros q [<-|[<-|[]]]; reflexivity) ltac:(simpl; lia) Eg eq_refl).
  assert (I : interpolates (kernel_sum (fun r => radial_basis_function r (Some Multiquadric) (Some (16 / 9))) smp [15 / 16; - (9 / 16)]) smp
                (map (fun j => nth 0 (nth j dt []) 0) [0%nat; 1%nat])).
  { unfold interpolates, kernel_sum, smp, dt. cbn [map combine fst snd nth rsum fold_right]. rewrite D00, D11, D01, D10.
    unfold radial_basis_function, the_ep. rewrite !Q0, Qe. f_equal; [lra|f_equal; lra]. }
  specialize (Hd I).
  assert (Hv := kernel_sum_partial (fun r => radial_basis_function r (Some Multiquadric) (Some (16 / 9)))
     (fun q => radial_basis_function_dxi (dist [0] q) (nth 0 [0] 0 - nth 0 q 0) (Some Multiquadric) (Some (16 / 9))) [0] 0 smp [15 / 16; - (9 / 16)] eq_refl).
  assert (Hv' := Hv ltac:(intros q Hq; apply rbf_partial_lemma; [destruct Hq as [<-|[<-|[]]]; reflexivity | simpl; lia])). clear Hv.
  pose proof (uniqueness_limite _ _ _ _ Hd Hv') as U. rewrite Vg in U. revert U.
  unfold smp, rdot. cbn [map combine nth fst snd rsum fold_right]. rewrite D00, D01. unfold radial_basis_function_dxi, the_ep. rewrite !Q0, Qe. unfold Rsqr. intro U.
  field_simplify in U. lra.
Qed.

(** ** Lp balls *)
Lemma rpow_nonneg x p : 0 <= rpow x p.
Proof. unfold rpow. destruct (Req_EM_T x 0); [lra|]. unfold Rpower. left. apply exp_pos. Qed.
Lemma rpow_mul x y p : 0 <= x -> 0 <= y -> rpow (x * y) p = rpow x p * rpow y p.
Proof.
  intros Hx Hy. unfold rpow. destruct (Req_EM_T x 0) as [->|Nx]; [rewrite Rmult_0_l; destruct (Req_EM_T 0 0); [ring | congruence]|].
  destruct (Req_EM_T y 0) as [->|Ny]; [rewrite Rmult_0_r; destruct (Req_EM_T 0 0); [ring | congruence]|].
  destruct (Req_EM_T (x * y) 0) as [Z|_]; [apply Rmult_integral in Z; tauto|]. symmetry. apply Rpower_mult_distr; lra.
Qed.
Lemma rpow_le1 x p : 0 < p -> 0 <= x <= 1 -> rpow x p <= 1.
Proof.
  intros Hp [H0 H1]. unfold rpow. destruct (Req_EM_T x 0); [lra|]. 
  destruct (Rle_lt_or_eq_dec x 1 H1) as [L| ->].
  - unfold Rpower. rewrite <- exp_0. left. apply exp_increasing.
    assert (ln x < 0) by (rewrite <- ln_1; apply ln_increasing; lra). nra.
  - unfold Rpower. rewrite ln_1, Rmult_0_r, exp_0. lra.
Qed.
Lemma rpow_root S p : 0 < p -> 0 < S -> 0 < rpow S (1 / p) /\ rpow (rpow S (1 / p)) p = S.
Proof.
  intros Hp HS. unfold rpow at 1 3. destruct (Req_EM_T S 0) as [Z|_]; [lra|].
  assert (P : 0 < Rpower S (1 / p)) by (unfold Rpower; apply exp_pos). split; [exact P|].
  unfold rpow. destruct (Req_EM_T (Rpower S (1 / p)) 0) as [Z|_]; [lra|].
  rewrite Rpower_mult. replace (1 / p * p) with 1 by (field; lra). apply Rpower_1, HS.
Qed.
Lemma rpow_inv y p : 0 < y -> rpow (/ y) p = / rpow y p.
Proof.
  intro H. assert (0 < / y) by (apply Rinv_0_lt_compat, H).
  assert (E : rpow (y * / y) p = 1).
  { rewrite Rinv_r by lra. unfold rpow. destruct (Req_EM_T 1 0); [lra|]. unfold Rpower. rewrite ln_1, Rmult_0_r, exp_0. reflexivity. }
  rewrite rpow_mul in E by lra. assert (N : rpow y p <> 0) by (intro Z; rewrite Z in E; lra).
  apply (Rmult_eq_reg_l (rpow y p)); [|exact N]. rewrite E. field. exact N.
Qed.
Lemma rsum_nonneg {A} (f : A -> R) l : (forall x, 0 <= f x) -> 0 <= rsum (map f l).
Proof. intro H. induction l as [|x l IH]; cbn; [lra|]. unfold rsum in IH. specialize (H x). lra. Qed.
Lemma rsum_pos_elem z p : (exists x, In x z /\ x <> 0) -> 0 < rsum (map (fun x => rpow (Rabs x) p) z).
Proof.
  intros (x & Hx & Nx). induction z as [|y z IH]; [contradiction|]. cbn. fold (rsum (map (fun x => rpow (Rabs x) p) z)).
  pose proof (rpow_nonneg (Rabs y) p). destruct Hx as [->|Hx].
  - assert (0 < rpow (Rabs x) p). { unfold rpow. destruct (Req_EM_T (Rabs x) 0) as [Z|_]; [apply Rabs_no_R0 in Nx; contradiction|]. unfold Rpower. apply exp_pos. }
    pose proof (rsum_nonneg (fun x => rpow (Rabs x) p) z (fun x => rpow_nonneg _ _)). lra.
  - specialize (IH Hx). lra.
Qed.
Lemma lp_uniform_lemma : forall p z r scale loc, 0 < p -> 0 <= r <= 1 -> (exists x, In x z /\ x <> 0) ->
  (forall s, In s scale -> 0 < s) -> length scale = length z -> length loc = length z ->
  in_lp_ball p scale loc (lp_uniform p z r scale loc).
Proof.
  intros p z r scale loc Hp Hr Hz Hs Ls Ll. 
  set (S := rsum (map (fun x => rpow (Rabs x) p) z)). assert (PS : 0 < S) by (apply rsum_pos_elem, Hz).
  destruct (rpow_root S p Hp PS) as [Pn En]. set (n := rpow S (1 / p)) in *.
  unfold in_lp_ball, lp_uniform. fold S. fold n. split; [rewrite map_length, !combine_length; lia|].
  assert (G : forall z scale loc, (forall s, In s scale -> 0 < s) -> length scale = length z -> length loc = length z ->
    rsum (map (fun e => rpow (Rabs ((snd (fst e) - snd e) / fst (fst e))) p)
      (combine (combine scale (map (fun e => fst (fst e) / n * r * snd (fst e) + snd e) (combine (combine z scale) loc))) loc)) =
    rpow (r / n) p * rsum (map (fun x => rpow (Rabs x) p) z)).
  { clear - Hr Pn. intro z'. induction z' as [|x z' IH]; intros [|s scale] [|l loc] Hs Ls Ll; simpl in Ls, Ll; try discriminate; [cbn; ring|].
    cbn. specialize (IH scale loc ltac:(intros; apply Hs; right; assumption) ltac:(lia) ltac:(lia)). unfold rsum in *. rewrite IH.
    assert (Ps : 0 < s) by (apply Hs; left; reflexivity).
    replace ((x / n * r * s + l - l) / s) with (r / n * x) by (field; lra).
    rewrite Rabs_mult. assert (0 <= r / n) by (apply Rmult_le_pos; [lra | left; apply Rinv_0_lt_compat, Pn]).
    rewrite (Rabs_right (r / n)) by lra. rewrite rpow_mul by (try lra; apply Rabs_pos). ring. }
  rewrite G by assumption. unfold Rdiv. rewrite rpow_mul by (try lra; left; apply Rinv_0_lt_compat, Pn).
  rewrite rpow_inv by exact Pn. rewrite En. fold S. rewrite Rmult_assoc, Rinv_l by lra. rewrite Rmult_1_r. apply rpow_le1; assumption.
Qed.
Lemma lp_beta_lemma : forall p z b scale loc, 0 < p -> 0 <= b <= 1 -> (exists x, In x z /\ x <> 0) ->
  (forall s, In s scale -> 0 < s) -> length scale = length z -> length loc = length z ->
  in_lp_ball p scale loc (lp_beta p z b scale loc).
Proof.
  intros p z b scale loc Hp Hb. intros. apply lp_uniform_lemma; try assumption. split; [apply rpow_nonneg|].
  apply rpow_le1; [|exact Hb]. unfold Rdiv. rewrite Rmult_1_l. apply Rinv_0_lt_compat, Hp.
Qed.
Lemma linf_uniform_lemma : forall u scale loc, (forall x, In x u -> 0 <= x <= 1) ->
  (forall s, In s scale -> 0 < s) -> length scale = length u -> length loc = length u ->
  in_linf_ball scale loc (linf_uniform u scale loc).
Proof.
  intros u scale loc Hu Hs Ls Ll. unfold linf_uniform. split; [rewrite map_length, !combine_length; lia|].
  rewrite map_length, !combine_length. revert scale loc Hs Ls Ll. induction u as [|x u IH]; intros [|s scale] [|l loc] Hs Ls Ll j Hj; simpl in Ls, Ll, Hj; try lia.
  destruct j as [|j]; cbn.
  - replace ((x - 1 / 2) * 2 * s + l - l) with ((2 * x - 1) * s) by field.
    assert (0 <= x <= 1) by (apply Hu; left; reflexivity). assert (0 < s) by (apply Hs; left; reflexivity).
    apply Rabs_le. nra.
  - apply IH; [intros; apply Hu; right; assumption | intros; apply Hs; right; assumption | lia..].
Qed.
Lemma linf_uniform_onto_lemma : forall scale loc y, (forall s, In s scale -> 0 < s) -> length scale = length loc ->
  in_linf_ball scale loc y ->
  exists u, length u = length loc /\ (forall x, In x u -> 0 <= x <= 1) /\ linf_uniform u scale loc = y.
Proof.
  intros scale loc y Hs Ls [Ly H]. revert loc y Hs Ls Ly H. induction scale as [|s scale IH]; intros [|l loc] [|z y] Hs Ls Ly H; cbn [length] in Ls, Ly; try discriminate.
  - exists []. split; [reflexivity|]. split; [intros x []|reflexivity].
  - destruct (IH loc y) as (u & Lu & Hu & E); [intros; apply Hs; right; assumption | lia | lia | |].
    + intros j Hj. apply (H (S j)). cbn [length]. lia.
    + assert (0 < s) as Ps by (apply Hs; left; reflexivity).
      assert (Rabs (z - l) <= s) as A by (apply (H 0%nat); cbn [length]; lia).
      assert (- s <= z - l <= s) as B by (split; [|apply Rle_trans with (2 := A), Rle_abs]; pose proof (Rle_abs (- (z - l))) as C; rewrite Rabs_Ropp in C; lra).
      exists ((z - l) / (2 * s) + 1 / 2 :: u). split; [cbn [length]; lia|]. split.
      * intros x [<-|I]; [|exact (Hu x I)].
        assert ((z - l) / (2 * s) * (2 * s) = z - l) as F by (field; lra). split; nra.
      * unfold linf_uniform in *. cbn [combine map fst snd]. rewrite E. f_equal. field. lra.
Qed.
