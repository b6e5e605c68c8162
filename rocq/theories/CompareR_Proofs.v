From Coq Require Import List Arith Lia Reals Lra Psatz.
From Verif Require Import CompareR_Model.
Import ListNotations.
Local Open Scope R_scope.

Lemma rsum_nonneg l : (forall x, In x l -> 0 <= x) -> 0 <= rsum l.
Proof. induction l as [|x l IH]; intro H; simpl; [lra|]. assert (0 <= x) by (apply H; left; reflexivity). assert (0 <= rsum l) by (apply IH; intros; apply H; right; assumption). unfold rsum in *. lra. Qed.
Lemma rsum_zero l : (forall x, In x l -> 0 <= x) -> rsum l = 0 -> forall x, In x l -> x = 0.
Proof.
  induction l as [|y l IH]; intros H Z x Hx; [contradiction|]. cbn in Z. assert (0 <= y) by (apply H; left; reflexivity).
  assert (0 <= rsum l) by (apply rsum_nonneg; intros; apply H; right; assumption). unfold rsum in *. destruct Hx as [<-|Hx]; [lra|]. apply IH; [intros; apply H; right; assumption | lra | exact Hx].
Qed.
Lemma sq_diff_nonneg p q : 0 <= sq_diff p q.
Proof. unfold sq_diff. apply rsum_nonneg. intros x Hx. apply in_map_iff in Hx. destruct Hx as (e & <- & _). apply Rle_0_sqr. Qed.
Lemma sq_diff_sym p q : sq_diff p q = sq_diff q p.
Proof.
  unfold sq_diff. revert q; induction p as [|a p IH]; intros [|b q]; try reflexivity. cbn. unfold rsum in IH. rewrite IH. unfold Rsqr. ring.
Qed.
Lemma sq_diff_zero p q : length p = length q -> sq_diff p q = 0 <-> p = q.
Proof.
  revert q; induction p as [|a p IH]; intros [|b q] L; try discriminate; [split; reflexivity|]. simpl in L. specialize (IH q ltac:(lia)).
  unfold sq_diff in *. cbn. change (fold_right Rplus 0) with rsum. pose proof (sq_diff_nonneg p q) as N. unfold sq_diff in N. pose proof (Rle_0_sqr (a - b)) as S. split; intro H.
  - assert (E1 : Rsqr (a - b) = 0) by lra. assert (E2 : rsum (map (fun e => Rsqr (fst e - snd e)) (combine p q)) = 0) by lra. apply Rsqr_0_uniq in E1. f_equal; [lra | apply IH, E2].
  - injection H as -> H2. rewrite (proj2 IH H2). unfold Rsqr. ring.
Qed.
Lemma minkowski2 a b A B : 0 <= A -> 0 <= B -> sqrt (Rsqr (a + b) + Rsqr (A + B)) <= sqrt (Rsqr a + Rsqr A) + sqrt (Rsqr b + Rsqr B).
Proof.
  intros HA HB. set (x := Rsqr a + Rsqr A). set (y := Rsqr b + Rsqr B). assert (Hx : 0 <= x) by (unfold x; pose proof (Rle_0_sqr a); pose proof (Rle_0_sqr A); lra). assert (Hy : 0 <= y) by (unfold y; pose proof (Rle_0_sqr b); pose proof (Rle_0_sqr B); lra).
  apply Rsqr_incr_0_var; [|pose proof (sqrt_pos x); pose proof (sqrt_pos y); lra].
  rewrite Rsqr_sqrt by (pose proof (Rle_0_sqr (a + b)); pose proof (Rle_0_sqr (A + B)); lra).
  assert (C : a * b + A * B <= sqrt x * sqrt y).
  { rewrite <- sqrt_mult by assumption. apply Rsqr_incr_0_var; [|apply sqrt_pos]. rewrite Rsqr_sqrt by (apply Rmult_le_pos; assumption).
    unfold x, y, Rsqr. pose proof (Rle_0_sqr (a * B - A * b)) as S. unfold Rsqr in S. nra. }
  pose proof (Rsqr_sqrt x Hx) as Sx. pose proof (Rsqr_sqrt y Hy) as Sy. unfold Rsqr in *. unfold x, y in *. nra.
Qed.
Lemma l2_triangle : forall p q r, length p = length q -> length q = length r -> sqrt (sq_diff p r) <= sqrt (sq_diff p q) + sqrt (sq_diff q r).
Proof.
  induction p as [|a p IH]; intros [|b q] [|c r] L1 L2; try discriminate.
  - unfold sq_diff. simpl. rewrite sqrt_0. lra.
  - simpl in L1, L2. specialize (IH q r ltac:(lia) ltac:(lia)).
    assert (E : forall u v l m, sq_diff (u :: l) (v :: m) = Rsqr (u - v) + Rsqr (sqrt (sq_diff l m))).
    { intros u v l m. rewrite Rsqr_sqrt by apply sq_diff_nonneg. reflexivity. }
    rewrite !E. eapply Rle_trans; [|apply minkowski2; apply sqrt_pos].
    apply sqrt_le_1_alt. replace (a - b + (b - c)) with (a - c) by ring. apply Rplus_le_compat_l. apply Rsqr_incr_1; [exact IH | apply sqrt_pos | pose proof (sqrt_pos (sq_diff p q)); pose proof (sqrt_pos (sq_diff q r)); lra].
Qed.
Lemma euclid_square_lemma : forall factor p q, 0 <= factor -> 0 <= euclid factor p q /\
  Rsqr (euclid factor p q) = factor * rsum (map (fun e => Rsqr (fst e - snd e)) (combine p q)).
Proof.
  intros f p q Hf. unfold euclid. fold (sq_diff p q). split; [apply Rmult_le_pos; apply sqrt_pos|].
  rewrite Rsqr_mult, !Rsqr_sqrt; [reflexivity| |exact Hf]. unfold sq_diff. induction (combine p q) as [|e l IH]; cbn; [lra|].
  pose proof (Rle_0_sqr (fst e - snd e)). unfold rsum in IH. lra.
Qed.
Lemma euclid_metric_lemma : forall factor p q r, 0 < factor -> length p = length q -> length q = length r ->
  0 <= euclid factor p q /\ euclid factor p q = euclid factor q p /\ (euclid factor p q = 0 <-> p = q) /\ euclid factor p r <= euclid factor p q + euclid factor q r.
Proof.
  intros f p q r Hf L1 L2. unfold euclid. pose proof (sqrt_lt_R0 f Hf) as Sf. split; [apply Rmult_le_pos; [lra | apply sqrt_pos]|].
  split; [rewrite sq_diff_sym; reflexivity|]. split.
  - rewrite <- (sq_diff_zero p q L1). split; intro H.
    + apply Rmult_integral in H. destruct H as [H|H]; [lra|]. apply sqrt_eq_0; [apply sq_diff_nonneg | exact H].
    + rewrite H, sqrt_0. ring.
  - rewrite <- Rmult_plus_distr_l. apply Rmult_le_compat_l; [lra | apply l2_triangle; assumption].
Qed.
Lemma map_sqrt_inj : forall p q, (forall x, In x p -> 0 <= x) -> (forall x, In x q -> 0 <= x) -> map sqrt p = map sqrt q -> p = q.
Proof.
  induction p as [|a p IH]; intros [|b q] Hp Hq H; try discriminate; [reflexivity|]. simpl in H. injection H as H1 H2. f_equal.
  - apply sqrt_inj; [apply Hp; left; reflexivity | apply Hq; left; reflexivity | exact H1].
  - apply IH; [intros; apply Hp; right; assumption | intros; apply Hq; right; assumption | exact H2].
Qed.
Lemma hell_eq f p q : 0 <= f -> hell f p q = sqrt (f / 2) * sqrt (sq_diff (map sqrt p) (map sqrt q)).
Proof.
  intro Hf. unfold hell, sqhell. rewrite <- sqrt_mult; [f_equal; field | lra | apply sq_diff_nonneg].
Qed.
Lemma hell_metric_lemma : forall factor p q r, 0 < factor -> length p = length q -> length q = length r ->
  (forall x, In x p \/ In x q \/ In x r -> 0 <= x) ->
  0 <= hell factor p q /\ hell factor p q = hell factor q p /\ (hell factor p q = 0 <-> p = q) /\ hell factor p r <= hell factor p q + hell factor q r /\ Rsqr (hell factor p q) = sqhell factor p q.
Proof.
  intros f p q r Hf L1 L2 N. assert (Hf' : 0 <= f) by lra. assert (Sf : 0 < sqrt (f / 2)) by (apply sqrt_lt_R0; lra).
  split; [apply sqrt_pos|]. rewrite !(hell_eq f _ _ Hf'). split; [rewrite sq_diff_sym; reflexivity|]. split; [|split].
  - assert (L : length (map sqrt p) = length (map sqrt q)) by (rewrite !map_length; exact L1). split; intro H.
    + apply Rmult_integral in H. destruct H as [H|H]; [lra|]. apply sqrt_eq_0 in H; [|apply sq_diff_nonneg]. apply (sq_diff_zero _ _ L) in H. apply map_sqrt_inj; [intros; apply N; auto | intros; apply N; auto | exact H].
    + subst q. rewrite (proj2 (sq_diff_zero _ _ L) eq_refl), sqrt_0. ring.
  - rewrite <- Rmult_plus_distr_l. apply Rmult_le_compat_l; [lra | apply l2_triangle; rewrite !map_length; assumption].
  - rewrite Rsqr_mult, !Rsqr_sqrt by (try apply sq_diff_nonneg; lra). unfold sqhell. field.
Qed.
Lemma rnorm_sum p : rsum p <> 0 -> rsum (rnorm p) = 1.
Proof.
  intro H. unfold rnorm. set (s := rsum p) in *. assert (G : forall l, rsum (map (fun x => x / s) l) = rsum l / s).
  { induction l as [|x l IH]; cbn; [field; exact H|]. unfold rsum in IH. rewrite IH. field. exact H. }
  rewrite G. unfold s. field. exact H.
Qed.
Lemma rnorm_nonneg p : (forall x, In x p -> 0 <= x) -> 0 < rsum p -> forall x, In x (rnorm p) -> 0 <= x.
Proof. intros N S x Hx. unfold rnorm in Hx. apply in_map_iff in Hx. destruct Hx as (y & <- & Hy). apply Rmult_le_pos; [apply N, Hy | left; apply Rinv_0_lt_compat, S]. Qed.
Lemma root_diff a b : 0 <= a -> 0 <= b -> Rsqr (sqrt a - sqrt b) <= a + b /\ Rsqr (sqrt a - sqrt b) <= Rabs (a - b).
Proof.
  intros Ha Hb. pose proof (sqrt_pos a) as P1. pose proof (sqrt_pos b) as P2. pose proof (Rsqr_sqrt a Ha) as S1. pose proof (Rsqr_sqrt b Hb) as S2. unfold Rsqr in *.
  set (u := sqrt a) in *. set (v := sqrt b) in *. rewrite <- S1, <- S2. split; [nra|]. destruct (Rle_dec v u) as [H|H]; [rewrite Rabs_pos_eq by nra; nra | rewrite Rabs_left by nra; nra].
Qed.
Lemma sq_root_le p q : length p = length q -> (forall x, In x p -> 0 <= x) -> (forall x, In x q -> 0 <= x) ->
  sq_diff (map sqrt p) (map sqrt q) <= rsum p + rsum q /\ sq_diff (map sqrt p) (map sqrt q) <= rsum (map (fun e => Rabs (fst e - snd e)) (combine p q)).
Proof.
  revert q; induction p as [|a p IH]; intros [|b q] L Hp Hq; try discriminate; [unfold sq_diff; simpl; lra|]. simpl in L.
  destruct (IH q ltac:(lia)) as [I1 I2]; [intros; apply Hp; right; assumption | intros; apply Hq; right; assumption|].
  destruct (root_diff a b) as [R1 R2]; [apply Hp; left; reflexivity | apply Hq; left; reflexivity|]. unfold sq_diff, rsum in *. cbn. lra.
Qed.
Lemma hell_bounded_lemma : forall p q, length p = length q -> (forall x, In x p \/ In x q -> 0 <= x) -> 0 < rsum p -> 0 < rsum q ->
  sqhell 1 (rnorm p) (rnorm q) <= 1 /\ sqhell 1 (rnorm p) (rnorm q) <= rsum (map (fun e => Rabs (fst e - snd e)) (combine (rnorm p) (rnorm q))) / 2.
Proof.
  intros p q L N Sp Sq. destruct (sq_root_le (rnorm p) (rnorm q)) as [A B].
  - unfold rnorm. rewrite !map_length. exact L.
  - apply rnorm_nonneg; [intros; apply N; auto | exact Sp].
  - apply rnorm_nonneg; [intros; apply N; auto | exact Sq].
  - rewrite !rnorm_sum in A by lra. unfold sqhell. split; lra.
Qed.
Lemma hell_normalized_scale : forall n p q, 0 < n -> hell (1 / n) p q = hell 1 p q / sqrt n.
Proof.
  intros n p q Hn. assert (0 <= 1 / n) by (left; apply Rmult_lt_0_compat; [lra | apply Rinv_0_lt_compat, Hn]). rewrite !hell_eq by lra.
  assert (S : 0 < sqrt n) by (apply sqrt_lt_R0, Hn).
  replace (1 / n / 2) with ((1 / 2) / n) by (field; lra). rewrite (sqrt_div_alt (1 / 2) n) by lra. field. lra.
Qed.

(** ** Kullback-Leibler *)
Lemma ln_le t : 0 < t -> ln t <= t - 1.
Proof.
  intro H. destruct (Req_dec t 1) as [->|N]; [rewrite ln_1; lra|].
  pose proof (exp_ineq1 (ln t)) as E. rewrite exp_ln in E by exact H.
  assert (ln t <> 0) by (intro Z; apply N; rewrite <- (exp_ln t H), Z; apply exp_0). specialize (E H0). lra.
Qed.
Lemma ln_eq t : 0 < t -> ln t = t - 1 -> t = 1.
Proof.
  intros H E. destruct (Req_dec t 1) as [->|N]; [reflexivity|]. exfalso.
  assert (Z : ln t <> 0) by (intro Z; apply N; rewrite <- (exp_ln t H), Z; apply exp_0). pose proof (exp_ineq1 (ln t) Z) as I. rewrite exp_ln in I by exact H. lra.
Qed.
Lemma rel_entr_ge x y v : 0 <= x -> 0 <= y -> rel_entr x y = Some v -> x - y <= v /\ (v = x - y -> x = y).
Proof.
  intros Hx Hy E. unfold rel_entr in E. destruct (Rlt_dec 0 x) as [Px|Px].
  - destruct (Rlt_dec 0 y) as [Py|Py]; [|discriminate]. injection E as <-.
    assert (T : 0 < y / x) by (apply Rmult_lt_0_compat; [exact Py | apply Rinv_0_lt_compat, Px]).
    assert (LN : ln (x / y) = - ln (y / x)).
    { replace (x / y) with (/ (y / x)) by (field; lra). apply ln_Rinv, T. }
    rewrite LN. pose proof (ln_le _ T) as I. split.
    + assert (x * ln (y / x) <= x * (y / x - 1)) by (apply Rmult_le_compat_l; [lra | exact I]). replace (x * (y / x - 1)) with (y - x) in H by (field; lra). lra.
    + intro E. assert (E2 : ln (y / x) = y / x - 1).
      { apply (Rmult_eq_reg_l x); [|lra]. replace (x * (y / x - 1)) with (y - x) by (field; lra). lra. }
      apply (ln_eq _ T) in E2. apply (Rmult_eq_compat_r x) in E2. replace (y / x * x) with y in E2 by (field; lra). lra.
  - destruct (Req_EM_T x 0) as [->|]; [|discriminate]. destruct (Rle_dec 0 y); [|discriminate]. injection E as <-. split; intros; lra.
Qed.
Definition kl_sum (p q : list R) : option R :=
  fold_right (fun x s => match x, s with Some a, Some b => Some (a + b) | _, _ => None end) (Some 0) (map (fun e => rel_entr (fst e) (snd e)) (combine p q)).
Lemma kl_sum_ge : forall p q v, length p = length q -> (forall x, In x p -> 0 <= x) -> (forall x, In x q -> 0 <= x) -> kl_sum p q = Some v ->
  rsum p - rsum q <= v /\ (v = rsum p - rsum q -> p = q).
Proof.
  induction p as [|a p IH]; intros [|b q] v L Hp Hq E; try discriminate.
  - cbn in E. injection E as <-. cbn. split; [lra | reflexivity].
  - unfold kl_sum in E. cbn [combine map fold_right fst snd] in E. fold (kl_sum p q) in E. destruct (rel_entr a b) as [t|] eqn:Et; [|discriminate]. destruct (kl_sum p q) as [s|] eqn:Es; [|discriminate]. injection E as <-.
    destruct (rel_entr_ge a b t) as [R1 R2]; [apply Hp; left; reflexivity | apply Hq; left; reflexivity | exact Et|].
    destruct (IH q s) as [I1 I2]; [simpl in L; lia | intros; apply Hp; right; assumption | intros; apply Hq; right; assumption | exact Es|].
    unfold rsum in *. cbn. split; [lra|]. intro E. f_equal; [apply R2; lra | apply I2; lra].
Qed.
Lemma kl_self p : (forall x, In x p -> 0 <= x) -> kl_sum p p = Some 0.
Proof.
  induction p as [|a p IH]; intro H; [reflexivity|]. unfold kl_sum. cbn [combine map fold_right fst snd]. fold (kl_sum p p). rewrite IH by (intros; apply H; right; assumption).
  assert (Ha : 0 <= a) by (apply H; left; reflexivity). unfold rel_entr. destruct (Rlt_dec 0 a) as [P|P].
  - replace (a / a) with 1 by (field; lra). rewrite ln_1. f_equal. ring.
  - destruct (Req_EM_T a 0) as [->|]; [|lra]. destruct (Rle_dec 0 0); [f_equal; ring | lra].
Qed.
Lemma kl_lemma : forall p q, length p = length q -> (forall x, In x p \/ In x q -> 0 <= x) -> 0 < rsum p -> 0 < rsum q ->
  (forall v, kl p q = Some v -> 0 <= v) /\ (kl p q = Some 0 <-> rnorm p = rnorm q).
Proof.
  intros p q L N Sp Sq. change (kl p q) with (kl_sum (rnorm p) (rnorm q)).
  assert (LN : length (rnorm p) = length (rnorm q)) by (unfold rnorm; rewrite !map_length; exact L).
  assert (Np : forall x, In x (rnorm p) -> 0 <= x) by (apply rnorm_nonneg; [intros; apply N; auto | exact Sp]).
  assert (Nq : forall x, In x (rnorm q) -> 0 <= x) by (apply rnorm_nonneg; [intros; apply N; auto | exact Sq]).
  assert (G : forall v, kl_sum (rnorm p) (rnorm q) = Some v -> 0 <= v /\ (v = 0 -> rnorm p = rnorm q)).
  { intros v E. destruct (kl_sum_ge _ _ v LN Np Nq E) as [A B]. rewrite !rnorm_sum in A, B by lra. split; [lra|]. intro Z. apply B. lra. }
  split; [intros v E; apply (G v E)|]. split; intro E; [apply (proj2 (G 0 E) eq_refl)|]. rewrite E. apply kl_self, Nq.
Qed.
Lemma kl_example : kl [1; 0] [2; 2] = Some (ln 2) /\ kl [2; 2] [1; 0] = None.
Proof.
  assert (A1 : 1 / (1 + (0 + 0)) = 1) by field. assert (A0 : 0 / (1 + (0 + 0)) = 0) by field. assert (A2 : 2 / (2 + (2 + 0)) = / 2) by field.
  unfold kl, rnorm, rsum. cbn [map combine fold_right fst snd]. rewrite !A1, !A0, !A2. unfold rel_entr. split.
  - destruct (Rlt_dec 0 1); [|lra]. destruct (Rlt_dec 0 (/ 2)); [|lra]. destruct (Rlt_dec 0 0); [lra|]. destruct (Req_EM_T 0 0); [|lra]. destruct (Rle_dec 0 (/ 2)); [|lra].
    f_equal. replace (1 / / 2) with 2 by field. ring.
  - destruct (Rlt_dec 0 (/ 2)); [|lra]. destruct (Rlt_dec 0 1); [|lra]. destruct (Rlt_dec 0 0); [lra | reflexivity].
Qed.
