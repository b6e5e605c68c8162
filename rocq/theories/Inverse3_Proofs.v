From Coq Require Import ZArith List Arith Lia Bool Sorting.Sorted QArith Qcanon Qround Permutation.
From Verif Require Import Err Num Ext NumPy Lists Query_Proofs Layout_Proofs Volume_Proofs Error_Proofs Inverse_Model Inverse_Spec Inverse_Proofs Inverse2_Proofs.
Import ListNotations.
Local Open Scope nat_scope.

(** ** Weighted mean and covariance *)
Lemma nth_map_seq {A} (f : nat -> A) n i d : i < n -> nth i (map f (seq 0 n)) d = f i.
Proof. intro H. rewrite (nth_indep _ d (f 0)) by (rewrite map_length, seq_length; exact H). rewrite map_nth, seq_nth by exact H. reflexivity. Qed.

Lemma wsum_ge f x w lo : length x = length w -> all_nonneg w -> (forall row, In row x -> (lo <= f row)%Qc) -> (lo * qsum w <= wsum f x w)%Qc.
Proof.
  revert w; induction x as [|r x IH]; intros [|a w] L W H; try discriminate; unfold wsum in *; cbn [combine map qsum fst snd].
  - rewrite Qcmult_0_r. apply Qcle_refl.
  - rewrite Qcmult_plus_distr_r. apply Qcplus_le_compat.
    + apply Qcmult_le_compat_r; [apply H; left; reflexivity | apply W; left; reflexivity].
    + apply IH; [simpl in L; lia | intros y Hy; apply W; right; exact Hy | intros; apply H; right; assumption].
Qed.
Lemma wsum_le f x w hi : length x = length w -> all_nonneg w -> (forall row, In row x -> (f row <= hi)%Qc) -> (wsum f x w <= hi * qsum w)%Qc.
Proof.
  revert w; induction x as [|r x IH]; intros [|a w] L W H; try discriminate; unfold wsum in *; cbn [combine map qsum fst snd].
  - rewrite Qcmult_0_r. apply Qcle_refl.
  - rewrite Qcmult_plus_distr_r. apply Qcplus_le_compat.
    + apply Qcmult_le_compat_r; [apply H; left; reflexivity | apply W; left; reflexivity].
    + apply IH; [simpl in L; lia | intros y Hy; apply W; right; exact Hy | intros; apply H; right; assumption].
Qed.
Lemma all_nonneg_sum w : all_nonneg w -> (0 <= qsum w)%Qc.
Proof. apply qsum_nonneg. Qed.
Lemma sum_pos w : all_nonneg w -> (exists a, In a w /\ a <> 0%Qc) -> (0 < qsum w)%Qc.
Proof.
  intros W (a & Ha & Na). apply Qcnot_le_lt. intro H. apply Na. apply (qsum_zero_nonneg w W); [|exact Ha].
  apply Qcle_antisym; [exact H | apply qsum_nonneg, W].
Qed.

Lemma weighted_defined w : all_nonneg w -> (exists a, In a w /\ a <> 0%Qc) -> qeqb (qsum w) 0 = false.
Proof. intros A B. apply qeqb_false, Qclt_neq0, sum_pos; assumption. Qed.

Lemma weighted_mean_lemma : forall dim x w, length x = length w -> all_nonneg w -> (exists a, In a w /\ a <> 0%Qc) ->
  exists m c, weighted_mean_and_cov dim x w = Some (m, c) /\ length m = dim /\ square dim c /\
  forall i lo hi, i < dim -> (forall row, In row x -> (lo <= nth i row 0)%Qc /\ (nth i row 0 <= hi)%Qc) -> (lo <= nth i m 0 /\ nth i m 0 <= hi)%Qc.
Proof.
  intros dim x w L W P. unfold weighted_mean_and_cov. rewrite weighted_defined by assumption. eexists _, _. split; [reflexivity|].
  unfold weighted_mean, square, weighted_cov. rewrite !map_length, !seq_length. split; [reflexivity|]. split.
  { split; [reflexivity|]. intros r Hr. apply in_map_iff in Hr. destruct Hr as (i & <- & _). rewrite map_length, seq_length. reflexivity. }
  intros i lo hi Hi H. rewrite nth_map_seq by exact Hi. split.
  - apply qc_le_div; [apply sum_pos; assumption|]. apply wsum_ge; [assumption..|]. intros; apply H; assumption.
  - apply qc_div_le; [apply sum_pos; assumption|]. apply wsum_le; [assumption..|]. intros; apply H; assumption.
Qed.

Lemma entry_cov dim x w m i j : i < dim -> j < dim -> entry (weighted_cov dim x w m) i j =
  (qsum (map (fun e => (snd e * (nth i (vsub (fst e) m) 0 * nth j (vsub (fst e) m) 0))%Qc) (combine x w)) / qsum w)%Qc.
Proof. intros Hi Hj. unfold entry, weighted_cov. rewrite nth_map_seq by exact Hi. rewrite nth_map_seq by exact Hj. reflexivity. Qed.

Lemma qsum_quad {A} (l : list A) (v : nat -> Qc) (d : A -> nat -> Qc) (w : A -> Qc) I :
  qsum (map (fun i => qsum (map (fun j => v i * qsum (map (fun e => w e * (d e i * d e j)) l) * v j) I)) I)%Qc =
  qsum (map (fun e => w e * (qsum (map (fun i => v i * d e i) I) * qsum (map (fun i => v i * d e i) I)))%Qc l).
Proof.
  transitivity (qsum (map (fun i => qsum (map (fun e => qsum (map (fun j => (w e * ((v i * d e i) * (v j * d e j)))%Qc) I)) l)) I)).
  - apply qsum_map_ext. intros i _. rewrite qsum_swap. apply qsum_map_ext. intros j _.
    rewrite <- Qcmult_assoc, (Qcmult_comm (qsum _)), Qcmult_assoc, <- qsum_map_mul. apply qsum_map_ext. intros e _. ring.
  - rewrite qsum_swap. apply qsum_map_ext. intros e _.
    rewrite <- qsum_map_mul_r, <- qsum_map_mul. apply qsum_map_ext. intros i _. rewrite <- !qsum_map_mul. apply qsum_map_ext. intros; ring.
Qed.

Lemma eq_le x y : x = y -> (x <= y)%Qc.
Proof. intros ->. apply Qcle_refl. Qed.
Lemma weighted_cov_lemma : forall dim x w m c, length x = length w -> all_nonneg w ->
  weighted_mean_and_cov dim x w = Some (m, c) ->
  (forall i j, i < dim -> j < dim -> entry c i j = entry c j i) /\ (forall v, (0 <= quad dim c v)%Qc).
Proof.
  intros dim x w m c L W H. unfold weighted_mean_and_cov in H. destruct (qeqb_spec (qsum w) 0) as [E|E]; [discriminate|]. injection H as <- <-.
  set (mm := weighted_mean dim x w). split.
  - intros i j Hi Hj. rewrite !entry_cov by assumption. f_equal. apply qsum_map_ext. intros e _. ring.
  - intro v. unfold quad.
    assert (P : (0 < qsum w)%Qc). { apply Qcnot_le_lt. intro Q. apply E. apply Qcle_antisym; [exact Q | apply qsum_nonneg, W]. }
    apply Qcle_trans with (y := (qsum (map (fun e => snd e * (qsum (map (fun i => v i * nth i (vsub (fst e) mm) 0) (seq 0 dim)) * qsum (map (fun i => v i * nth i (vsub (fst e) mm) 0) (seq 0 dim))))%Qc (combine x w)) / qsum w)%Qc).
    + apply qc_div_nonneg; [|exact P]. apply qsum_nonneg. intros y Hy. apply in_map_iff in Hy. destruct Hy as ((r & a) & <- & Hin). cbn [fst snd].
      apply qc_mul_nonneg; [apply W; apply (in_combine_r _ _ _ _ Hin) | apply qc_sq_nonneg].
    + rewrite <- (qsum_quad (combine x w) v (fun e i => nth i (vsub (fst e) mm) 0%Qc) snd (seq 0 dim)).
      rewrite <- qsum_map_div. apply eq_le. apply qsum_map_ext. intros i Hi. rewrite <- qsum_map_div. apply qsum_map_ext. intros j Hj.
      apply in_seq in Hi, Hj. rewrite entry_cov by lia. field. exact E.
Qed.

Lemma qsum_scale c w : qsum (map (fun a => c * a)%Qc w) = (c * qsum w)%Qc.
Proof. rewrite (qsum_map_mul c (fun a => a)), map_id. reflexivity. Qed.
Lemma wsum_scale f x w c : wsum f x (map (fun a => c * a)%Qc w) = (c * wsum f x w)%Qc.
Proof.
  unfold wsum. revert w; induction x as [|r x IH]; intros [|a w]; cbn [combine map qsum fst snd]; try ring. rewrite IH. ring.
Qed.
Lemma cov_scale (g : list Qc -> Qc) x w c : qsum (map (fun e => (snd e * g (fst e))%Qc) (combine x (map (fun a => c * a)%Qc w))) =
  (c * qsum (map (fun e => (snd e * g (fst e))%Qc) (combine x w)))%Qc.
Proof.
  revert w; induction x as [|r x IH]; intros [|a w]; cbn [combine map qsum fst snd]; try ring. rewrite IH. ring.
Qed.
Lemma div_scale a b c : c <> 0%Qc -> b <> 0%Qc -> ((c * a) / (c * b) = a / b)%Qc.
Proof. intros. field. auto. Qed.
Lemma weighted_scale_lemma : forall dim x w c, c <> 0%Qc ->
  weighted_mean_and_cov dim x (map (fun a => c * a)%Qc w) = weighted_mean_and_cov dim x w.
Proof.
  intros dim x w c Hc. unfold weighted_mean_and_cov. rewrite qsum_scale.
  destruct (qeqb_spec (qsum w) 0) as [E|E].
  - rewrite E, Qcmult_0_r. reflexivity.
  - replace (qeqb (c * qsum w) 0) with false by (symmetry; apply qeqb_false; intro Q; apply Qcmult_integral in Q; tauto).
    assert (M : weighted_mean dim x (map (fun a => c * a)%Qc w) = weighted_mean dim x w).
    { unfold weighted_mean. apply map_ext. intro i. rewrite wsum_scale, qsum_scale. apply div_scale; assumption. }
    rewrite M. f_equal. f_equal. unfold weighted_cov. apply map_ext. intro i. apply map_ext. intro j.
    rewrite (cov_scale (fun r => nth i (vsub r (weighted_mean dim x w)) 0 * nth j (vsub r (weighted_mean dim x w)) 0)%Qc), qsum_scale. apply div_scale; assumption.
Qed.

Lemma vsub_nth a b i : i < length a -> length a = length b -> nth i (vsub a b) 0%Qc = (nth i a 0 - nth i b 0)%Qc.
Proof.
  unfold vsub. revert b i; induction a as [|x a IH]; intros [|y b] [|i] H L; simpl in *; try lia; [reflexivity|]. apply IH; lia.
Qed.
Lemma wsum_dev (f : list Qc -> Qc) x w mu : length x = length w -> qsum (map (fun e => snd e * (f (fst e) - mu))%Qc (combine x w)) = (wsum f x w - mu * qsum w)%Qc.
Proof.
  unfold wsum. revert w; induction x as [|r x IH]; intros [|a w] L; try discriminate; cbn [combine map qsum fst snd]; [ring|]. rewrite IH by (simpl in L; lia). ring.
Qed.
Lemma weighted_moments_lemma : forall dim x w m c, length x = length w -> (forall row, In row x -> length row = dim) ->
  weighted_mean_and_cov dim x w = Some (m, c) ->
  (forall i, i < dim -> qsum (map (fun e => snd e * (nth i (fst e) 0 - nth i m 0))%Qc (combine x w)) = 0%Qc) /\
  (forall i j, i < dim -> j < dim -> (entry c i j * qsum w)%Qc =
     qsum (map (fun e => snd e * ((nth i (fst e) 0 - nth i m 0) * (nth j (fst e) 0 - nth j m 0)))%Qc (combine x w))).
Proof.
  intros dim x w m c L R H. unfold weighted_mean_and_cov in H. destruct (qeqb_spec (qsum w) 0) as [E|E]; [discriminate|]. injection H as <- <-. split.
  - intros i Hi. rewrite (wsum_dev (fun r => nth i r 0%Qc)) by exact L. unfold weighted_mean at 1. rewrite nth_map_seq by exact Hi. field. exact E.
  - intros i j Hi Hj. rewrite entry_cov by assumption. rewrite qc_div_mul by exact E. apply qsum_map_ext. intros (r & a) Hin. cbn [fst snd].
    assert (Lr : length r = dim) by (apply R, (in_combine_l _ _ _ _ Hin)).
    assert (Lm : length (weighted_mean dim x w) = dim) by (unfold weighted_mean; rewrite map_length, seq_length; reflexivity).
    rewrite !vsub_nth by congruence. reflexivity.
Qed.

(** ** Cluster weights *)
Lemma list_sum_count labels c : list_sum (map (count_label labels) (seq 0 c)) =
  length (filter (fun l => (0 <=? l)%Z && (l <? Z.of_nat c)%Z) labels).
Proof.
  induction c as [|c IH].
  - simpl. induction labels as [|l labels IHl]; simpl; [reflexivity|]. destruct (Z.leb_spec 0 l), (Z.ltb_spec l 0); simpl; try lia; exact IHl.
  - rewrite seq_S, map_app, list_sum_app, IH. simpl plus. replace (list_sum (map (count_label labels) [c])) with (count_label labels c) by (simpl; lia). unfold count_label. clear IH.
    induction labels as [|l labels IHl]; [reflexivity|]. cbn [filter].
    destruct (Z.eqb_spec (Z.of_nat c) l), (Z.leb_spec 0 l), (Z.ltb_spec l (Z.of_nat c)), (Z.ltb_spec l (Z.of_nat (S c))); cbn [andb length]; lia.
Qed.
Lemma qsum_qn_div (f : nat -> nat) l d : qsum (map (fun i => qn (f i) / d)%Qc l) = (qn (list_sum (map f l)) / d)%Qc.
Proof.
  rewrite qsum_map_div. f_equal. induction l as [|x l IH]; cbn [map qsum list_sum fold_right]; [symmetry; apply qn_0|]. unfold list_sum in *. simpl. rewrite qn_add, IH. reflexivity.
Qed.
Lemma filter_length_all {A} p (l : list A) : length (filter p l) = length l <-> forall x, In x l -> p x = true.
Proof.
  induction l as [|x l IH]; simpl; [split; [intros _ ? []|reflexivity]|].
  assert (length (filter p l) <= length l) by (clear; induction l; simpl; [lia|]; destruct (p a); simpl; lia).
  destruct (p x) eqn:E; simpl; split.
  - intros Q y [<-|Hy]; [exact E|]. apply IH; [lia | exact Hy].
  - intro Q. f_equal. apply IH. auto.
  - lia.
  - intro Q. rewrite (Q x) in E by auto. discriminate.
Qed.
Lemma cluster_weights_lemma : forall oregions c, oregions <> [] ->
  length (cluster_weights oregions c) = c /\ all_nonneg (cluster_weights oregions c) /\
  (forall i w, nth_error (cluster_weights oregions c) i = Some w -> w = fraction oregions i) /\
  (qsum (cluster_weights oregions c) <= 1)%Qc /\
  (qsum (cluster_weights oregions c) = 1%Qc <-> forall l, In l oregions -> (0 <= l < Z.of_nat c)%Z).
Proof.
  intros o c N. assert (HN : 0 < length o) by (destruct o; [congruence | simpl; lia]). unfold cluster_weights. rewrite map_length, seq_length.
  split; [reflexivity|]. split.
  { intros x Hx. apply in_map_iff in Hx. destruct Hx as (i & <- & _). apply qc_div_nonneg; [apply qn_nonneg | apply qn_pos, HN]. }
  split. { intros i w H. apply nth_error_map_seq in H. destruct H as [_ ->]. rewrite pointer_length. reflexivity. }
  rewrite (map_ext _ (fun i => (qn (count_label o i) / qn (length o))%Qc)) by (intro; rewrite pointer_length; reflexivity).
  rewrite qsum_qn_div, list_sum_count.
  assert (LE : forall p, length (filter p o) <= length o) by (intro p; clear; induction o as [|x o IH]; simpl; [lia|]; destruct (p x); simpl; lia).
  split.
  { apply qc_div_le; [apply qn_pos, HN|]. rewrite Qcmult_1_l. apply qn_le, LE. }
  transitivity (length (filter (fun l => (0 <=? l)%Z && (l <? Z.of_nat c)%Z) o) = length o).
  - split; intro H.
    + apply qn_inj. rewrite <- (Qcmult_1_l (qn (length o))), <- H. symmetry. apply qc_div_mul, qn_neq0, HN.
    + rewrite H. field. apply qn_neq0, HN.
  - rewrite filter_length_all. split; intros H l Hl; specialize (H l Hl).
    + apply andb_prop in H. destruct H as [H1 H2]. apply Z.leb_le in H1. apply Z.ltb_lt in H2. lia.
    + apply andb_true_intro. split; [apply Z.leb_le | apply Z.ltb_lt]; lia.
Qed.

(** ** Rounding *)
Local Open Scope Qc_scope.
Lemma qz_add a b : Q2Qc (inject_Z (a + b)) = Q2Qc (inject_Z a) + Q2Qc (inject_Z b).
Proof. apply Qc_eq_this. rewrite this_add, !this_Q2Qc, inject_Z_plus. reflexivity. Qed.
Lemma qz_1 : Q2Qc (inject_Z 1) = 1. Proof. apply Qc_is_canon. reflexivity. Qed.
Lemma qz_of_nat n : Q2Qc (inject_Z (Z.of_nat n)) = qn n. Proof. reflexivity. Qed.
Lemma qfloor_bounds q : Q2Qc (inject_Z (Qfloor (this q))) <= q /\ q < Q2Qc (inject_Z (Qfloor (this q))) + 1.
Proof.
  split.
  - unfold Qcle. rewrite this_Q2Qc. apply Qfloor_le.
  - rewrite <- qz_1, <- qz_add. unfold Qclt. rewrite this_Q2Qc. apply Qlt_floor.
Qed.
Lemma half_double : Q2Qc (1 # 2) + Q2Qc (1 # 2) = 1. Proof. apply Qc_is_canon. reflexivity. Qed.
Lemma round_nearest q : nearest q (round_half_even q).
Proof.
  unfold nearest, round_half_even. destruct (qfloor_bounds q) as [B1 B2]. set (f := Qfloor (this q)) in *. pose proof half_double as HD.
  rewrite qabs_le.
  destruct (qltb (q - Q2Qc (inject_Z f)) (Q2Qc (1 # 2))) eqn:E1; [apply qltb_true in E1 | apply qltb_false in E1].
  - generalize dependent (Q2Qc (1 # 2)). intros h Hh. split; qc_lra.
  - destruct (qltb (Q2Qc (1 # 2)) (q - Q2Qc (inject_Z f))) eqn:E2; [apply qltb_true in E2 | apply qltb_false in E2].
    + rewrite qz_add, qz_1. generalize dependent (Q2Qc (1 # 2)). intros h Hh. split; qc_lra.
    + assert (q - Q2Qc (inject_Z f) = Q2Qc (1 # 2)) by (apply Qcle_antisym; assumption).
      destruct (Z.even f); [|rewrite qz_add, qz_1]; generalize dependent (Q2Qc (1 # 2)); intros h Hh; split; qc_lra.
Qed.
Lemma nearest_unique z y : nearest (Q2Qc (inject_Z z)) y -> y = z.
Proof.
  unfold nearest. rewrite qabs_le. intros [H1 H2]. unfold Qcle in H1, H2.
  assert (E : forall a b, (this (Q2Qc (inject_Z a) - Q2Qc (inject_Z b)) == inject_Z (a - b))%Q).
  { intros a b. unfold Qcminus. rewrite this_add, this_opp, !this_Q2Qc. unfold Z.sub. rewrite inject_Z_plus, inject_Z_opp. reflexivity. }
  rewrite E in H1, H2. change (this (- Q2Qc (1 # 2))) with (-1 # 2)%Q in H1. change (this (Q2Qc (1 # 2))) with (1 # 2)%Q in H2.
  unfold Qle in H1, H2. simpl in H1, H2. lia.
Qed.
Lemma round_integer z : round_half_even (Q2Qc (inject_Z z)) = z.
Proof. apply nearest_unique, round_nearest. Qed.
Lemma round_nonneg q : 0 <= q -> (0 <= round_half_even q)%Z.
Proof.
  intro H. assert (F : (0 <= Qfloor (this q))%Z). { apply (Qfloor_resp_le 0 (this q)) in H. exact H. }
  unfold round_half_even. destruct (qltb _ _); [exact F|]. destruct (qltb _ _); [lia|]. destruct (Z.even _); lia.
Qed.
Local Close Scope Qc_scope.

(** ** Reweighted points *)
Lemma sum_rounds (qs : list Qc) : (qabs (qsum qs - Q2Qc (inject_Z (fold_right Z.add 0%Z (map round_half_even qs)))) <= qn (length qs) / qn 2)%Qc.
Proof.
  induction qs as [|q qs IH].
  - cbn [map fold_right length qsum]. apply (proj1 (Qcle_alt _ _)). vm_compute. discriminate.
  - cbn [map fold_right length qsum]. rewrite qz_add, qn_S.
    pose proof (round_nearest q) as N. unfold nearest in N.
    assert (H2 : ((qn (length qs) + 1) / qn 2 = qn (length qs) / qn 2 + Q2Qc (1 # 2))%Qc).
    { unfold Qcdiv. rewrite Qcmult_plus_distr_l. f_equal. }
    rewrite H2. eapply Qcle_trans; [|apply Qcplus_le_compat; [exact IH | exact N]].
    replace (q + qsum qs - (Q2Qc (inject_Z (round_half_even q)) + Q2Qc (inject_Z (fold_right Z.add 0%Z (map round_half_even qs)))))%Qc
      with ((qsum qs - Q2Qc (inject_Z (fold_right Z.add 0%Z (map round_half_even qs)))) + (q - Q2Qc (inject_Z (round_half_even q))))%Qc by ring.
    apply qabs_triangle.
Qed.
Lemma sum_rounds_exact (qs : list Qc) : (forall q, In q qs -> integral q) -> Q2Qc (inject_Z (fold_right Z.add 0%Z (map round_half_even qs))) = qsum qs.
Proof.
  induction qs as [|q qs IH]; intro H; cbn [map fold_right qsum]; [apply Qc_is_canon; reflexivity|].
  rewrite qz_add, IH by (intros; apply H; right; assumption). f_equal.
  destruct (H q (or_introl eq_refl)) as [z ->]. rewrite round_integer. reflexivity.
Qed.
Lemma qz_inj a b : Q2Qc (inject_Z a) = Q2Qc (inject_Z b) -> a = b.
Proof. intro H. apply Qc_eq_this in H. rewrite !this_Q2Qc in H. apply (proj1 (inject_Z_injective _ _)) in H. exact H. Qed.

Lemma reweighted_length {A} num tw (params : list A) : length params = length tw -> all_nonneg tw -> qsum tw <> 0%Qc ->
  Z.of_nat (length (reweighted num tw params)) = fold_right Z.add 0%Z (repeat_counts num tw).
Proof.
  intros L W S. unfold reweighted. assert (NN : forall z, In z (repeat_counts num tw) -> (0 <= z)%Z).
  { intros z Hz. unfold repeat_counts in Hz. apply in_map_iff in Hz. destruct Hz as (w & <- & Hw). apply round_nonneg.
    apply qc_div_nonneg; [apply qc_mul_nonneg; [apply qn_nonneg | apply W, Hw]|]. apply Qcnot_le_lt. intro Q. apply S. apply Qcle_antisym; [exact Q | apply qsum_nonneg, W]. }
  assert (L' : length params = length (repeat_counts num tw)) by (unfold repeat_counts; rewrite map_length; exact L).
  generalize dependent (repeat_counts num tw). intros cs NN L'. clear - NN L'. revert cs NN L'. induction params as [|x params IH]; intros [|c cs] NN L'; try discriminate; [reflexivity|].
  cbn [combine map concat fold_right fst snd]. rewrite app_length, repeat_length, Nat2Z.inj_add, Z2Nat.id by (apply NN; left; reflexivity).
  rewrite IH; [reflexivity | intros; apply NN; right; assumption | simpl in L'; lia].
Qed.
Lemma counts_qsum num tw : qsum tw <> 0%Qc -> qsum (map (fun w => (qn num * w / qsum tw)%Qc) tw) = qn num.
Proof. intro S. rewrite qsum_map_div, qsum_scale. field. exact S. Qed.

Lemma reweighted_copies {A} num tw (params : list A) : reweighted num tw params = copies params (map Z.to_nat (repeat_counts num tw)).
Proof.
  unfold reweighted. generalize (repeat_counts num tw). intro cs. revert cs. induction params as [|x l IH]; intros [|c cs]; try reflexivity. cbn [combine map concat fst snd copies]. rewrite IH. reflexivity.
Qed.
Lemma reweighted_partial_lemma : forall (A : Type) num tw (params : list A), length params = length tw -> all_nonneg tw -> qsum tw <> 0%Qc ->
  exists counts, length counts = length params /\ reweighted num tw params = copies params counts /\
  (forall k w c, nth_error tw k = Some w -> nth_error counts k = Some c -> nearest (qn num * w / qsum tw)%Qc (Z.of_nat c)) /\
  (qabs (qn num - qn (length (reweighted num tw params))) <= qn (length tw) / qn 2)%Qc /\
  ((forall w, In w tw -> integral (qn num * w / qsum tw)%Qc) -> length (reweighted num tw params) = num).
Proof.
  intros A num tw params L W S.
  assert (E : qn (length (reweighted num tw params)) = Q2Qc (inject_Z (fold_right Z.add 0%Z (map round_half_even (map (fun w => (qn num * w / qsum tw)%Qc) tw))))).
  { unfold qn. rewrite reweighted_length by assumption. unfold repeat_counts. rewrite map_map. reflexivity. }
  exists (map Z.to_nat (repeat_counts num tw)).
  split; [unfold repeat_counts; rewrite !map_length; symmetry; exact L|]. split; [apply reweighted_copies|].
  split; [|split].
  - intros k w c Hw Hz. unfold repeat_counts in Hz. rewrite !nth_error_map, Hw in Hz. simpl in Hz. injection Hz as <-. rewrite Z2Nat.id; [apply round_nearest|].
    apply round_nonneg. apply qc_div_nonneg; [apply qc_mul_nonneg; [apply qn_nonneg | eapply W, nth_error_In, Hw]|]. apply Qcnot_le_lt. intro Q. apply S. apply Qcle_antisym; [exact Q | apply qsum_nonneg, W].
  - rewrite E. pose proof (sum_rounds (map (fun w => (qn num * w / qsum tw)%Qc) tw)) as H. rewrite counts_qsum, map_length in H by exact S. exact H.
  - intro H. apply qn_inj. rewrite E, sum_rounds_exact; [apply counts_qsum, S|]. intros q Hq. apply in_map_iff in Hq. destruct Hq as (w & <- & Hw). apply H, Hw.
Qed.
Lemma reweighted_none_lemma : forall (A : Type) num (params : list A), 2 * num < length params ->
  reweighted num (repeat 1%Qc (length params)) params = [].
Proof.
  intros A num params H. unfold reweighted, repeat_counts.
  assert (Z0 : round_half_even (qn num * 1 / qsum (repeat 1%Qc (length params)))%Qc = 0%Z).
  { assert (E : qsum (repeat 1%Qc (length params)) = qn (length params)).
    { generalize (length params). intro n. induction n as [|n IH]; cbn [repeat qsum]; [symmetry; apply qn_0 | rewrite IH, qn_S; ring]. }
    rewrite E, Qcmult_1_r. set (n := length params) in *. set (x := (qn num / qn n)%Qc).
    assert (P : (0 <= x)%Qc) by (apply qc_div_nonneg; [apply qn_nonneg | apply qn_pos; lia]).
    assert (U : (x < Q2Qc (1 # 2))%Qc).
    { unfold x. apply Qcnot_le_lt. intro Q. apply (Qcmult_le_compat_r _ _ (qn n)) in Q; [|apply qn_nonneg].
      rewrite qc_div_mul in Q by (apply qn_neq0; lia).
      assert (Q2 : (qn n <= qn (2 * num))%Qc). { rewrite qn_mul. replace (qn n) with (qn 2 * (Q2Qc (1 # 2) * qn n))%Qc. apply qc_mul_le_l; [apply qn_nonneg | exact Q].
        rewrite Qcmult_assoc. replace (qn 2 * Q2Qc (1 # 2))%Qc with 1%Qc by (apply Qc_is_canon; reflexivity). ring. }
      apply (Qcle_not_lt _ _ Q2), qn_lt. lia. }
    assert (F : Qfloor (this x) = 0%Z).
    { destruct (qfloor_bounds x) as [B1 B2]. set (f := Qfloor (this x)) in *.
      assert (f < 1)%Z. { apply Z.nle_gt. intro Q. assert (R1 : (Q2Qc (inject_Z 1) <= Q2Qc (inject_Z f))%Qc) by (unfold Qcle; rewrite !this_Q2Qc; rewrite <- Zle_Qle; exact Q).
        rewrite qz_1 in R1. assert ((Q2Qc (1 # 2) < 1)%Qc) by reflexivity. clear - B1 R1 U H0. generalize dependent (Q2Qc (1 # 2)). intros h U H0.
        apply (Qcle_not_lt _ _ R1). eapply Qcle_lt_trans; [exact B1|]. eapply Qclt_trans; eassumption. }
      assert (0 <= f)%Z. { apply (Qfloor_resp_le 0 (this x)) in P. exact P. }
      lia. }
    unfold round_half_even. rewrite F. replace (x - Q2Qc (inject_Z 0))%Qc with x by (replace (Q2Qc (inject_Z 0)) with 0%Qc by (apply Qc_is_canon; reflexivity); ring).
    apply qltb_true in U. rewrite U. reflexivity. }
  set (f := fun w => round_half_even (qn num * w / qsum (repeat 1%Qc (length params)))%Qc).
  assert (E : map f (repeat 1%Qc (length params)) = repeat 0%Z (length params)).
  { assert (G : forall n, map f (repeat 1%Qc n) = repeat 0%Z n) by (induction n as [|n IH]; simpl; [reflexivity | rewrite IH; f_equal; exact Z0]). apply G. }
  rewrite E. clear. induction params as [|x params IH]; simpl; [reflexivity | exact IH].
Qed.

(** ** Total weights *)
Lemma total_loop_spec (pt : nat -> list nat) (rr : nat -> list Qc) (cw : nat -> Qc) n : forall a tw,
  (forall i, NoDup (pt i)) -> (forall i j k, In k (pt i) -> In k (pt j) -> i = j) ->
  (forall i, a <= i < a + n -> length (rr i) = length (pt i)) ->
  (forall i k, In k (pt i) -> k < length tw) ->
  exists out, total_loop (map (fun i => Some (rr i)) (seq a n)) (map pt (seq a n)) (map cw (seq a n)) tw = Ok out /\ length out = length tw /\
  (forall i p k, a <= i < a + n -> nth_error (pt i) p = Some k -> nth_error out k = option_map (fun x => (x * cw i)%Qc) (nth_error (rr i) p)) /\
  (forall k, (forall i, a <= i < a + n -> ~ In k (pt i)) -> nth_error out k = nth_error tw k).
Proof.
  induction n as [|n IH]; intros a tw ND DJ LE BD; cbn [seq map total_loop].
  - exists tw. split; [reflexivity|]. split; [reflexivity|]. split; [intros; lia | reflexivity].
  - destruct (scatter_some (pt a) (map (fun x => (x * cw a)%Qc) (rr a)) tw) as [tw' Etw].
    + rewrite map_length. apply LE. lia.
    + apply BD.
    + rewrite Etw. destruct (scatter_spec _ _ _ _ (ND a) Etw) as (S1 & S2 & S3).
      destruct (IH (S a) tw') as (out & O1 & O2 & O3 & O4); [exact ND | exact DJ | intros; apply LE; lia | intros i k Hk; rewrite S1; eapply BD, Hk|].
      exists out. split; [exact O1|]. split; [congruence|]. split.
      * intros i p k Hi Hk. destruct (Nat.eq_dec i a) as [->|Hne].
        -- rewrite O4; [rewrite (S3 _ _ Hk); apply nth_error_map|]. intros j Hj Hin. apply nth_error_In in Hk. specialize (DJ _ _ _ Hk Hin). lia.
        -- apply O3; [lia | exact Hk].
      * intros k Hk. rewrite O4 by (intros; apply Hk; lia). apply S2. apply Hk. lia.
Qed.
Lemma total_weights_lemma : forall (V : Type) (values : list V) regions oregions ratio w rs ptrs,
  length regions = length values -> oregions <> [] ->
  invert 0%Qc None None values regions oregions ratio = Ok (w, rs, ptrs) ->
  (forall i, i < length ptrs -> count_label regions i <> 0) ->
  exists tw, total_weights (length values) rs ptrs (cluster_weights oregions (length ptrs)) = Ok tw /\ length tw = length values /\
  forall k v l, nth_error values k = Some v -> nth_error regions k = Some l ->
    nth_error tw k = Some (if (0 <=? l)%Z then (ratio (Z.to_nat l) v * fraction oregions (Z.to_nat l))%Qc else 0%Qc).
Proof.
  intros V values regions oregions ratio w rs ptrs L No H F.
  destruct (invert_shape values regions oregions ratio L _ _ _ H) as (c & Cc & -> & ->). rewrite map_length, seq_length in *.
  rewrite (map_ext_in _ (fun i => Some (map (ratio i) (cluster_values values regions i)))).
  2:{ intros i Hi. apply in_seq in Hi. rewrite pointer_length. destruct (Nat.eqb_spec (count_label regions i) 0) as [E|E]; [exfalso; apply (F i); [lia|exact E] | reflexivity]. }
  unfold total_weights, cluster_weights.
  destruct (total_loop_spec (pointer regions) (fun i => map (ratio i) (cluster_values values regions i)) (fun i => (qn (length (pointer oregions i)) / qn (length oregions))%Qc) c 0 (repeat 0%Qc (length values))) as (out & O1 & O2 & O3 & O4).
  - intro i. apply sorted_NoDup, (pointer_positions regions i).
  - intros i j k A B. apply (pointer_positions regions) in A, B. rewrite A in B. injection B. lia.
  - intros i _. rewrite map_length. apply cluster_values_length, L.
  - intros i k Hk. rewrite repeat_length, <- L. eapply pointer_lt, Hk.
  - exists out. split; [exact O1|]. rewrite repeat_length in O2. split; [exact O2|]. intros k v l Hv Hl.
    assert (Hk : k < length values) by (apply nth_error_Some; rewrite Hv; discriminate).
    destruct (Z.leb_spec 0 l) as [H0|H0].
    + assert (Hc : (l < Z.of_nat c)%Z) by (apply (proj1 Cc), (nth_error_In _ _ Hl)).
      assert (Hin : In k (pointer regions (Z.to_nat l))) by (apply (pointer_positions regions (Z.to_nat l)); rewrite Hl; f_equal; lia).
      apply In_nth_error in Hin. destruct Hin as [p Hp]. rewrite (O3 (Z.to_nat l) p k) by (first [exact Hp | lia]).
      rewrite nth_error_map, (cluster_values_nth _ _ L _ _ _ Hp), Hv. simpl. unfold fraction. rewrite pointer_length. reflexivity.
    + rewrite O4; [apply nth_error_repeat', Hk|]. intros i _ Hin. apply (pointer_positions regions i) in Hin. rewrite Hl in Hin. injection Hin. lia.
Qed.
Lemma total_loop_none rs ptrs cws tw : In None rs -> length ptrs = length rs -> length cws = length rs ->
  (forall i r p, nth_error rs i = Some (Some r) -> nth_error ptrs i = Some p -> length r = length p /\ forall k, In k p -> k < length tw) ->
  total_loop rs ptrs cws tw = Raise PyTypeError.
Proof.
  revert ptrs cws tw; induction rs as [|r rs IH]; intros [|p ptrs] [|c cws] tw H L1 L2 HB; try discriminate; [contradiction H|].
  cbn [total_loop]. destruct r as [r|]; [|reflexivity].
  destruct (HB 0 r p eq_refl eq_refl) as [B1 B2].
  destruct (scatter_some p (map (fun x => (x * c)%Qc) r) tw) as [tw' E]; [rewrite map_length; exact B1 | exact B2|]. rewrite E.
  assert (length tw' = length tw). { clear - E. revert p E. generalize (map (fun x => (x * c)%Qc) r). intro vs. revert tw. induction vs as [|v vs IHv]; intros tw [|i p] E; simpl in E; try discriminate; [injection E as <-; reflexivity|].
    destruct (set_nth i v tw) as [t|] eqn:Es; [|discriminate]. rewrite (IHv _ _ E). apply (set_nth_nth _ _ _ _ Es). }
  apply IH; [destruct H as [H|H]; [discriminate|exact H] | simpl in L1; lia | simpl in L2; lia|].
  intros i r' p' H1 H2. rewrite H0. apply (HB (S i)); assumption.
Qed.
Lemma total_weights_empty_lemma : forall (V : Type) (values : list V) regions oregions ratio w rs ptrs i,
  length regions = length values ->
  invert 0%Qc None None values regions oregions ratio = Ok (w, rs, ptrs) ->
  i < length ptrs -> count_label regions i = 0 ->
  total_weights (length values) rs ptrs (cluster_weights oregions (length ptrs)) = Raise PyTypeError.
Proof.
  intros V values regions oregions ratio w rs ptrs i L H Hi E.
  destruct (invert_shape values regions oregions ratio L _ _ _ H) as (c & Cc & -> & ->). rewrite map_length, seq_length in *.
  apply total_loop_none.
  - apply in_map_iff. exists i. rewrite pointer_length, E. split; [reflexivity | apply in_seq; lia].
  - rewrite !map_length. reflexivity.
  - unfold cluster_weights. rewrite !map_length, !seq_length. reflexivity.
  - intros j r p Hr Hp. apply nth_error_map_seq in Hr, Hp. destruct Hr as [_ Hr]. destruct Hp as [_ ->].
    destruct (length (pointer regions j) =? 0); [discriminate|]. injection Hr as ->. rewrite map_length. split; [apply cluster_values_length, L|].
    intros k Hk. rewrite repeat_length, <- L. eapply pointer_lt, Hk.
Qed.

(** ** Labels *)
Lemma labels_overwritten_lemma : forall labels n, labels <> repeat 0%Z (length labels) ->
  fst (regions_used (Some labels) None (length labels) n) <> labels /\ snd (regions_used None (Some labels) n (length labels)) <> labels.
Proof. intros labels n H. simpl. auto. Qed.
