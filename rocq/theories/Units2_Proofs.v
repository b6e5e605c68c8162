From Coq Require Import List Arith Bool QArith Qcanon Lia Permutation.
From Verif Require Import Err Num Ext NumPy Lists Util_Model Util_Spec Util_Proofs Query_Model Volume_Model Volume_Spec Sampling_Model Sampling_Proofs Post_Model Units_Spec Units_Proofs Units2_Spec.
Import ListNotations.
Local Open Scope nat_scope.

(** ** Samples *)
Definition unit_pair (t d : Qc * Qc) : Qc * Qc := (unit_fun t (fst d), unit_fun t (snd d)).
Lemma scale_row_units a b dom row : scale_row (domain_in_units a b dom) row = in_units a b (scale_row dom row).
Proof.
  unfold scale_row, domain_in_units, in_units. generalize (combine a b). intros ab. revert dom row. induction ab as [|t ab IH]; intros dom row; [reflexivity|]. destruct dom as [|d dom]; [reflexivity|]. destruct row as [|u row]; [reflexivity|]. cbn [combine map fst snd]. rewrite IH. f_equal. ring.
Qed.
Lemma lhs_units a b dom H P : lhs_values (domain_in_units a b dom) H P = map (in_units a b) (lhs_values dom H P).
Proof.
  unfold lhs_values. rewrite concat_map, map_map. f_equal. apply map_ext. intros r. rewrite (map_ext _ _ (scale_row_units a b dom)), <- (map_map (scale_row dom) (in_units a b)), array_split_map. change (@nil (list Qc)) with (map (in_units a b) []) at 1. rewrite map_nth. reflexivity.
Qed.
Lemma uniform_units a b dom U : uniform_values (domain_in_units a b dom) U = map (in_units a b) (uniform_values dom U).
Proof.
  unfold uniform_values. rewrite map_map. apply map_ext. intros row. unfold domain_in_units, in_units. generalize (combine a b). intros ab. revert dom row. induction ab as [|t ab IH]; intros dom row; [reflexivity|]. destruct dom as [|d dom]; [reflexivity|]. destruct row as [|u row]; [reflexivity|]. cbn [combine map fst snd]. rewrite IH. f_equal. ring.
Qed.
Lemma uniform_domain_units a b dom : uniform_domain (domain_in_units a b dom) = domain_in_units a b (uniform_domain dom).
Proof.
  unfold uniform_domain, domain_in_units. generalize (combine a b). intros ab. revert dom. induction ab as [|t ab IH]; intros dom; [reflexivity|]. destruct dom as [|d dom]; [reflexivity|]. cbn [combine map fst snd]. rewrite IH. f_equal. f_equal. ring.
Qed.
Lemma linspace_unit t x y n : linspace (unit_fun t x) (unit_fun t y) n = map (unit_fun t) (linspace x y n).
Proof. unfold linspace. rewrite map_map. apply map_ext. intros k. unfold unit_fun, Qcdiv. ring. Qed.
Lemma vec_samples_unit t d n : vec_samples (unit_pair t d) n = map (unit_fun t) (vec_samples d n).
Proof.
  unfold vec_samples, unit_pair. cbn [fst snd]. rewrite <- firstn_map. f_equal. rewrite <- skipn_map. f_equal. rewrite <- linspace_unit. f_equal; unfold unit_fun, Qcdiv; ring.
Qed.
Lemma combinations_zmap {A B} (F : list (A -> B)) ls : length F = length ls -> combinations (zmap F ls) = map (zapp F) (combinations ls).
Proof.
  revert F. induction ls as [|l r IH]; intros [|f F] E; try discriminate E; [reflexivity|]. injection E as E. change (zmap (f :: F) (l :: r)) with (map f l :: zmap F r). cbn [combinations]. rewrite (IH F E). clear.
  induction l as [|x l IH]; [reflexivity|]. cbn [map flat_map]. rewrite map_app, IH, !map_map. f_equal.
Qed.
Lemma regular_combinations dom ns : regular_values dom ns = combinations (map (fun e => vec_samples (fst e) (snd e)) (combine dom ns)).
Proof. unfold regular_values. set (v := map (fun e => vec_samples (fst e) (snd e)) (combine dom ns)). pose proof (rows_of_mesh v 1) as E. rewrite Nat.mul_1_l in E. cbv zeta. rewrite E. unfold np_tile. cbn. apply app_nil_r. Qed.
Lemma regular_units a b dom ns : length a = length b -> length a = length dom -> length dom = length ns -> regular_values (domain_in_units a b dom) ns = map (in_units a b) (regular_values dom ns).
Proof.
  intros E1 E2 E3. rewrite !regular_combinations, (map_ext _ _ (in_units_zapp a b)), <- combinations_zmap by (rewrite !map_length, !combine_length; lia). f_equal. unfold domain_in_units, zmap.
  assert (E : length (combine a b) = length dom) by (rewrite combine_length; lia). clear E1 E2. revert E. generalize (combine a b). intros ab. revert dom ns E3. induction ab as [|t ab IH]; intros [|d dom] [|n ns] E3 E; try discriminate; [reflexivity|]. cbn [combine map fst snd]. rewrite (IH dom ns) by (injection E as E; injection E3 as E3; assumption). f_equal. apply (vec_samples_unit t d n).
Qed.
(** ** Volumes *)
Lemma differences_unit t e : differences (map (unit_fun t) e) = map (Qcmult (fst t)) (differences e).
Proof.
  unfold differences. destruct e as [|x e]; [reflexivity|]. change (tl (map (unit_fun t) (x :: e))) with (map (unit_fun t) e). change (tl (x :: e)) with e. revert x. induction e as [|y e IH]; intros x; [reflexivity|].
  change (removelast (map (unit_fun t) (x :: y :: e))) with (unit_fun t x :: removelast (map (unit_fun t) (y :: e))). change (removelast (x :: y :: e)) with (x :: removelast (y :: e)). cbn [map combine fst snd]. change (unit_fun t y :: map (unit_fun t) e) with (map (unit_fun t) (y :: e)). rewrite IH. f_equal. unfold unit_fun. ring.
Qed.
Lemma half_sum x : (x * half + x * half = x)%Qc.
Proof. unfold half. rewrite <- Qcmult_plus_distr_r. replace (Q2Qc (1 # 2) + Q2Qc (1 # 2))%Qc with 1%Qc by (apply Qc_is_canon; reflexivity). ring. Qed.
Lemma mid_points_unit t s : mid_points (map (unit_fun t) s) = map (unit_fun t) (mid_points s).
Proof.
  unfold mid_points. destruct s as [|x s]; [reflexivity|]. change (tl (map (unit_fun t) (x :: s))) with (map (unit_fun t) s). change (tl (x :: s)) with s. revert x. induction s as [|y s IH]; intros x; [reflexivity|].
  change (removelast (map (unit_fun t) (x :: y :: s))) with (unit_fun t x :: removelast (map (unit_fun t) (y :: s))). change (removelast (x :: y :: s)) with (x :: removelast (y :: s)). cbn [map combine fst snd]. change (unit_fun t y :: map (unit_fun t) s) with (map (unit_fun t) (y :: s)). rewrite IH. f_equal. unfold unit_fun.
  rewrite <- (half_sum (snd t)) at 3. ring.
Qed.
Lemma edges_unit t lo hi s : edges (unit_fun t lo) (unit_fun t hi) (map (unit_fun t) s) = map (unit_fun t) (edges lo hi s).
Proof. unfold edges. cbn [map]. rewrite map_app, mid_points_unit. reflexivity. Qed.
Lemma take_idx_map {A B} (f : A -> B) l idx : take_idx (map f l) idx = option_map (map f) (take_idx l idx).
Proof. induction idx as [|i idx IH]; [reflexivity|]. cbn [take_idx]. rewrite nth_error_map, IH. destruct (nth_error l i); [|reflexivity]. destruct (take_idx l idx); reflexivity. Qed.
Lemma set_nth_map {A B} (f : A -> B) i v l : set_nth i (f v) (map f l) = option_map (map f) (set_nth i v l).
Proof. revert i. induction l as [|x l IH]; intros [|i]; try reflexivity. cbn [map set_nth]. rewrite IH. destruct (set_nth i v l); reflexivity. Qed.
Lemma scatter_map {A B} (f : A -> B) idx : forall l vs, scatter (map f l) idx (map f vs) = option_map (map f) (scatter l idx vs).
Proof. induction idx as [|i idx IH]; intros l [|v vs]; try reflexivity. cbn [map scatter]. rewrite set_nth_map. destruct (set_nth i v l); [apply IH|reflexivity]. Qed.
Lemma qc_mul_zero u x : (0 < u)%Qc -> qeqb (u * x) 0 = qeqb x 0.
Proof.
  intros U. destruct (qeqb x 0) eqn:E.
  - apply qeqb_true in E. subst x. apply qeqb_true. ring.
  - apply qeqb_false in E. apply qeqb_false. intros K. apply Qcmult_integral in K. destruct K as [K|K]; [subst u; discriminate U|contradiction].
Qed.
Lemma sgn_unit u x : (0 < u)%Qc -> sgn_inf (u * x)%Qc = sgn_inf x.
Proof.
  intros U. unfold sgn_inf. assert (qltb 0 (u * x) = qltb 0 x)%Qc as ->; [|reflexivity]. pose proof (rising_ltb (unit_fun (u, 0%Qc)) 0%Qc x (unit_rising (u, 0%Qc) U)) as H. unfold unit_fun in H. cbn [fst snd] in H. rewrite <- H. f_equal; ring.
Qed.
Lemma xdivq_unit u v w : (0 < u)%Qc -> xdivq (u * v) (u * w) = xdivq v w.
Proof.
  intros U. unfold xdivq. rewrite !(qc_mul_zero u) by exact U. destruct (qeqb w 0) eqn:E; [rewrite sgn_unit by exact U; reflexivity|]. f_equal. apply qeqb_false in E. field. split; [exact E|intros K; subst u; discriminate U].
Qed.
Lemma volume_1D_units argsort argsort' t lo hi xs : (0 < fst t)%Qc -> argsort' (map (unit_fun t) xs) = argsort xs ->
  exact_volume_1D argsort' (unit_fun t lo) (unit_fun t hi) (map (unit_fun t) xs) = exact_volume_1D argsort lo hi xs.
Proof.
  intros U A. unfold exact_volume_1D. rewrite map_length, A. destruct (length xs <=? 1); [reflexivity|]. rewrite take_idx_map. destruct (take_idx xs (argsort xs)) as [s|]; [|reflexivity]. cbn [option_map].
  rewrite edges_unit, differences_unit. assert (Z : zeros (length (argsort xs)) = map (Qcmult (fst t)) (zeros (length (argsort xs)))). { unfold zeros. generalize (length (argsort xs)). intros k. induction k as [|k IH]; [reflexivity|]. cbn [repeat map]. rewrite <- IH. f_equal. ring. }
  rewrite Z at 1. rewrite scatter_map. destruct (scatter _ _ _) as [v|]; [|reflexivity]. cbn [option_map]. f_equal. rewrite map_map. apply map_ext. intros q. replace (unit_fun t hi - unit_fun t lo)%Qc with (fst t * (hi - lo))%Qc by (unfold unit_fun; ring). apply xdivq_unit. exact U.
Qed.
Lemma argsort_units t xs p : (0 < fst t)%Qc -> is_argsort (map (unit_fun t) xs) p <-> is_argsort xs p.
Proof.
  intros U. unfold is_argsort. rewrite map_length. pose proof (unit_rising t U) as R. split; intros (P & H); (split; [exact P|]); intros i j x y L Hx Hy; specialize (H i j x y L Hx Hy).
  - assert (Bx : x < length xs) by (apply nth_error_In in Hx; apply (Permutation_in _ P) in Hx; apply in_seq in Hx; lia). assert (By : y < length xs) by (apply nth_error_In in Hy; apply (Permutation_in _ P) in Hy; apply in_seq in Hy; lia).
    rewrite (nth_indep _ 0%Qc (unit_fun t 0%Qc)), (nth_indep (map _ xs) 0%Qc (unit_fun t 0%Qc)), !map_nth in H by (rewrite map_length; assumption). apply qleb_true in H. rewrite (rising_leb _ _ _ R) in H. apply qleb_true. exact H.
  - assert (Bx : x < length xs) by (apply nth_error_In in Hx; apply (Permutation_in _ P) in Hx; apply in_seq in Hx; lia). assert (By : y < length xs) by (apply nth_error_In in Hy; apply (Permutation_in _ P) in Hy; apply in_seq in Hy; lia).
    rewrite (nth_indep _ 0%Qc (unit_fun t 0%Qc)), (nth_indep (map _ xs) 0%Qc (unit_fun t 0%Qc)), !map_nth by (rewrite map_length; assumption). apply qleb_true. rewrite (rising_leb _ _ _ R). apply qleb_true. exact H.
Qed.
Lemma ratio_unit u x y : (0 < u)%Qc -> (u * x / (u * y) = x / y)%Qc.
Proof.
  intros U. destruct (qeqb_spec y 0%Qc) as [->|N].
  - replace (u * 0)%Qc with 0%Qc by ring. unfold Qcdiv. replace (/ 0)%Qc with 0%Qc by (apply Qc_is_canon; reflexivity). ring.
  - field. split; [exact N|intros K; subst u; discriminate U].
Qed.
Section Boxes.
Variables (a b : list Qc) (dom : list (Qc * Qc)).
Hypotheses (LB : length a = length b) (LD : length a = length dom) (Apos : forall u, In u a -> (0 < u)%Qc).
Lemma box_fraction_units l r : box_fraction (domain_in_units a b dom) (in_units a b l) (in_units a b r) = box_fraction dom l r.
Proof.
  unfold box_fraction. f_equal. unfold domain_in_units, in_units. revert b dom LB LD l r. induction a as [|u a' IH]; intros [|c b'] [|d dom'] LB' LD' l r; try discriminate; [destruct (combine l r); reflexivity|]. destruct l as [|x l]; [reflexivity|]. destruct r as [|y r]; [reflexivity|].
  cbn [combine map fst snd]. injection LB' as LB'. injection LD' as LD'. rewrite (IH (fun v Hv => Apos v (or_intror Hv)) b' dom' LB' LD' l r). f_equal.
  replace (u * y + c - (u * x + c))%Qc with (u * (y - x))%Qc by ring. replace (u * snd d + c - (u * fst d + c))%Qc with (u * (snd d - fst d))%Qc by ring. apply ratio_unit. apply Apos. left. reflexivity.
Qed.
Lemma degenerate_units : forallb (fun p => negb (qeqb (fst p) (snd p))) (domain_in_units a b dom) = forallb (fun p => negb (qeqb (fst p) (snd p))) dom.
Proof.
  unfold domain_in_units. revert b dom LB LD. induction a as [|u a' IH]; intros [|c b'] [|d dom'] LB' LD'; try discriminate; [reflexivity|]. cbn [combine map forallb fst snd]. injection LB' as LB'. injection LD' as LD'. rewrite (IH (fun v Hv => Apos v (or_intror Hv)) b' dom' LB' LD'). f_equal. f_equal.
  destruct (qeqb_spec (fst d) (snd d)) as [->|N]; [apply qeqb_true; reflexivity|]. apply qeqb_false. intros K. apply N. assert (U := Apos u (or_introl eq_refl)). assert (Z : (u * (fst d - snd d) = 0)%Qc) by (replace (u * (fst d - snd d))%Qc with (u * fst d + c - (u * snd d + c))%Qc by ring; rewrite K; ring).
  apply Qcmult_integral in Z. destruct Z as [Z|Z]; [subst u; discriminate U|]. replace (fst d) with (fst d - snd d + snd d)%Qc by ring. rewrite Z. ring.
Qed.
Lemma domain_units_length : length (domain_in_units a b dom) = length dom.
Proof. unfold domain_in_units. rewrite map_length, !combine_length. lia. Qed.
Lemma in_units_length v : length v = length a -> length (in_units a b v) = length a.
Proof. intros E. unfold in_units. rewrite map_length, !combine_length. lia. Qed.
Lemma rectangles_lemma maxes mins s : rect_setup (length a) maxes mins = Ok s -> exists s', rect_setup (length a) (map (in_units a b) maxes) (map (in_units a b) mins) = Ok s' /\
  exact_volume_lebesgue (domain_in_units a b dom) s' = exact_volume_lebesgue dom s.
Proof.
  unfold rect_setup. rewrite !map_length. destruct (negb (length maxes =? length mins)) eqn:E1; [discriminate|]. destruct (negb (forallb _ (combine maxes mins))) eqn:E2; [discriminate|]. intros E. injection E as <-.
  assert (E3 : forallb (fun p => (length (fst p) =? length a) && (length (snd p) =? length a)) (combine (map (in_units a b) maxes) (map (in_units a b) mins)) = true).
  { apply negb_false_iff in E2. rewrite forallb_forall in E2. apply forallb_forall. intros (p, q) H. assert (K : exists p' q', In (p', q') (combine maxes mins) /\ p = in_units a b p' /\ q = in_units a b q').
    { clear -H. revert mins H. induction maxes as [|x l IH]; intros [|y m] H; try contradiction. cbn in H. destruct H as [H|H]; [injection H as <- <-; exists x, y; split; [left; reflexivity|split; reflexivity]|]. destruct (IH m H) as (p' & q' & I & K). exists p', q'. split; [right; exact I|exact K]. }
    destruct K as (p' & q' & I & -> & ->). specialize (E2 _ I). cbn [fst snd] in *. apply andb_true_iff in E2. destruct E2 as [A B]. apply Nat.eqb_eq in A. apply Nat.eqb_eq in B. rewrite !in_units_length, Nat.eqb_refl by assumption. reflexivity. }
  rewrite E3. cbn [negb]. eexists. split; [reflexivity|]. unfold exact_volume_lebesgue. cbn [rdim lefts rights]. rewrite domain_units_length, degenerate_units. destruct (_ && _); [|reflexivity].
  assert (V : map (fun lr => box_fraction (domain_in_units a b dom) (fst lr) (snd lr)) (combine (map (in_units a b) mins) (map (in_units a b) maxes)) = map (fun lr => box_fraction dom (fst lr) (snd lr)) (combine mins maxes)).
  { generalize mins maxes. intros l. induction l as [|x l IH]; intros [|y m]; try reflexivity. cbn [map combine fst snd]. rewrite IH, box_fraction_units. reflexivity. }
  rewrite V. reflexivity.
Qed.
(** ** Marginals *)
Lemma nth_units v i : length v = length a -> i < length a -> nth i (in_units a b v) 0%Qc = unit_fun (nth i a 0%Qc, nth i b 0%Qc) (nth i v 0%Qc).
Proof.
  clear LD. unfold in_units, unit_fun. revert b LB v i. induction a as [|u a' IH]; intros [|c b'] LB' [|x v] i E H; try discriminate; [cbn in H; lia|]. destruct i as [|i]; [reflexivity|]. cbn [combine map nth fst snd]. injection LB' as LB'. injection E as E. apply (IH (fun w Hw => Apos w (or_intror Hw)) b' LB' v i E). cbn in H. lia.
Qed.
Lemma nth_domain i : i < length a -> nth i (domain_in_units a b dom) (0%Qc, 0%Qc) = unit_pair (nth i a 0%Qc, nth i b 0%Qc) (nth i dom (0%Qc, 0%Qc)).
Proof.
  unfold domain_in_units, unit_pair, unit_fun. revert b dom LB LD i. induction a as [|u a' IH]; intros [|c b'] [|d dom'] LB' LD' i H; try discriminate; [cbn in H; lia|]. destruct i as [|i]; [reflexivity|]. cbn [combine map nth fst snd]. injection LB' as LB'. injection LD' as LD'. apply (IH (fun w Hw => Apos w (or_intror Hw)) b' dom' LB' LD' i). cbn in H. lia.
Qed.
Lemma in_bin_rising f e k v : rising f -> k + 1 < length e -> in_bin (map f e) k (f v) = in_bin e k v.
Proof.
  intros R H. unfold in_bin. rewrite map_length, !(nth_indep (map f e) 0%Qc (f 0%Qc)), !map_nth by (rewrite map_length; lia). rewrite !(rising_leb f), (rising_ltb f) by exact R. reflexivity.
Qed.
Lemma factor_rising i : i < length a -> rising (unit_fun (nth i a 0%Qc, nth i b 0%Qc)).
Proof. intros H. apply unit_rising. apply Apos. apply nth_In. exact H. Qed.
Local Notation block_in_units := (samples_in_units a b).
Lemma filter_block (q q' : list Qc * Qc -> bool) bl : (forall e, In e bl -> q' (in_units a b (fst e), snd e) = q e) -> map snd (filter q' (block_in_units bl)) = map snd (filter q bl).
Proof. intros H. induction bl as [|e bl IH]; [reflexivity|]. cbn [samples_in_units map filter]. rewrite (H e) by (left; reflexivity). fold (block_in_units bl). destruct (q e); cbn [map snd]; rewrite IH by (intros x Hx; apply H; right; exact Hx); reflexivity. Qed.
Lemma filter_snd_map {A B} (h : A -> B * Qc) (w : A -> Qc) (q : B * Qc -> bool) l : (forall x, snd (h x) = w x) -> map snd (filter q (map h l)) = map w (filter (fun x => q (h x)) l).
Proof. intros H. induction l as [|x l IH]; [reflexivity|]. cbn [map filter]. destruct (q (h x)); cbn [map]; rewrite IH; [rewrite H|]; reflexivity. Qed.
Lemma marginal_1D_units nbins blocks i : i < length a -> (forall bl e, In bl blocks -> In e bl -> length (fst e) = length a) ->
  marginal_1D (domain_in_units a b dom) nbins (map block_in_units blocks) i = marginal_1D dom nbins blocks i.
Proof.
  intros Hi HL. unfold marginal_1D. rewrite (nth_domain i Hi). unfold unit_pair. cbn [fst snd]. rewrite linspace_unit, map_map. f_equal. apply map_ext_in. intros bl Hb. unfold histogram. rewrite map_length. apply map_ext_in. intros k Hk. apply in_seq in Hk. f_equal.
  rewrite !(filter_snd_map _ snd) by reflexivity. apply filter_block. intros e He. cbn [fst snd]. rewrite nth_units by (try exact Hi; exact (HL bl e Hb He)). apply in_bin_rising; [apply factor_rising; exact Hi|lia].
Qed.
Lemma marginal_2D_units nbins blocks i j : i < length a -> j < length a -> (forall bl e, In bl blocks -> In e bl -> length (fst e) = length a) ->
  marginal_2D (domain_in_units a b dom) nbins (map block_in_units blocks) i j = marginal_2D dom nbins blocks i j.
Proof.
  intros Hi Hj HL. unfold marginal_2D. rewrite (nth_domain i Hi), (nth_domain j Hj). unfold unit_pair. cbn [fst snd]. rewrite !linspace_unit, map_map. f_equal. apply map_ext_in. intros bl Hb. unfold histogram2. rewrite !map_length. apply map_ext_in. intros k Hk. apply in_seq in Hk. apply map_ext_in. intros l Hl. apply in_seq in Hl. f_equal.
  rewrite !(filter_snd_map _ snd) by reflexivity. apply filter_block. intros e He. cbn [fst snd]. rewrite !nth_units by (try exact Hi; try exact Hj; exact (HL bl e Hb He)). rewrite !in_bin_rising by (try (apply factor_rising; assumption); lia). reflexivity.
Qed.
End Boxes.
