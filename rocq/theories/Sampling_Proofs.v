From Coq Require Import List Arith Lia Bool QArith Qcanon.
From Verif Require Import Err Num Ext Show NumPy Lists SampleSet_Proofs Query_Proofs Util_Model Util_Spec Util_Proofs Inverse_Proofs Inverse3_Proofs Prob_Proofs Sampling_Model Sampling_Spec.
Import ListNotations.
Local Open Scope nat_scope.

(** ** Regular grids *)
Lemma linspace_nth a b num k : k < num -> nth_error (linspace a b num) k = Some (a + qn k * ((b - a) / qn (num - 1)))%Qc.
Proof. intro H. unfold linspace. rewrite nth_error_map, nth_error_seq. apply Nat.ltb_lt in H. rewrite H. reflexivity. Qed.
Lemma step_eq a b n : 0 < n ->
  ((b + Q2Qc (1 # 2) * ((b - a) / qn n) - (a - Q2Qc (1 # 2) * ((b - a) / qn n))) / qn (n + 1) = (b - a) / qn n)%Qc.
Proof.
  intro H. assert (N : qn n <> 0%Qc) by (apply qn_neq0, H). assert (N1 : qn (n + 1) <> 0%Qc) by (apply qn_neq0; lia). rewrite qn_add, qn_1 in *.
  pose proof half_double as HD. set (h := Q2Qc (1 # 2)) in *. clearbody h.
  assert (E : (b + h * ((b - a) / qn n) - (a - h * ((b - a) / qn n)) = (b - a) / qn n * (qn n + 1))%Qc).
  { transitivity ((b - a) + (h + h) * ((b - a) / qn n))%Qc; [ring|]. rewrite HD. field. exact N. }
  rewrite E. field. auto.
Qed.
Lemma vec_samples_eq a b n : 0 < n -> vec_samples (a, b) n = map (midpoint a b n) (seq 1 n).
Proof.
  intro H. unfold vec_samples. cbn [fst snd]. apply nth_error_ext. intro k.
  destruct (Nat.ltb_spec k n) as [Hk|Hk].
  - rewrite SampleSet_Proofs.nth_error_firstn, (proj2 (Nat.ltb_lt _ _) Hk), SampleSet_Proofs.nth_error_skipn, linspace_nth by lia.
    rewrite nth_error_map, nth_error_seq. replace (k <? n) with true by (symmetry; apply Nat.ltb_lt; exact Hk). simpl option_map. f_equal.
    replace (n + 2 - 1) with (n + 1) by lia. rewrite step_eq by exact H. unfold midpoint. change (1 + k) with (S k). generalize (qn (S k)). intro z. ring.
  - rewrite (proj2 (nth_error_None _ _)); [symmetry; apply nth_error_None; rewrite map_length, seq_length; exact Hk|].
    rewrite firstn_length. lia.
Qed.
Lemma regular_lemma : forall domain ns, length domain = length ns -> (forall n, In n ns -> 0 < n) ->
  regular_values domain ns = grid domain ns.
Proof.
  intros domain ns L P. unfold regular_values, grid.
  assert (E : map (fun e => vec_samples (fst e) (snd e)) (combine domain ns) = midpoints domain ns).
  { revert ns L P; induction domain as [|(a, b) d IH]; intros [|n ns] L P; try discriminate; [reflexivity|]. cbn [combine map fst snd midpoints].
    rewrite vec_samples_eq by (apply P; left; reflexivity). f_equal. apply IH; [simpl in L; lia | intros; apply P; right; assumption]. }
  rewrite E. rewrite <- (Nat.mul_1_l (prod _)), rows_of_mesh. unfold np_tile. simpl. apply app_nil_r.
Qed.
Lemma lt_of_pos x y : (0 < y - x)%Qc -> (x < y)%Qc.
Proof. intro H. apply Qclt_minus_iff. exact H. Qed.
Lemma midpoint_inside a b n k : (a < b)%Qc -> 1 <= k <= n -> (a < midpoint a b n k)%Qc /\ (midpoint a b n k < b)%Qc.
Proof.
  intros H Hk. unfold midpoint. assert (Pn : (0 < qn n)%Qc) by (apply qn_pos; lia).
  assert (Ph : (0 < (b - a) / qn n)%Qc) by (apply qc_div_pos; [qc_lra | exact Pn]).
  assert (E : (b = a + qn n * ((b - a) / qn n))%Qc) by (field; apply Qclt_neq0, Pn).
  assert (K1 : (1 <= qn k)%Qc) by (rewrite <- qn_1; apply qn_le; lia). assert (K2 : (qn k <= qn n)%Qc) by (apply qn_le; lia).
  set (w := ((b - a) / qn n)%Qc) in *. clearbody w.
  assert (A1 : (0 < qn k - Q2Qc (1 # 2))%Qc) by (clear - K1; revert K1; generalize (qn k); intros z Hz; qc_lra). assert (B1 : (0 < qn n - qn k + Q2Qc (1 # 2))%Qc) by (clear - K2; revert K2; generalize (qn k) (qn n); intros z y Hz; qc_lra). set (h := Q2Qc (1 # 2)) in *. clearbody h.
  assert (A : (0 < (qn k - h) * w)%Qc) by (apply qc_mul_pos; assumption).
  assert (B : (0 < (qn n - qn k + h) * w)%Qc) by (apply qc_mul_pos; assumption).
  split; apply lt_of_pos.
  - replace (a + (qn k - h) * w - a)%Qc with ((qn k - h) * w)%Qc by ring. exact A.
  - rewrite E. replace (a + qn n * w - (a + (qn k - h) * w))%Qc with ((qn n - qn k + h) * w)%Qc by ring. exact B.
Qed.
Lemma regular_inside_lemma : forall domain ns x, length domain = length ns -> (forall n, In n ns -> 0 < n) -> (forall ab, In ab domain -> (fst ab < snd ab)%Qc) ->
  In x (regular_values domain ns) -> inside domain x.
Proof.
  intros domain ns x L P D H. rewrite regular_lemma in H by assumption. unfold grid in H. apply combinations_row in H.
  revert ns x L P D H; induction domain as [|(a, b) d IH]; intros [|n ns] x L P D H; try discriminate; cbn [midpoints] in H.
  - inversion H. constructor.
  - inversion H as [|y l x' ls Hy Hr]; subst. constructor.
    + apply in_map_iff in Hy. destruct Hy as (k & <- & Hk). apply in_seq in Hk. apply midpoint_inside; [apply (D (a, b)); left; reflexivity | lia].
    + apply (IH ns); [simpl in L; lia | intros; apply P; right; assumption | intros; apply D; right; assumption | exact Hr].
Qed.
Lemma regular_count_lemma : forall domain ns, length domain = length ns -> (forall n, In n ns -> 0 < n) -> length (regular_values domain ns) = fold_right Nat.mul 1 ns.
Proof.
  intros domain ns L P. rewrite regular_lemma by assumption. unfold grid. rewrite combinations_length. unfold prod. f_equal.
  clear P. revert ns L; induction domain as [|(a, b) d IH]; intros [|n ns] L; try discriminate; [reflexivity|]. cbn [midpoints map]. rewrite map_length, seq_length. f_equal. apply IH. simpl in L. lia.
Qed.

(** ** Latin hypercubes *)
Lemma nth_scale domain row j ab : nth_error domain j = Some ab -> length row = length domain ->
  nth j (scale_row domain row) 0%Qc = ((snd ab - fst ab) * nth j row 0 + fst ab)%Qc.
Proof.
  unfold scale_row. revert row j; induction domain as [|c d IH]; intros [|u row] [|j] H L; simpl in *; try discriminate.
  - injection H as ->. reflexivity.
  - apply IH; [exact H | lia].
Qed.
Lemma stratum_scale a b n k u : 0 < n -> (a < b)%Qc -> in_stratum a b n k ((b - a) * u + a)%Qc <-> in_stratum 0 1 n k u.
Proof.
  intros Hn H. unfold in_stratum. assert (Pw : (0 < b - a)%Qc) by (apply Qclt_minus_iff in H; exact H).
  assert (N : qn n <> 0%Qc) by (apply qn_neq0, Hn).
  assert (E : forall m, (a + qn m * ((b - a) / qn n) = (b - a) * (0 + qn m * ((1 - 0) / qn n)) + a)%Qc) by (intro m; field; exact N).
  rewrite !E. set (s := (0 + qn k * ((1 - 0) / qn n))%Qc). set (t := (0 + qn (k + 1) * ((1 - 0) / qn n))%Qc). clearbody s t. set (w := (b - a)%Qc) in *. clearbody w.
  split; intros [A B]; split.
  - apply Qcnot_lt_le. intro Q. assert ((0 < w * (s - u))%Qc) by (apply qc_mul_pos; [exact Pw | apply Qclt_minus_iff in Q; exact Q]). apply (Qcle_not_lt _ _ A). apply Qclt_minus_iff. ring_simplify. ring_simplify in H0. exact H0.
  - apply Qcnot_le_lt. intro Q. pose proof (qc_mul_le_l _ _ w (Qclt_le_weak _ _ Pw) Q) as R. apply (Qclt_not_le _ _ B). apply Qcplus_le_compat; [exact R | apply Qcle_refl].
  - apply Qcplus_le_compat; [apply qc_mul_le_l; [apply Qclt_le_weak, Pw | exact A] | apply Qcle_refl].
  - apply Qcnot_le_lt. intro Q. assert ((0 < w * (t - u))%Qc) by (apply qc_mul_pos; [exact Pw | apply Qclt_minus_iff in B; exact B]). apply (Qcle_not_lt _ _ Q). apply Qclt_minus_iff. ring_simplify. ring_simplify in H0. exact H0.
Qed.
Lemma latin_scale domain n rows : (forall ab, In ab domain -> (fst ab < snd ab)%Qc) -> (forall row, In row rows -> length row = length domain) ->
  latin (unit_cube (length domain)) n rows -> latin domain n (map (scale_row domain) rows).
Proof.
  intros D R [L H]. split; [rewrite map_length; exact L|]. intros j ab k Hj Hk.
  assert (Hu : nth_error (unit_cube (length domain)) j = Some (0%Qc, 1%Qc)).
  { unfold unit_cube. apply Inverse_Proofs.nth_error_repeat'. apply nth_error_Some. rewrite Hj. discriminate. }
  destruct (H j _ k Hu Hk) as (r & row & H1 & H2 & H3). simpl in H2, H3.
  exists r, (scale_row domain row). split; [rewrite nth_error_map, H1; reflexivity|]. split.
  - rewrite (nth_scale _ _ _ _ Hj) by (apply R, (nth_error_In _ _ H1)). apply stratum_scale; [lia | apply D, (nth_error_In _ _ Hj) | exact H2].
  - intros r' row' H4 H5. rewrite nth_error_map in H4. destruct (nth_error rows r') as [row2|] eqn:E; [|discriminate]. simpl in H4. injection H4 as <-.
    rewrite (nth_scale _ _ _ _ Hj) in H5 by (apply R, (nth_error_In _ _ E)). apply stratum_scale in H5; [|lia | apply D, (nth_error_In _ _ Hj)]. apply (H3 r' row2 E H5).
Qed.
Lemma lhs_same_lemma : forall domain n H P, 0 < P -> (forall ab, In ab domain -> (fst ab < snd ab)%Qc) ->
  (forall r, r < P -> H r = H 0) -> (forall row, In row (H 0) -> length row = length domain) ->
  latin (unit_cube (length domain)) n (H 0) -> latin domain n (lhs_values domain H P).
Proof.
  intros domain n H P HP D S R L.
  assert (E : lhs_values domain H P = map (scale_row domain) (H 0)).
  { unfold lhs_values. rewrite (map_ext_in _ (fun r => nth r (array_split (map (scale_row domain) (H 0)) P) [])).
    - set (l := map (scale_row domain) (H 0)). transitivity (concat (array_split l P)); [|apply array_split_concat, HP]. f_equal.
      pose proof (array_split_length l P) as AL. transitivity (map (fun r => nth r (array_split l P) []) (seq 0 (length (array_split l P)))); [rewrite AL by exact HP; reflexivity | apply map_nth_seq].
    - intros r Hr. apply in_seq in Hr. rewrite S by lia. reflexivity. }
  rewrite E. apply latin_scale; assumption.
Qed.

(** ** compute_qoi *)
Lemma compute_qoi_lemma : forall (X Y : Type) (f : X -> Y) model P s, 0 < P -> (forall l, model l = map f l) ->
  (in_local s <> None \/ in_values s <> None) ->
  exists s' out v, compute_qoi model P true s = Ok (s', out, Some v) /\
  exists x, in_values s' = Some x /\ v = map f x /\ (in_local s = None -> in_values s = Some x) /\ concat out = v /\ in_local s' = Some (match in_local s with Some b => b | None => array_split x P end).
Proof.
  intros X Y f model P s HP M H. unfold compute_qoi.
  assert (G : forall blocks, concat (map model blocks) = map f (concat blocks)).
  { intro blocks. rewrite concat_map. f_equal. apply map_ext. exact M. }
  destruct s as [[v|] [b|]]; simpl in *; try (destruct H; congruence).
  - eexists _, _, _. split; [reflexivity|]. exists (concat b). rewrite G. repeat split. discriminate.
  - eexists _, _, _. split; [reflexivity|]. exists v. simpl. rewrite G, array_split_concat by exact HP. repeat split.
  - eexists _, _, _. split; [reflexivity|]. exists (concat b). rewrite G. repeat split. discriminate.
Qed.
Lemma compute_qoi_local_lemma : forall (X Y : Type) (f : X -> Y) model P s, 0 < P -> (forall l, model l = map f l) -> forall s' out v g,
  compute_qoi model P g s = Ok (s', out, v) -> exists blocks, in_local s' = Some blocks /\ out = map (map f) blocks.
Proof.
  intros X Y f model P s HP M s' out v g H. unfold compute_qoi in H.
  destruct (in_local s) as [b|]; [|destruct (in_values s) as [x|]; [|discriminate]]; destruct g; simpl in H; injection H as <- <- <-; simpl;
   eexists; (split; [reflexivity|]); apply map_ext; exact M.
Qed.
Lemma compute_qoi_stale_lemma : forall (X Y : Type) (model : list X -> list Y) P s blocks new, in_local s = Some blocks ->
  exists s' out v, compute_qoi model P true (set_in_values s new) = Ok (s', out, v) /\ in_values s' = Some (concat blocks).
Proof. intros X Y model P s blocks new H. unfold compute_qoi, set_in_values. simpl. rewrite H. eexists _, _, _. split; reflexivity. Qed.

(** ** Surrogates *)
Lemma mapM_ok {A B} (f : A -> result B) (g : A -> B) l : (forall x, In x l -> f x = Ok (g x)) -> mapM f l = Ok (map g l).
Proof.
  induction l as [|x l IH]; intro H; [reflexivity|]. cbn [mapM map]. rewrite (H x (or_introl eq_refl)). cbn [bind]. rewrite IH by (intros; apply H; right; assumption). reflexivity.
Qed.
Lemma surrogate0_lemma : forall q dim xs outs jacs blocks, (forall x, q x < length outs) ->
  exists res, generate_for_input_set q dim dim 0 xs outs jacs blocks = Ok res /\
  map (@length _) res = map (@length _) blocks /\
  forall r i block x, nth_error blocks r = Some block -> nth_error block i = Some x ->
    exists out, nth_error res r = Some out /\ nth_error out i = nth_error outs (q x).
Proof.
  intros q dim xs outs jacs blocks Q. unfold generate_for_input_set. simpl. rewrite Nat.eqb_refl. simpl.
  rewrite (mapM_ok _ (map (fun x => nth (q x) outs []))).
  - eexists. split; [reflexivity|]. split; [rewrite map_map; apply map_ext; intro; apply map_length|].
    intros r i block x Hb Hx. exists (map (fun x => nth (q x) outs []) block). split; [rewrite nth_error_map, Hb; reflexivity|].
    rewrite nth_error_map, Hx. simpl. symmetry. apply nth_error_nth'. apply Q.
  - intros block _. apply mapM_ok. intros x _. unfold surrogate_row, lookup. simpl. rewrite (nth_error_nth' outs []) by apply Q. reflexivity.
Qed.
Lemma surrogate_errors_lemma : forall q ees blocks, (forall x, q x < length ees) ->
  exists res, surrogate_errors q ees blocks = Ok res /\ map (@length _) res = map (@length _) blocks /\
  forall r i block x, nth_error blocks r = Some block -> nth_error block i = Some x ->
    exists out, nth_error res r = Some out /\ nth_error out i = nth_error ees (q x).
Proof. intros q ees blocks Q. exact (surrogate0_lemma q 0 [] ees None blocks Q). Qed.
Lemma surrogate0_samples_lemma : forall (dist : list Qc -> list Qc -> Qc) q xs,
  (forall x, dist x x = 0%Qc) -> (forall x y, (0 <= dist x y)%Qc) -> (forall x y, dist x y = 0%Qc -> x = y) ->
  (forall x y, nth_error xs (q x) = Some y -> forall z, In z xs -> (dist x y <= dist x z)%Qc) -> (forall x, q x < length xs) ->
  NoDup xs -> forall k x, nth_error xs k = Some x -> q x = k.
Proof.
  intros dist q xs D0 D1 D2 QN QB ND k x Hk.
  destruct (nth_error xs (q x)) as [y|] eqn:E; [|apply nth_error_None in E; specialize (QB x); lia].
  assert (x = y). { apply D2. apply Qcle_antisym; [|apply D1]. rewrite <- (D0 x). apply (QN x y E), (nth_error_In _ _ Hk). }
  subst y. apply (proj1 (NoDup_nth_error xs) ND); [apply QB | congruence].
Qed.
Lemma surrogate_process_lemma : forall q dim dim' order xs outs jacs blocks,
  match generate_for_input_set q dim dim' order xs outs jacs blocks, generate_for_input_set q dim dim' order xs outs jacs [concat blocks] with
  | Ok a, Ok b => b = [concat a]
  | Raise e, Raise e' => e = e'
  | _, _ => False
  end.
Proof.
  assert (G : forall (A B : Type) (f : A -> result B) blocks, match mapM (mapM f) blocks, mapM (mapM f) [concat blocks] with
     Ok a, Ok b => b = [concat a] | Raise e, Raise e' => e = e' | _, _ => False end).
  { intros A B f blocks. cbn [mapM]. assert (App : forall l m, mapM f (l ++ m) = match mapM f l with Ok a => match mapM f m with Ok b => Ok (a ++ b) | Raise e => Raise e end | Raise e => Raise e end).
    { induction l as [|x l IH]; intro m; cbn [app mapM]; [destruct (mapM f m); reflexivity|]. destruct (f x); [|reflexivity]. cbn [bind]. rewrite IH.
      destruct (mapM f l); cbn [bind]; [|reflexivity]. destruct (mapM f m); reflexivity. }
    induction blocks as [|b blocks IH]; [reflexivity|]. cbn [mapM concat]. rewrite App. destruct (mapM f b) as [a|e]; cbn [bind]; [|reflexivity].
    destruct (mapM (mapM f) blocks) as [c|e]; cbn [bind] in *; destruct (mapM f (concat blocks)) as [d|e2]; cbn [bind] in *; try contradiction; [|congruence].
    injection IH as ->. reflexivity. }
  intros q dim dim' order xs outs jacs blocks. unfold generate_for_input_set.
  destruct (negb ((order =? 0) || (order =? 1))); [reflexivity|]. destruct (negb (dim' =? dim)); [reflexivity|].
  destruct (order =? 0); [apply G|]. destruct jacs; [apply G | reflexivity].
Qed.

Lemma inner_dot a b : inner a b = dot a b.
Proof. unfold inner, dot. induction (map _ (combine a b)) as [|x l IH]; simpl; [reflexivity | rewrite IH; reflexivity]. Qed.
Lemma dot_minus a x y : length x = length y -> dot a (vminus x y) = (dot a x - dot a y)%Qc.
Proof.
  unfold dot, vminus. revert x y; induction a as [|c a IH]; intros [|u x] [|v y] L; simpl in *; try discriminate; try ring. rewrite IH by lia. ring.
Qed.
Lemma surrogate1_eq A b xp x : length xp = length x ->
  vadd (affine A b xp) (map (fun row => dot row (vminus xp x)) A) = reflect_at (affine A b xp) (affine A b x).
Proof.
  intro L. unfold vadd, reflect_at, affine. revert b; induction A as [|row A IH]; intros [|c b]; cbn [combine map fst snd]; try reflexivity.
  f_equal; [rewrite (inner_dot row xp), (inner_dot row x), (dot_minus row xp x L); ring | apply IH].
Qed.
Lemma surrogate1_lemma : forall q dim xs outs jacs blocks A b,
  (forall x, q x < length xs) -> (forall x, In x xs -> length x = dim) -> (forall block x, In block blocks -> In x block -> length x = dim) ->
  outs = map (affine A b) xs -> jacs = map (fun _ => A) xs ->
  exists res, generate_for_input_set q dim dim 1 xs outs (Some jacs) blocks = Ok res /\
  forall r i block x, nth_error blocks r = Some block -> nth_error block i = Some x ->
    exists out xp, nth_error res r = Some out /\ nth_error xs (q x) = Some xp /\ nth_error out i = Some (reflect_at (affine A b xp) (affine A b x)).
Proof.
  intros q dim xs outs jacs blocks A b Q LX LB -> ->. unfold generate_for_input_set. simpl. rewrite Nat.eqb_refl. simpl.
  rewrite (mapM_ok _ (map (fun x => reflect_at (affine A b (nth (q x) xs [])) (affine A b x)))).
  - eexists. split; [reflexivity|]. intros r i block x Hb Hx. eexists _, (nth (q x) xs []). split; [rewrite nth_error_map, Hb; reflexivity|].
    split; [apply nth_error_nth', Q|]. rewrite nth_error_map, Hx. reflexivity.
  - intros block Hb. apply mapM_ok. intros x Hx. unfold surrogate_row, lookup. cbn [Nat.eqb]. rewrite !nth_error_map, (nth_error_nth' xs []) by apply Q. cbn [option_map bind].
    f_equal. apply surrogate1_eq. rewrite (LB _ _ Hb Hx). apply LX, nth_In, Q.
Qed.
Lemma reflect_fixed y z : length y = length z -> reflect_at y z = z <-> y = z.
Proof.
  unfold reflect_at. revert z; induction y as [|a y IH]; intros [|c z] L; try discriminate; cbn [combine map fst snd]; [tauto|].
  simpl in L. specialize (IH z ltac:(lia)). split; intro H.
  - injection H as H1 H2. f_equal; [|apply IH; exact H2].
    assert (E : (a + a = c + c)%Qc) by (transitivity ((a + a - c) + c)%Qc; [ring | rewrite H1; reflexivity]).
    clear - E. qc_lra.
  - injection H as -> H2. subst. f_equal; [ring|]. apply IH. reflexivity.
Qed.
Lemma affine_length A b x : length (affine A b x) = Nat.min (length A) (length b).
Proof. unfold affine. rewrite map_length, combine_length. reflexivity. Qed.
Lemma surrogate1_exact_lemma : forall A b xp x, reflect_at (affine A b xp) (affine A b x) = affine A b x <-> affine A b xp = affine A b x.
Proof. intros. apply reflect_fixed. rewrite !affine_length. reflexivity. Qed.

(** ** Pulling probabilities back *)
Lemma qsum_snd_filter (l : list (nat * Qc)) i : qsum (map snd (filter (fun f => fst f =? i) l)) = qsum (map (fun f => ind (fst f =? i) (snd f)) l).
Proof. apply qsum_filter. Qed.
Lemma pulled_back_lemma : forall num ptrs ps, map (@length _) ptrs = map (@length _) ps -> (forall l k, In l ptrs -> In k l -> k < num) ->
  length (pulled_back num ptrs ps) = num /\
  (forall i, i < num -> nth_error (pulled_back num ptrs ps) i = Some (qsum (map (fun f => ind (fst f =? i) (snd f)) (combine (concat ptrs) (concat ps))))) /\
  qsum (pulled_back num ptrs ps) = qsum (concat ps).
Proof.
  intros num ptrs ps L B.
  assert (C : combine (concat ptrs) (concat ps) = concat (map (fun e => combine (fst e) (snd e)) (combine ptrs ps))).
  { clear B. revert ps L; induction ptrs as [|l ptrs IH]; intros [|m ps] L; try discriminate; [reflexivity|]. simpl in L. injection L as L1 L2. cbn [concat combine map fst snd]. rewrite <- IH by exact L2.
    clear IH. revert m L1; induction l as [|x l IHl]; intros [|y m] L1; try discriminate; [reflexivity|]. simpl. f_equal. apply IHl. simpl in L1. lia. }
  assert (E : forall i, qsum (map (fun e => qsum (map snd (filter (fun f => fst f =? i) (combine (fst e) (snd e))))) (combine ptrs ps)) = qsum (map (fun f => ind (fst f =? i) (snd f)) (combine (concat ptrs) (concat ps)))).
  { intro i. rewrite C, concat_map, qsum_concat, !map_map. f_equal. apply map_ext. intro e. apply qsum_snd_filter. }
  unfold pulled_back. rewrite map_length, seq_length. split; [reflexivity|]. split.
  - intros i Hi. rewrite nth_error_map, nth_error_seq. apply Nat.ltb_lt in Hi. rewrite Hi. simpl. rewrite E. reflexivity.
  - rewrite (map_ext _ _ E). rewrite qsum_swap.
    rewrite (qsum_map_ext _ snd).
    + assert (LC : length (concat ptrs) = length (concat ps)).
      { clear - L. revert ps L; induction ptrs as [|l ptrs IH]; intros [|m ps] L; try discriminate; [reflexivity|]. simpl in *. injection L as L1 L2. rewrite !app_length, (IH ps L2). congruence. }
      f_equal. clear - LC. revert LC. generalize (concat ptrs) (concat ps). induction l as [|x l IH]; intros [|y m] LC; try discriminate; [reflexivity|]. simpl. f_equal. apply IH. simpl in LC. lia.
    + intros (k & v) Hin. cbn [fst snd]. apply qsum_ind_seq. apply in_combine_l in Hin. apply in_concat in Hin. destruct Hin as (l & Hl & Hk). eapply B; eassumption.
Qed.
Lemma region_total_lemma : forall labels pnew regions, length labels = length pnew -> NoDup regions -> (forall l, In l labels -> In l regions) ->
  qsum (map (region_probability labels pnew) regions) = qsum pnew.
Proof.
  intros labels pnew regions L N C. unfold region_probability.
  rewrite (map_ext _ (fun r => qsum (map (fun f => ind (fst f =? r) (snd f)) (combine labels pnew)))) by (intro; apply qsum_snd_filter).
  rewrite qsum_swap. rewrite (qsum_map_ext _ snd).
  - f_equal. clear - L. revert pnew L; induction labels as [|x l IH]; intros [|y m] L; try discriminate; [reflexivity|]. simpl. f_equal. apply IH. simpl in L. lia.
  - intros (k & v) Hin. cbn [fst snd]. apply in_combine_l in Hin. apply C in Hin. clear - N Hin.
    induction regions as [|r regions IH]; [contradiction|]. inversion_clear N as [|? ? N1 N2]. cbn [map qsum]. destruct (Nat.eqb_spec k r) as [->|Hne].
    + rewrite qsum_map_zero; [simpl; ring|]. intros r' Hr'. destruct (Nat.eqb_spec r r'); [subst; contradiction | reflexivity].
    + destruct Hin as [Hin|Hin]; [congruence|]. rewrite IH by assumption. simpl. ring.
Qed.

(** ** Uniform samples *)
Lemma uniform_lemma : forall domain U, (forall ab, In ab domain -> (fst ab < snd ab)%Qc) ->
  (forall row u, In row U -> In u row -> (0 <= u)%Qc /\ (u <= 1)%Qc) -> (forall row, In row U -> length row = length domain) ->
  uniform_domain domain = domain /\ length (uniform_values domain U) = length U /\ forall x, In x (uniform_values domain U) -> inside_closed domain x.
Proof.
  intros domain U D B L. split; [|split].
  - unfold uniform_domain. rewrite <- (map_id domain) at 2. apply map_ext. intros (a & b). simpl. f_equal. ring.
  - unfold uniform_values. apply map_length.
  - intros x Hx. unfold uniform_values in Hx. apply in_map_iff in Hx. destruct Hx as (row & <- & Hr). specialize (L _ Hr). specialize (fun u => B row u Hr).
    clear Hr. unfold inside_closed. revert row L B; induction domain as [|(a, b) d IH]; intros [|u row] L B; try discriminate; cbn [combine map fst snd]; constructor.
    + cbn [fst snd]. assert (H : (a < b)%Qc) by (apply (D (a, b)); left; reflexivity). destruct (B u (or_introl eq_refl)) as [B1 B2].
      assert (0 <= (b - a) * u)%Qc by (apply qc_mul_nonneg; [qc_lra | exact B1]).
      assert (0 <= (b - a) * (1 - u))%Qc by (apply qc_mul_nonneg; qc_lra).
      split; apply Qcle_minus_iff.
      * replace (a + (b - a) * u + - a)%Qc with ((b - a) * u)%Qc by ring. assumption.
      * replace (b + - (a + (b - a) * u))%Qc with ((b - a) * (1 - u))%Qc by ring. assumption.
    + apply IH; [intros; apply D; right; assumption | simpl in L; lia | intros; apply B; right; assumption].
Qed.

(** ** What the model returns *)
Lemma unpack_lemma : forall (Y E : Type) (v : list Y) (e j : E) ee jac,
  unpack ee jac (Tup3 v e j) = Ok (v, if ee then Some e else None, if jac then Some j else None) /\
  unpack true false (Tup2 v e) = Ok (v, Some e, None) /\ unpack false true (Tup2 v j) = Ok (v, None, Some j) /\
  unpack (E := E) false false (Arr v) = Ok (v, None, None) /\ unpack (E := E) false false (Tup1 v) = Ok (v, None, None).
Proof. intros. repeat split. destruct ee, jac; reflexivity. Qed.
Lemma unpack_refuted_lemma : forall (Y E : Type) (v : list Y) (x : E), unpack false false (Tup2 v x) = Raise PyNameError /\ unpack true true (Tup2 v x) = Raise PyNameError /\
  (forall ee jac, ee || jac = true -> unpack (E := E) ee jac (Arr v) = Raise PyNameError).
Proof. intros. repeat split. intros [] []; simpl; intro; try discriminate; reflexivity. Qed.
