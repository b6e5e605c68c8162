From Coq Require Import List Arith Lia Bool Permutation QArith Qcanon.
From Verif Require Import Err Num Ext Show NumPy Lists SampleSet_Proofs Query_Proofs Volume_Proofs Inverse_Proofs Sampling_Model Sampling_Proofs Post_Model Post_Spec.
Import ListNotations.
Local Open Scope nat_scope.

(** ** sort_by_rho *)
Lemma firstn_filter {A} (f : A -> bool) l : (forall i j a b, i < j -> nth_error l i = Some a -> nth_error l j = Some b -> f b = true -> f a = true) ->
  firstn (length (filter f l)) l = filter f l.
Proof.
  induction l as [|x l IH]; intro H; [reflexivity|]. cbn [filter]. destruct (f x) eqn:E.
  - cbn [length firstn]. f_equal. apply IH. intros i j a b L Ha Hb. apply (H (S i) (S j) a b); [lia | exact Ha | exact Hb].
  - assert (N : filter f l = []).
    { destruct (filter f l) as [|y r] eqn:F; [reflexivity|]. exfalso. assert (Hy : In y (filter f l)) by (rewrite F; left; reflexivity). apply filter_In in Hy. destruct Hy as [Hy1 Hy2].
      apply In_nth_error in Hy1. destruct Hy1 as [j Hj]. rewrite (H 0 (S j) x y) in E; [discriminate | lia | reflexivity | exact Hj | exact Hy2]. }
    rewrite N. reflexivity.
Qed.
Lemma nth_error_rev {A} (l : list A) i : i < length l -> nth_error (rev l) i = nth_error l (length l - S i).
Proof.
  intro H. destruct l as [|d l']; [simpl in H; lia|]. set (l := d :: l') in *.
  rewrite (nth_error_nth' (rev l) d) by (rewrite rev_length; exact H). rewrite (nth_error_nth' l d) by lia. f_equal. apply rev_nth, H.
Qed.
Lemma rho_nth P vol i : (forall v, vol = Some v -> length v = length P) -> i < length P -> nth_error (rho P vol) i = Some (density P vol i).
Proof.
  intros L H. unfold rho, density. destruct vol as [v|].
  - rewrite nth_error_map, nth_error_combine, (nth_error_nth' P 0%Qc), (nth_error_nth' v 0%Qc) by (rewrite ?(L v eq_refl); exact H). reflexivity.
  - rewrite nth_error_map, (nth_error_nth' P 0%Qc) by exact H. reflexivity.
Qed.
Lemma rho_length P vol : (forall v, vol = Some v -> length v = length P) -> length (rho P vol) = length P.
Proof. intro L. unfold rho. destruct vol as [v|]; rewrite map_length, ?combine_length; [rewrite (L v eq_refl); lia | reflexivity]. Qed.

Lemma Permutation_filter' {A} (f : A -> bool) l m : Permutation l m -> Permutation (filter f l) (filter f m).
Proof.
  induction 1 as [|x l m H IH|x y l|l m n H1 IH1 H2 IH2]; cbn [filter]; [constructor | | | eapply perm_trans; eassumption].
  - destruct (f x); [constructor; exact IH | exact IH].
  - destruct (f x), (f y); try apply Permutation_refl. apply perm_swap.
Qed.
Section Sorted.
Context (P : list Qc) (vol : option (list Qc)) (perm : list nat).
Context (L : forall v, vol = Some v -> length v = length P).
Context (S : is_xargsort (rho P vol) perm).
Let isp (i : nat) : bool := qltb 0 (nth i P 0%Qc).

Lemma perm_len : length perm = length P.
Proof. destruct S as [S1 _]. apply Permutation_length in S1. rewrite seq_length, rho_length in S1 by exact L. exact S1. Qed.
Lemma perm_in i : In i perm <-> i < length P.
Proof.
  destruct S as [S1 _]. rewrite rho_length in S1 by exact L. split; intro H.
  - apply (Permutation_in _ S1), in_seq in H. lia.
  - apply (Permutation_in _ (Permutation_sym S1)), in_seq. lia.
Qed.
Lemma perm_nodup : NoDup perm.
Proof. destruct S as [S1 _]. apply (Permutation_NoDup (Permutation_sym S1)), seq_NoDup. Qed.
Lemma rev_sorted i j a b : i < j -> nth_error (rev perm) i = Some a -> nth_error (rev perm) j = Some b -> sorts_before (density P vol b) (density P vol a).
Proof.
  intros Hij Ha Hb. assert (Hj : j < length perm) by (rewrite <- (rev_length perm); apply nth_error_Some; rewrite Hb; discriminate).
  assert (Ia : a < length P) by (apply perm_in, in_rev, (nth_error_In _ _ Ha)). assert (Ib : b < length P) by (apply perm_in, in_rev, (nth_error_In _ _ Hb)).
  rewrite nth_error_rev in Ha, Hb by lia. destruct S as [_ S2]. apply (S2 (length perm - Datatypes.S j) (length perm - Datatypes.S i) b a); try assumption; [lia | apply rho_nth; assumption | apply rho_nth; assumption].
Qed.
Lemma nnz_eq : nnz P = length (filter isp (rev perm)).
Proof.
  unfold nnz, isp. destruct S as [S1 _]. rewrite rho_length in S1 by exact L.
  assert (Pm : Permutation (rev perm) (seq 0 (length P))) by (eapply perm_trans; [apply Permutation_sym, Permutation_rev | exact S1]).
  rewrite (Permutation_length (Permutation_filter' _ _ _ Pm)).
  rewrite <- (map_nth_seq 0%Qc P) at 1. rewrite filter_map_comm, map_length. reflexivity.
Qed.

Context (Ppos : forall p, In p P -> (0 <= p)%Qc).
Context (Vpos : forall v x, vol = Some v -> In x v -> (0 <= x)%Qc).
Context (NoZero : forall v i, vol = Some v -> i < length P -> nth i v 0%Qc = 0%Qc -> nth i P 0%Qc <> 0%Qc).

Lemma density_not_nan i : i < length P -> density P vol i <> NaN.
Proof.
  intro H. unfold density. destruct vol as [v|]; [|discriminate]. unfold xdivq. destruct (qeqb (nth i v 0%Qc) 0) eqn:E; [|discriminate].
  apply qeqb_true in E. destruct (qeqb (nth i P 0%Qc) 0) eqn:F; [apply qeqb_true in F; exfalso; eapply NoZero; eauto | unfold sgn_inf; destruct (qltb _ _); discriminate].
Qed.
Lemma density_pos i : i < length P -> isp i = xltb (Fin 0) (density P vol i).
Proof.
  intro H. unfold isp, density. assert (PP : (0 <= nth i P 0)%Qc) by (apply Ppos, nth_In, H). destruct vol as [v|] eqn:Ev.
  - assert (VV : (0 <= nth i v 0)%Qc) by (apply (Vpos v _ eq_refl), nth_In; rewrite (L v eq_refl); exact H).
    unfold xdivq. destruct (qeqb (nth i v 0%Qc) 0) eqn:E.
    + apply qeqb_true in E. assert (NZ := NoZero v i eq_refl H E).
      assert (LT : (0 < nth i P 0)%Qc) by (apply Qcle_lt_or_eq in PP; destruct PP as [PP|PP]; [exact PP | symmetry in PP; contradiction]).
      destruct (qeqb (nth i P 0%Qc) 0) eqn:F; [apply qeqb_true in F; contradiction|]. unfold sgn_inf. apply qltb_true in LT. rewrite LT. reflexivity.
    + apply qeqb_false in E. assert (VP : (0 < nth i v 0)%Qc) by (apply Qcle_lt_or_eq in VV; destruct VV as [VV|VV]; [exact VV | symmetry in VV; contradiction]).
      unfold xltb, xleb. destruct (qltb 0 (nth i P 0%Qc)) eqn:F.
      * apply qltb_true in F. symmetry. apply negb_true_iff. apply qleb_false. apply qc_div_pos; assumption.
      * apply qltb_false in F. symmetry. apply negb_false_iff. apply qleb_true.
        assert (Z : nth i P 0%Qc = 0%Qc) by (apply Qcle_antisym; assumption). rewrite Z. unfold Qcdiv. rewrite Qcmult_0_l. apply Qcle_refl.
  - unfold xltb, xleb. destruct (qltb 0 (nth i P 0%Qc)) eqn:F; symmetry.
    + apply qltb_true in F. apply negb_true_iff, qleb_false, F.
    + apply qltb_false in F. apply negb_false_iff, qleb_true, F.
Qed.
Lemma before_le x y : x <> NaN -> y <> NaN -> sorts_before x y -> xleb x y = true.
Proof. destruct x, y; simpl; intros; congruence. Qed.
Lemma xlt_le_trans z x y : xltb z x = true -> xleb x y = true -> xltb z y = true.
Proof.
  destruct z, x, y; simpl; intros H1 H2; try discriminate; try reflexivity.
  apply negb_true_iff in H1. apply negb_true_iff. apply qleb_true in H2. apply qleb_false in H1. apply qleb_false. eapply Qclt_le_trans; eassumption.
Qed.
Lemma indices_eq : firstn (nnz P) (rev perm) = filter isp (rev perm).
Proof.
  rewrite nnz_eq. apply firstn_filter. intros i j a b Hij Ha Hb Hp.
  assert (Ia : a < length P) by (apply perm_in, in_rev, (nth_error_In _ _ Ha)). assert (Ib : b < length P) by (apply perm_in, in_rev, (nth_error_In _ _ Hb)).
  rewrite density_pos in Hp |- * by assumption. eapply xlt_le_trans; [exact Hp|]. apply before_le; [apply density_not_nan, Ib | apply density_not_nan, Ia|]. exact (rev_sorted i j a b Hij Ha Hb).
Qed.
Lemma indices_in i : In i (firstn (nnz P) (rev perm)) <-> i < length P /\ (0 < nth i P 0)%Qc.
Proof. rewrite indices_eq, filter_In, <- in_rev, perm_in. unfold isp. rewrite qltb_true. tauto. Qed.
Lemma indices_nodup : NoDup (firstn (nnz P) (rev perm)).
Proof. rewrite indices_eq. apply NoDup_filter. apply NoDup_rev, perm_nodup. Qed.
Lemma indices_decreasing : decreasing_density P vol (firstn (nnz P) (rev perm)).
Proof.
  intros i j a b Hij Ha Hb. rewrite nth_error_firstn in Ha, Hb. destruct (i <? nnz P); [|discriminate]. destruct (j <? nnz P); [|discriminate].
  assert (Ia : a < length P) by (apply perm_in, in_rev, (nth_error_In _ _ Ha)). assert (Ib : b < length P) by (apply perm_in, in_rev, (nth_error_In _ _ Hb)).
  apply before_le; [apply density_not_nan, Ib | apply density_not_nan, Ia|]. exact (rev_sorted i j a b Hij Ha Hb).
Qed.
End Sorted.

Lemma fancy_ok {A} (l : list A) idx : (forall i, In i idx -> i < length l) -> exists r, fancy l idx = Ok r /\ selects l idx r.
Proof.
  intro H. destruct (take_idx_some l idx H) as [r E]. exists r. unfold fancy. rewrite E. split; [reflexivity|]. destruct (take_idx_nth _ _ _ E) as [T1 T2].
  split; [exact T1|]. intros k i Hk. split; [apply T2; exact Hk | apply H, (nth_error_In _ _ Hk)].
Qed.
Lemma fancy_opt_ok {A} (l : option (list A)) idx : (forall a i, l = Some a -> In i idx -> i < length a) -> exists r, fancy_opt l idx = Ok r /\ selects_opt l idx r.
Proof.
  intro H. destruct l as [l|]; [|exists None; split; [reflexivity | exact I]]. destruct (fancy_ok l idx) as (r & E & Q); [intros i Hi; apply (H l i eq_refl Hi)|].
  exists (Some r). unfold fancy_opt. rewrite E. split; [reflexivity | exact Q].
Qed.
Lemma sort_lemma : forall (X Y : Type) perm (s : pset X Y),
  length (p_values s) = length (p_prob s) -> (forall v, p_vol s = Some v -> length v = length (p_prob s)) -> (forall d, p_data s = Some d -> length d = length (p_prob s)) ->
  (forall p, In p (p_prob s) -> (0 <= p)%Qc) -> (forall v x, p_vol s = Some v -> In x v -> (0 <= x)%Qc) ->
  (forall v i, p_vol s = Some v -> i < length (p_prob s) -> nth i v 0%Qc = 0%Qc -> nth i (p_prob s) 0%Qc <> 0%Qc) ->
  is_xargsort (rho (p_prob s) (p_vol s)) perm ->
  exists out idx, sort_by_rho perm s = Ok (out, idx) /\ NoDup idx /\ (forall i, In i idx <-> i < length (p_prob s) /\ (0 < nth i (p_prob s) 0)%Qc) /\
  decreasing_density (p_prob s) (p_vol s) idx /\
  selects (p_values s) idx (p_values out) /\ selects (p_prob s) idx (p_prob out) /\ selects_opt (p_vol s) idx (p_vol out) /\ selects_opt (p_data s) idx (p_data out).
Proof.
  intros X Y perm s L1 L2 L3 HP HV HZ S. unfold sort_by_rho. set (idx := firstn (nnz (p_prob s)) (rev perm)).
  assert (In_ : forall i, In i idx <-> i < length (p_prob s) /\ (0 < nth i (p_prob s) 0)%Qc) by (intro i; apply (indices_in _ _ _ L2 S HP HV HZ)).
  destruct (fancy_ok (p_prob s) idx) as (P & E1 & Q1); [intros i Hi; apply In_, Hi|].
  destruct (fancy_ok (p_values s) idx) as (x & E2 & Q2); [intros i Hi; rewrite L1; apply In_, Hi|].
  destruct (fancy_opt_ok (p_vol s) idx) as (v & E3 & Q3); [intros a i Ha Hi; rewrite (L2 a Ha); apply In_, Hi|].
  destruct (fancy_opt_ok (p_data s) idx) as (d & E4 & Q4); [intros a i Ha Hi; rewrite (L3 a Ha); apply In_, Hi|].
  rewrite E1, E2, E3, E4. cbn [bind]. exists (mk_p x P v d), idx. split; [reflexivity|].
  split; [eapply indices_nodup; eassumption|]. split; [exact In_|]. split; [eapply indices_decreasing; eassumption|]. exact (conj Q2 (conj Q1 (conj Q3 Q4))).
Qed.

(** A sample of probability and volume zero comes first. *)
Lemma sort_nan_lemma : forall (X Y : Type) perm (s : pset X Y) v k out idx, p_vol s = Some v -> length v = length (p_prob s) ->
  is_xargsort (rho (p_prob s) (p_vol s)) perm ->
  k < length (p_prob s) -> nth k (p_prob s) 0%Qc = 0%Qc -> nth k v 0%Qc = 0%Qc -> sort_by_rho perm s = Ok (out, idx) ->
  forall i r, idx = i :: r -> nth i (p_prob s) 0%Qc = 0%Qc.
Proof.
  intros X Y perm s v k out idx EV L S Hk HP HV E i r Ei.
  assert (L2 : forall v', p_vol s = Some v' -> length v' = length (p_prob s)) by (intros v' Hv'; rewrite EV in Hv'; injection Hv' as <-; exact L).
  assert (Eidx : idx = firstn (nnz (p_prob s)) (rev perm)).
  { unfold sort_by_rho in E. repeat (match type of E with bind ?m _ = _ => destruct m; [cbn [bind] in E | discriminate] end). injection E as _ <-. reflexivity. }
  rewrite Ei in Eidx. destruct (nnz (p_prob s)) as [|n]; [discriminate|]. destruct (rev perm) as [|i' r'] eqn:Er; [discriminate|]. injection Eidx as <- _.
  assert (Hi : i < length (p_prob s)) by (apply (perm_in _ _ _ L2 S), in_rev; rewrite Er; left; reflexivity).
  assert (DN : density (p_prob s) (p_vol s) k = NaN).
  { unfold density. rewrite EV, HP, HV. reflexivity. }
  assert (Hk' : In k (rev perm)) by (apply in_rev; rewrite rev_involutive; apply (perm_in _ _ _ L2 S); exact Hk).
  apply In_nth_error in Hk'. destruct Hk' as [[|j] Hj].
  - rewrite Er in Hj. injection Hj as <-. exact HP.
  - assert (SB := rev_sorted _ _ _ L2 S 0 (Datatypes.S j) i k ltac:(lia) ltac:(rewrite Er; reflexivity) Hj). rewrite DN in SB.
    destruct (density (p_prob s) (p_vol s) i) eqn:Ed; try contradiction. unfold density in Ed. rewrite EV in Ed. unfold xdivq in Ed.
    destruct (qeqb (nth i v 0%Qc) 0); [|discriminate]. destruct (qeqb (nth i (p_prob s) 0%Qc) 0) eqn:F; [apply qeqb_true, F | unfold sgn_inf in Ed; destruct (qltb _ _); discriminate].
Qed.

(** ** sample_prob *)
Lemma cumsum_length acc l : length (cumsum acc l) = length l.
Proof. revert acc; induction l as [|x l IH]; intro acc; [reflexivity|]. simpl. f_equal. apply IH. Qed.
Lemma count_prefix : forall l acc p, (forall x, In x l -> (0 < x)%Qc) -> (0 <= acc)%Qc ->
  let m := length (filter (fun c => qltb 0 c && qleb c p) (cumsum acc l)) in
  m <= length l /\ (0 < m -> (acc + qsum (firstn m l) <= p)%Qc) /\ (forall m', m < m' -> m' <= length l -> (p < acc + qsum (firstn m' l))%Qc).
Proof.
  induction l as [|x l IH]; intros acc p Hp Ha; cbn [cumsum filter length]; [repeat split; intros; lia|].
  assert (Px : (0 < x)%Qc) by (apply Hp; left; reflexivity). assert (PA : (0 < acc + x)%Qc) by qc_lra.
  specialize (IH (acc + x)%Qc p (fun y Hy => Hp y (or_intror Hy)) (Qclt_le_weak _ _ PA)). cbn zeta in IH. destruct IH as (I1 & I2 & I3).
  rewrite (proj2 (qltb_true _ _) PA). destruct (qleb (acc + x)%Qc p) eqn:E; cbn [andb].
  - apply qleb_true in E. cbn [length]. set (m := length (filter _ _)) in *. split; [lia|]. split.
    + intros _. cbn [firstn qsum]. destruct m as [|m].
      * cbn [firstn qsum]. rewrite Qcplus_0_r. exact E.
      * replace (acc + (x + qsum (firstn (S m) l)))%Qc with (acc + x + qsum (firstn (S m) l))%Qc by ring. apply I2. lia.
    + intros [|m'] H1 H2; [lia|]. cbn [firstn qsum]. replace (acc + (x + qsum (firstn m' l)))%Qc with (acc + x + qsum (firstn m' l))%Qc by ring. apply I3; lia.
  - apply qleb_false in E. assert (Z : length (filter (fun c => qltb 0 c && qleb c p) (cumsum (acc + x) l)) = 0).
    { destruct (length (filter (fun c => qltb 0 c && qleb c p) (cumsum (acc + x) l))) as [|m] eqn:F; [reflexivity|]. exfalso.
      specialize (I2 ltac:(lia)). assert (NN : (0 <= qsum (firstn (S m) l))%Qc).
      { apply qsum_nonneg. intros y Hy. apply Qclt_le_weak, Hp. right. rewrite <- (firstn_skipn (S m) l). apply in_or_app. left. exact Hy. }
      apply (Qclt_not_le _ _ E). eapply Qcle_trans; [|exact I2]. rewrite <- (Qcplus_0_r (acc + x)) at 1. apply Qcplus_le_compat; [apply Qcle_refl | exact NN]. }
    rewrite Z. split; [lia|]. split; [lia|]. intros [|m'] H1 H2; [lia|]. cbn [firstn qsum].
    assert (NN : (0 <= qsum (firstn m' l))%Qc).
    { apply qsum_nonneg. intros y Hy. apply Qclt_le_weak, Hp. right. rewrite <- (firstn_skipn m' l). apply in_or_app. left. exact Hy. }
    eapply Qclt_le_trans; [exact E|]. replace (acc + (x + qsum (firstn m' l)))%Qc with (acc + x + qsum (firstn m' l))%Qc by ring.
    rewrite <- (Qcplus_0_r (acc + x)) at 1. apply Qcplus_le_compat; [apply Qcle_refl | exact NN].
Qed.
Lemma selects_total P idx out : selects P idx out -> forall m, qsum (firstn m out) = total P (firstn m idx).
Proof.
  intros [H1 H2]. assert (E : out = map (fun i => nth i P 0%Qc) idx).
  { apply nth_error_ext. intro k. destruct (nth_error idx k) as [i|] eqn:Ei.
    - destruct (H2 k i Ei) as [H3 H4]. rewrite H3, nth_error_map, Ei. simpl. apply nth_error_nth'. exact H4.
    - rewrite nth_error_map, Ei. simpl. apply nth_error_None. rewrite H1. apply nth_error_None. exact Ei. }
  intro m. rewrite E, firstn_map. unfold total. induction (map _ (firstn m idx)) as [|x l IH]; [reflexivity|]. simpl. rewrite IH. reflexivity.
Qed.
Lemma selects_firstn {A} (l : list A) idx out m : selects l idx out -> selects l (firstn m idx) (firstn m out).
Proof.
  intros [H1 H2]. split; [rewrite !firstn_length, H1; reflexivity|]. intros k i Hk. rewrite nth_error_firstn in Hk; rewrite nth_error_firstn. destruct (k <? m); [|discriminate]. apply H2. exact Hk.
Qed.
Lemma selects_rev {A} (l : list A) idx out : selects l idx out -> selects l (rev idx) (rev out).
Proof.
  intros [H1 H2]. split; [rewrite !rev_length; exact H1|]. intros k i Hk. assert (K : k < length idx) by (rewrite <- (rev_length idx); apply nth_error_Some; rewrite Hk; discriminate).
  rewrite nth_error_rev in Hk by lia; rewrite nth_error_rev by lia. rewrite H1. apply H2. exact Hk.
Qed.
Lemma selects_opt_firstn {A} (l : option (list A)) idx out m : selects_opt l idx out -> selects_opt l (firstn m idx) (option_map (firstn m) out).
Proof. destruct l, out; simpl; try tauto. apply selects_firstn. Qed.
Lemma selects_opt_rev {A} (l : option (list A)) idx out : selects_opt l idx out -> selects_opt l (rev idx) (option_map (@rev _) out).
Proof. destruct l, out; simpl; try tauto. apply selects_rev. Qed.
Lemma selects_pos P idx out : selects P idx out -> (forall i, In i idx -> (0 < nth i P 0)%Qc) -> forall x, In x out -> (0 < x)%Qc.
Proof.
  intros [H1 H2] H x Hx. apply In_nth_error in Hx. destruct Hx as [k Hk]. destruct (nth_error idx k) as [i|] eqn:Ei.
  - destruct (H2 k i Ei) as [H3 H4]. specialize (H i (nth_error_In _ _ Ei)). rewrite Hk in H3. symmetry in H3. apply (nth_error_nth _ _ 0%Qc) in H3. rewrite H3 in H. exact H.
  - apply nth_error_None in Ei. assert (K : k < length out) by (apply nth_error_Some; rewrite Hk; discriminate). lia.
Qed.
Lemma sample_prob_lemma : forall (X Y : Type) perm percentile (s : pset X Y) (descending : bool),
  length (p_values s) = length (p_prob s) -> (forall v, p_vol s = Some v -> length v = length (p_prob s)) -> (forall d, p_data s = Some d -> length d = length (p_prob s)) ->
  (forall p, In p (p_prob s) -> (0 <= p)%Qc) -> (forall v x, p_vol s = Some v -> In x v -> (0 <= x)%Qc) ->
  (forall v i, p_vol s = Some v -> i < length (p_prob s) -> nth i v 0%Qc = 0%Qc -> nth i (p_prob s) 0%Qc <> 0%Qc) ->
  is_xargsort (rho (p_prob s) (p_vol s)) perm -> (0 <= percentile)%Qc ->
  exists sorted idx num out, sort_by_rho perm s = Ok (sorted, idx) /\
  let order := if descending then rev idx else idx in
  sample_prob perm percentile s true descending = Ok (num, out, firstn num order) /\ num <= length order /\
  (total (p_prob s) (firstn num order) <= percentile)%Qc /\
  (forall m, num < m -> m <= length order -> (percentile < total (p_prob s) (firstn m order))%Qc) /\
  selects (p_values s) (firstn num order) (p_values out) /\ selects (p_prob s) (firstn num order) (p_prob out) /\
  selects_opt (p_vol s) (firstn num order) (p_vol out) /\ selects_opt (p_data s) (firstn num order) (p_data out).
Proof.
  intros X Y perm pc s desc L1 L2 L3 HP HV HZ S Hpc.
  destruct (sort_lemma X Y perm s L1 L2 L3 HP HV HZ S) as (o & idx & E & _ & HI & _ & Q1 & Q2 & Q3 & Q4).
  set (o' := if desc then reverse_pset o else o). set (order := if desc then rev idx else idx).
  assert (R : selects (p_values s) order (p_values o') /\ selects (p_prob s) order (p_prob o') /\ selects_opt (p_vol s) order (p_vol o') /\ selects_opt (p_data s) order (p_data o')).
  { unfold o', order. destruct desc; [|tauto]. simpl. exact (conj (selects_rev _ _ _ Q1) (conj (selects_rev _ _ _ Q2) (conj (selects_opt_rev _ _ _ Q3) (selects_opt_rev _ _ _ Q4)))). }
  destruct R as (R1 & R2 & R3 & R4).
  assert (Pos : forall x, In x (p_prob o') -> (0 < x)%Qc).
  { apply (selects_pos _ _ _ R2). intros i Hi. apply HI. unfold order in Hi. destruct desc; [apply in_rev; exact Hi | exact Hi]. }
  destruct (count_prefix (p_prob o') 0%Qc pc Pos (Qcle_refl _)) as (C1 & C2 & C3). set (num := length (filter (fun c => qltb 0 c && qleb c pc) (cumsum 0 (p_prob o')))) in *.
  exists o, idx, num, (head_pset num o'). split; [exact E|]. cbn zeta. fold order.
  assert (LO : length (p_prob o') = length order) by apply R2.
  split; [|split; [lia|]].
  - unfold sample_prob. rewrite E. cbn [bind fst snd]. unfold num, o', order. destruct desc; cbn [bind fst snd]; reflexivity.
  - split; [|split].
    + rewrite <- (selects_total _ _ _ R2). destruct num as [|m]; [exact Hpc|]. specialize (C2 ltac:(lia)). rewrite Qcplus_0_l in C2. exact C2.
    + intros m H1 H2. rewrite <- (selects_total _ _ _ R2). specialize (C3 m H1 ltac:(lia)). rewrite Qcplus_0_l in C3. exact C3.
    + unfold head_pset. cbn [p_values p_prob p_vol p_data]. exact (conj (selects_firstn _ _ _ _ R1) (conj (selects_firstn _ _ _ _ R2) (conj (selects_opt_firstn _ _ _ _ R3) (selects_opt_firstn _ _ _ _ R4)))).
Qed.
Lemma increasing_rev P vol idx : decreasing_density P vol idx -> increasing_density P vol (rev idx).
Proof.
  intros H i j a b L Ha Hb.
  assert (R : forall k x, nth_error (rev idx) k = Some x -> k < length idx /\ nth_error idx (length idx - S k) = Some x).
  { intros k x Hk. assert (K : k < length idx) by (rewrite <- rev_length; apply nth_error_Some; congruence). split; [exact K|].
    rewrite <- Hk. rewrite <- (rev_involutive idx) at 1. rewrite (nth_error_nth' (rev (rev idx)) 0) by (rewrite !rev_length; lia).
    rewrite (nth_error_nth' (rev idx) 0) by (rewrite rev_length; lia). f_equal. rewrite rev_nth by (rewrite rev_length; lia). rewrite rev_length. f_equal. lia. }
  destruct (R _ _ Ha) as (A1 & A2). destruct (R _ _ Hb) as (B1 & B2). apply (H (length idx - S j) (length idx - S i)); [lia|assumption|assumption].
Qed.
Lemma highest_lemma : forall (X Y : Type) perm percentile (s : pset X Y),
  length (p_values s) = length (p_prob s) -> (forall v, p_vol s = Some v -> length v = length (p_prob s)) -> (forall d, p_data s = Some d -> length d = length (p_prob s)) ->
  (forall p, In p (p_prob s) -> (0 <= p)%Qc) -> (forall v x, p_vol s = Some v -> In x v -> (0 <= x)%Qc) ->
  (forall v i, p_vol s = Some v -> i < length (p_prob s) -> nth i v 0%Qc = 0%Qc -> nth i (p_prob s) 0%Qc <> 0%Qc) ->
  is_xargsort (rho (p_prob s) (p_vol s)) perm -> (0 <= percentile)%Qc ->
  exists order num out, sample_highest_prob perm percentile s true = Ok (num, out, firstn num order) /\
  all_positive (p_prob s) order /\ decreasing_density (p_prob s) (p_vol s) order /\ longest_within (p_prob s) percentile order num /\
  selects (p_values s) (firstn num order) (p_values out) /\ selects (p_prob s) (firstn num order) (p_prob out) /\
  selects_opt (p_vol s) (firstn num order) (p_vol out) /\ selects_opt (p_data s) (firstn num order) (p_data out).
Proof.
  intros X Y perm pc s L1 L2 L3 HP HV HZ S Hpc. destruct (sort_lemma X Y perm s L1 L2 L3 HP HV HZ S) as (o & idx & E & ND & HI & DD & _).
  destruct (sample_prob_lemma X Y perm pc s false L1 L2 L3 HP HV HZ S Hpc) as (o' & idx' & num & out & E' & H). rewrite E in E'. injection E' as <- <-.
  cbn zeta iota in H. destruct H as (H1 & H2 & H3 & H4 & H5). exists idx, num, out. split; [exact H1|]. split; [exact (conj ND HI)|]. split; [exact DD|]. split; [exact (conj H2 (conj H3 H4))|exact H5].
Qed.
Lemma lowest_lemma : forall (X Y : Type) perm percentile (s : pset X Y),
  length (p_values s) = length (p_prob s) -> (forall v, p_vol s = Some v -> length v = length (p_prob s)) -> (forall d, p_data s = Some d -> length d = length (p_prob s)) ->
  (forall p, In p (p_prob s) -> (0 <= p)%Qc) -> (forall v x, p_vol s = Some v -> In x v -> (0 <= x)%Qc) ->
  (forall v i, p_vol s = Some v -> i < length (p_prob s) -> nth i v 0%Qc = 0%Qc -> nth i (p_prob s) 0%Qc <> 0%Qc) ->
  is_xargsort (rho (p_prob s) (p_vol s)) perm -> (0 <= percentile)%Qc ->
  exists order num out, sample_lowest_prob perm percentile s true = Ok (num, out, firstn num order) /\
  all_positive (p_prob s) order /\ increasing_density (p_prob s) (p_vol s) order /\ longest_within (p_prob s) percentile order num /\
  selects (p_values s) (firstn num order) (p_values out) /\ selects (p_prob s) (firstn num order) (p_prob out) /\
  selects_opt (p_vol s) (firstn num order) (p_vol out) /\ selects_opt (p_data s) (firstn num order) (p_data out).
Proof.
  intros X Y perm pc s L1 L2 L3 HP HV HZ S Hpc. destruct (sort_lemma X Y perm s L1 L2 L3 HP HV HZ S) as (o & idx & E & ND & HI & DD & _).
  destruct (sample_prob_lemma X Y perm pc s true L1 L2 L3 HP HV HZ S Hpc) as (o' & idx' & num & out & E' & H). rewrite E in E'. injection E' as <- <-.
  cbn zeta iota in H. destruct H as (H1 & H2 & H3 & H4 & H5). exists (rev idx), num, out. split; [exact H1|]. split; [|split; [apply increasing_rev; exact DD|split; [exact (conj H2 (conj H3 H4))|exact H5]]].
  split; [apply NoDup_rev; exact ND|]. intros i. rewrite <- in_rev. apply HI.
Qed.
Lemma sample_prob_unsorted_lemma : forall (X Y : Type) perm percentile (s : pset X Y) descending, sample_prob perm percentile s false descending = Raise PyNameError.
Proof. intros X Y perm pc s [|]; reflexivity. Qed.

(** ** Histograms *)
Lemma linspace_length a b n : length (linspace a b n) = n.
Proof. unfold linspace. rewrite map_length, seq_length. reflexivity. Qed.
Lemma ind_add (b c : bool) x : (b = true -> c = false) -> (ind b x + ind c x)%Qc = ind (b || c) x.
Proof. destruct b, c; simpl; intro H; try (specialize (H eq_refl); discriminate); ring. Qed.
Lemma bins_partition (e : nat -> Qc) v w : (forall i, (e i <= e (S i))%Qc) -> forall m,
  qsum (map (fun k => ind (qleb (e k) v && qltb v (e (k + 1))) w) (seq 0 m)) = ind (qleb (e 0) v && qltb v (e m)) w.
Proof.
  intros M m. assert (MM : forall i j, i <= j -> (e i <= e j)%Qc) by (intros i j H; induction H; [apply Qcle_refl | eapply Qcle_trans; [exact IHle | apply M]]).
  induction m as [|m IH].
  - simpl. destruct (qleb (e 0) v) eqn:A; [|reflexivity]. destruct (qltb v (e 0)) eqn:B; [|reflexivity]. apply qleb_true in A. apply qltb_true in B. exfalso. apply (Qclt_not_le _ _ B A).
  - rewrite seq_S, map_app, qsum_app, IH. cbn [map qsum plus]. rewrite Qcplus_0_r, ind_add, Nat.add_1_r.
    + f_equal. pose proof (MM 0 m ltac:(lia)) as M1. pose proof (M m) as M2.
      destruct (qleb (e 0) v) eqn:A; destruct (qltb v (e m)) eqn:B; destruct (qleb (e m) v) eqn:C; destruct (qltb v (e (S m))) eqn:D; try reflexivity; exfalso;
      try (apply qleb_true in A); try (apply qleb_false in A); try (apply qltb_true in B); try (apply qltb_false in B); try (apply qleb_true in C); try (apply qleb_false in C); try (apply qltb_true in D); try (apply qltb_false in D); qc_lra.
    + intro H. apply andb_true_iff in H. destruct H as [_ H]. apply andb_false_iff. left. apply qltb_true in H. apply qleb_false. exact H.
Qed.
Lemma linspace_mono a b n k : (a <= b)%Qc -> 0 < n -> k < n -> (nth k (linspace a b (n + 1)) 0 <= nth (S k) (linspace a b (n + 1)) 0)%Qc.
Proof.
  intros H Hn Hk. rewrite (nth_error_nth _ _ 0%Qc (linspace_nth a b (n + 1) k ltac:(lia))), (nth_error_nth _ _ 0%Qc (linspace_nth a b (n + 1) (S k) ltac:(lia))). replace (n + 1 - 1) with n by lia.
  assert (0 <= (b - a) / qn n)%Qc by (apply qc_div_nonneg; [qc_lra | apply qn_pos, Hn]). rewrite qn_S. apply Qcle_minus_iff.
  replace (a + (qn k + 1) * ((b - a) / qn n) + - (a + qn k * ((b - a) / qn n)))%Qc with ((b - a) / qn n)%Qc by ring. exact H0.
Qed.
Lemma linspace_ends a b n : 0 < n -> nth 0 (linspace a b (n + 1)) 0%Qc = a /\ nth n (linspace a b (n + 1)) 0%Qc = b.
Proof.
  intro Hn. split; [rewrite (nth_error_nth _ _ 0%Qc (linspace_nth a b (n + 1) 0 ltac:(lia))) | rewrite (nth_error_nth _ _ 0%Qc (linspace_nth a b (n + 1) n ltac:(lia)))]; replace (n + 1 - 1) with n by lia.
  - rewrite qn_0. ring.
  - field. apply qn_neq0, Hn.
Qed.
(** Exactly one bin contains a value of the range, none another value. *)
Lemma bins_lemma a b n v w : (a <= b)%Qc -> 0 < n ->
  qsum (map (fun k => ind (in_bin (linspace a b (n + 1)) k v) w) (seq 0 n)) = ind (in_box1 (a, b) v) w.
Proof.
  intros H Hn. set (ed := linspace a b (n + 1)). destruct n as [|m]; [lia|].
  set (e := fun i => nth (Nat.min i (S m)) ed 0%Qc).
  assert (M : forall i, (e i <= e (S i))%Qc).
  { intro i. unfold e. destruct (le_lt_dec (S m) i) as [Hi|Hi]; [rewrite !Nat.min_r by lia; apply Qcle_refl|]. rewrite !Nat.min_l by lia. apply linspace_mono; assumption. }
  destruct (linspace_ends a b (S m) Hn) as [E0 E1]. fold ed in E0, E1.
  rewrite seq_S, map_app, qsum_app. cbn [map qsum plus]. rewrite Qcplus_0_r.
  rewrite (qsum_map_ext _ (fun k => ind (qleb (e k) v && qltb v (e (k + 1))) w)).
  - rewrite (bins_partition e v w M). unfold in_bin. unfold ed. rewrite linspace_length. fold ed.
    replace (m + 2 =? S m + 1) with true by (symmetry; apply Nat.eqb_eq; lia). rewrite Nat.add_1_r, E1.
    assert (Em : nth m ed 0%Qc = e m) by (unfold e; rewrite Nat.min_l by lia; reflexivity). rewrite Em.
    assert (M0 : (a <= e m)%Qc). { rewrite <- E0. change (nth 0 ed 0%Qc) with (e 0). clearbody e. clear - M. induction m as [|k IHk]; [apply Qcle_refl | eapply Qcle_trans; [exact IHk | apply M]]. }
    assert (M1 : (e m <= b)%Qc). { rewrite <- E1, <- Em. apply linspace_mono; [exact H | exact Hn | lia]. }
    assert (E0' : e 0 = a) by (unfold e; simpl; exact E0). rewrite E0', ind_add.
    + f_equal. unfold in_box1. cbn [fst snd]. fold (qleb a v) (qleb v b).
      destruct (qleb a v) eqn:A; destruct (qltb v (e m)) eqn:B; destruct (qleb (e m) v) eqn:C; destruct (qleb v b) eqn:D; try reflexivity; exfalso;
      try (apply qleb_true in A); try (apply qleb_false in A); try (apply qltb_true in B); try (apply qltb_false in B); try (apply qleb_true in C); try (apply qleb_false in C); try (apply qleb_true in D); try (apply qleb_false in D); clear - A B C D M0 M1; revert A B C D M0 M1; generalize (e m); intros; qc_lra.
    + intro HH. apply andb_true_iff in HH. destruct HH as [_ HH]. apply andb_false_iff. left. apply qltb_true in HH. apply qleb_false. exact HH.
  - intros k Hk. apply in_seq in Hk. f_equal. unfold in_bin, e. rewrite !Nat.min_l by lia. unfold ed. rewrite linspace_length. replace (k + 2 =? S m + 1) with false by (symmetry; apply Nat.eqb_neq; lia). reflexivity.
Qed.

Lemma vec_add_map {A} (f g : A -> Qc) l : vec_add (map f l) (map g l) = map (fun x => (f x + g x)%Qc) l.
Proof. unfold vec_add. induction l as [|x l IH]; [reflexivity|]. simpl. f_equal. exact IH. Qed.
Lemma repeat_map_seq {A} (x : A) n : repeat x n = map (fun _ => x) (seq 0 n).
Proof. assert (G : forall s, repeat x n = map (fun _ => x) (seq s n)) by (induction n; intro s; [reflexivity | simpl; f_equal; apply IHn]). apply G. Qed.
Lemma allreduce_map {B} (f : nat -> B -> Qc) n (bs : list B) :
  allreduce (repeat 0%Qc n) (map (fun b => map (fun k => f k b) (seq 0 n)) bs) = map (fun k => qsum (map (f k) bs)) (seq 0 n).
Proof.
  induction bs as [|b bs IH]; [apply repeat_map_seq|]. cbn [map]. unfold allreduce in *. cbn [fold_right]. rewrite IH. apply vec_add_map.
Qed.
Lemma allreduce2_map {B} (f : nat -> nat -> B -> Qc) n n' (bs : list B) :
  allreduce2 (repeat (repeat 0%Qc n') n) (map (fun b => map (fun k => map (fun l => f k l b) (seq 0 n')) (seq 0 n)) bs) = map (fun k => map (fun l => qsum (map (f k l) bs)) (seq 0 n')) (seq 0 n).
Proof.
  induction bs as [|b bs IH].
  - cbn [map]. unfold allreduce2. cbn [fold_right]. rewrite (repeat_map_seq (repeat 0%Qc n')). apply map_ext. intros _. apply repeat_map_seq.
  - cbn [map]. unfold allreduce2 in *. cbn [fold_right]. rewrite IH. generalize (seq 0 n) as ks. induction ks as [|k ks IHk]; [reflexivity|]. cbn [map combine fst snd]. f_equal; [apply vec_add_map | exact IHk].
Qed.
Lemma marginal_1D_eq domain nbins blocks i : 
  marginal_1D domain nbins blocks i = map (fun k => qsum (map (fun e => ind (in_bin (linspace (fst (nth i domain (0%Qc, 0%Qc))) (snd (nth i domain (0%Qc, 0%Qc))) (nth i nbins 0 + 1)) k (nth i (fst e) 0%Qc)) (snd e)) (concat blocks))) (seq 0 (nth i nbins 0)).
Proof.
  unfold marginal_1D, histogram. rewrite linspace_length. replace (nth i nbins 0 + 1 - 1) with (nth i nbins 0) by lia.
  set (ed := linspace _ _ _). clearbody ed.
  rewrite (allreduce_map (fun k b => qsum (map snd (filter (fun e => in_bin ed k (fst e)) (map (fun e : list Qc * Qc => (nth i (fst e) 0%Qc, snd e)) b))))).
  apply map_ext. intro k. rewrite concat_map, qsum_concat, map_map. f_equal. apply map_ext. intro b.
  rewrite qsum_filter, map_map. reflexivity.
Qed.
Lemma marginal_2D_eq domain nbins blocks i j :
  marginal_2D domain nbins blocks i j = map (fun k => map (fun l => qsum (map (fun e => ind (in_bin (linspace (fst (nth i domain (0%Qc, 0%Qc))) (snd (nth i domain (0%Qc, 0%Qc))) (nth i nbins 0 + 1)) k (nth i (fst e) 0%Qc) && in_bin (linspace (fst (nth j domain (0%Qc, 0%Qc))) (snd (nth j domain (0%Qc, 0%Qc))) (nth j nbins 0 + 1)) l (nth j (fst e) 0%Qc)) (snd e)) (concat blocks))) (seq 0 (nth j nbins 0))) (seq 0 (nth i nbins 0)).
Proof.
  unfold marginal_2D, histogram2. rewrite !linspace_length. replace (nth i nbins 0 + 1 - 1) with (nth i nbins 0) by lia. replace (nth j nbins 0 + 1 - 1) with (nth j nbins 0) by lia.
  set (e1 := linspace _ _ (nth i nbins 0 + 1)). set (e2 := linspace _ _ (nth j nbins 0 + 1)). clearbody e1 e2.
  rewrite (allreduce2_map (fun k l b => qsum (map snd (filter (fun e => in_bin e1 k (fst (fst e)) && in_bin e2 l (snd (fst e))) (map (fun e : list Qc * Qc => ((nth i (fst e) 0%Qc, nth j (fst e) 0%Qc), snd e)) b))))).
  apply map_ext. intro k. apply map_ext. intro l. rewrite concat_map, qsum_concat, map_map. f_equal. apply map_ext. intro b.
  rewrite qsum_filter, map_map. reflexivity.
Qed.
Lemma marginal_1D_lemma : forall domain nbins blocks i, (fst (nth i domain (0, 0)) <= snd (nth i domain (0, 0)))%Qc -> 0 < nth i nbins 0 ->
  length (marginal_1D domain nbins blocks i) = nth i nbins 0 /\
  qsum (marginal_1D domain nbins blocks i) = qsum (map snd (filter (fun e => in_box1 (nth i domain (0%Qc, 0%Qc)) (nth i (fst e) 0%Qc)) (concat blocks))) /\
  marginal_1D domain nbins blocks i = marginal_1D domain nbins [concat blocks] i /\
  ((forall e, In e (concat blocks) -> (0 <= snd e)%Qc) -> forall x, In x (marginal_1D domain nbins blocks i) -> (0 <= x)%Qc).
Proof.
  intros domain nbins blocks i H Hn. split; [rewrite marginal_1D_eq, map_length, seq_length; reflexivity|]. split; [|split].
  - rewrite marginal_1D_eq, qsum_swap, qsum_filter. apply qsum_map_ext. intros e _.
    revert H. destruct (nth i domain (0%Qc, 0%Qc)) as [a b]. cbn [fst snd]. intro H. apply bins_lemma; assumption.
  - rewrite !marginal_1D_eq. cbn [concat]. rewrite app_nil_r. reflexivity.
  - intros W x Hx. rewrite marginal_1D_eq in Hx. apply in_map_iff in Hx. destruct Hx as (k & <- & _). apply qsum_nonneg. intros y Hy. apply in_map_iff in Hy. destruct Hy as (e & <- & He).
    unfold ind. destruct (in_bin _ _ _); [apply W; exact He | apply Qcle_refl].
Qed.
Lemma marginal_2D_lemma : forall domain nbins blocks i j, (fst (nth j domain (0, 0)) <= snd (nth j domain (0, 0)))%Qc -> 0 < nth j nbins 0 ->
  map qsum (marginal_2D domain nbins blocks i j) = marginal_1D domain nbins [filter (fun e => in_box1 (nth j domain (0%Qc, 0%Qc)) (nth j (fst e) 0%Qc)) (concat blocks)] i /\
  marginal_2D domain nbins blocks i j = marginal_2D domain nbins [concat blocks] i j /\
  ((forall e, In e (concat blocks) -> (0 <= snd e)%Qc) -> forall row x, In row (marginal_2D domain nbins blocks i j) -> In x row -> (0 <= x)%Qc).
Proof.
  intros domain nbins blocks i j H Hn. split; [|split].
  - rewrite marginal_2D_eq, marginal_1D_eq, map_map. cbn [concat]. rewrite app_nil_r. apply map_ext. intro k. rewrite qsum_swap, (qsum_filter (fun e : list Qc * Qc => in_box1 _ _)). apply qsum_map_ext. intros e _.
    set (B := in_bin _ k _). clearbody B. revert H. destruct (nth j domain (0%Qc, 0%Qc)) as [a b]. cbn [fst snd]. intro H. rewrite <- (bins_lemma _ _ _ _ (ind B (snd e)) H Hn). apply qsum_map_ext. intros l _. destruct B; cbn [andb]; [reflexivity|]. unfold ind. destruct (in_bin _ _ _); reflexivity.
  - rewrite !marginal_2D_eq. cbn [concat]. rewrite app_nil_r. reflexivity.
  - intros W row x Hr Hx. rewrite marginal_2D_eq in Hr. apply in_map_iff in Hr. destruct Hr as (k & <- & _). apply in_map_iff in Hx. destruct Hx as (l & <- & _).
    apply qsum_nonneg. intros y Hy. apply in_map_iff in Hy. destruct Hy as (e & <- & He). unfold ind. destruct (_ && _); [apply W; exact He | apply Qcle_refl].
Qed.

(** ** The content of every bin *)
Lemma linspace_edge ab n k : 0 < n -> k <= n -> nth k (linspace (fst ab) (snd ab) (n + 1)) 0%Qc = bin_edge ab n k.
Proof.
  intros Hn Hk. rewrite (nth_error_nth _ _ 0%Qc (linspace_nth (fst ab) (snd ab) (n + 1) k ltac:(lia))). unfold bin_edge. replace (n + 1 - 1) with n by lia. unfold Qcdiv. ring.
Qed.
Lemma in_bin_has ab n k x : k < n -> in_bin (linspace (fst ab) (snd ab) (n + 1)) k x = bin_has ab n k x.
Proof.
  intro H. unfold in_bin, bin_has. rewrite linspace_length, !linspace_edge by lia. replace (k + 1) with (S k) by lia.
  replace (k + 2 =? n + 1) with (S k =? n) by (destruct (Nat.eqb_spec (S k) n), (Nat.eqb_spec (k + 2) (n + 1)); lia || reflexivity).
  destruct (Nat.eqb_spec (S k) n) as [E|E]; [|reflexivity]. f_equal. unfold qleb. f_equal. rewrite E. rewrite <- (linspace_edge ab n n) by lia. destruct (linspace_ends (fst ab) (snd ab) n ltac:(lia)) as [_ H1]. rewrite H1. reflexivity.
Qed.
Lemma marginal_1D_bins_lemma : forall domain nbins blocks i k, k < nth i nbins 0 ->
  nth_error (marginal_1D domain nbins blocks i) k =
  Some (qsum (map snd (filter (fun e => bin_has (nth i domain (0%Qc, 0%Qc)) (nth i nbins 0) k (nth i (fst e) 0%Qc)) (concat blocks)))).
Proof.
  intros domain nbins blocks i k H. rewrite marginal_1D_eq. rewrite (map_nth_error _ k (seq 0 (nth i nbins 0)) (d := k)).
  - f_equal. rewrite qsum_filter. apply qsum_map_ext. intros e _. rewrite in_bin_has by exact H. reflexivity.
  - rewrite nth_error_nth' with (d := 0) by (rewrite seq_length; exact H). rewrite seq_nth by exact H. reflexivity.
Qed.
Lemma marginal_2D_bins_lemma : forall domain nbins blocks i j k l, k < nth i nbins 0 -> l < nth j nbins 0 ->
  exists row, nth_error (marginal_2D domain nbins blocks i j) k = Some row /\ length row = nth j nbins 0 /\
  nth_error row l = Some (qsum (map snd (filter (fun e => bin_has (nth i domain (0%Qc, 0%Qc)) (nth i nbins 0) k (nth i (fst e) 0%Qc) && bin_has (nth j domain (0%Qc, 0%Qc)) (nth j nbins 0) l (nth j (fst e) 0%Qc)) (concat blocks)))).
Proof.
  intros domain nbins blocks i j k l H H'. rewrite marginal_2D_eq.
  assert (N : forall m n, m < n -> nth_error (seq 0 n) m = Some m) by (intros m n L; rewrite nth_error_nth' with (d := 0) by (rewrite seq_length; exact L); rewrite seq_nth by exact L; reflexivity).
  eexists. split; [rewrite nth_error_map, (N _ _ H); reflexivity|]. split; [rewrite map_length, seq_length; reflexivity|].
  rewrite nth_error_map, (N _ _ H'). cbn [option_map]. f_equal. rewrite qsum_filter. apply qsum_map_ext. intros e _. rewrite !in_bin_has by assumption. reflexivity.
Qed.
