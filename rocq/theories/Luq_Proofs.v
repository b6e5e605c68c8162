From Coq Require Import ZArith List Arith Bool Lia.
From Verif Require Import Err Num NumPy Lists Layout_Proofs Inverse_Model Inverse_Spec Inverse_Proofs Luq_Model Luq_Spec.
Import ListNotations.
Local Open Scope nat_scope.
Local Open Scope err_scope.

Lemma gathered_1 {A} (l : list A) : gathered 1 l = l.
Proof. unfold gathered. cbn [repeat concat]. apply app_nil_r. Qed.
Lemma gathered_length {A} P (l : list A) : length (gathered P l) = P * length l.
Proof. unfold gathered. induction P as [|P IH]; [reflexivity|]. cbn [repeat concat]. rewrite app_length, IH. reflexivity. Qed.
Lemma labels_iff_lemma V P b (l : luq V) : fst (make_disc_regions P b l) = predict_labels l <-> P = 1 \/ predict_labels l = [].
Proof.
  cbn [make_disc_regions fst]. split.
  - intro H. pose proof (gathered_length P (predict_labels l)) as L. rewrite H in L. destruct (predict_labels l) as [|x r]; [right; reflexivity|]. left. cbn [length] in L. nia.
  - intros [->| ->]; [apply gathered_1|]. unfold gathered. induction P as [|P IH]; [reflexivity | exact IH].
Qed.
Lemma count_gathered P l i : count_label (gathered P l) i = P * count_label l i.
Proof.
  unfold gathered, count_label. induction P as [|P IH]; [reflexivity|]. cbn [repeat concat]. rewrite filter_app, app_length, IH. reflexivity.
Qed.

Lemma step_loop_ok {V R} (zero : R) maps omaps regions oregions (ratio : nat -> V -> R) n : n <= length maps ->
  2 <= length maps -> 2 <= length omaps -> (forall i m, nth_error maps i = Some m -> length m = length (pointer regions i)) ->
  exists w rs ptrs, fold_result (invert_step (Some maps) (Some omaps) [] regions oregions ratio) (seq 0 n) (repeat zero (length regions), [], []) = Ok (w, rs, ptrs) /\ length w = length regions.
Proof.
  intros Hn H1 H2 H3. induction n as [|n IH].
  - exists (repeat zero (length regions)), [], []. split; [reflexivity | apply repeat_length].
  - rewrite seq_S, fold_result_app. destruct IH as (w & rs & ptrs & -> & Lw); [lia|]. cbn [bind plus fold_result]. unfold invert_step.
    destruct (nth_error maps n) as [m|] eqn:Em; [|apply nth_error_None in Em; lia]. cbn [bind].
    destruct (0 <? length (pointer regions n)) eqn:Z; [|do 3 eexists; split; [reflexivity | exact Lw]].
    unfold has_kde. replace (1 <? length omaps) with true by (symmetry; apply Nat.ltb_lt; lia). replace (1 <? length maps) with true by (symmetry; apply Nat.ltb_lt; lia). cbn [andb].
    destruct (scatter_some (pointer regions n) (map (ratio n) m) w) as [w' E].
    + rewrite map_length. apply H3, Em.
    + intros k I. rewrite Lw. eapply pointer_lt, I.
    + rewrite E. cbn [bind]. do 3 eexists. split; [reflexivity|]. destruct (scatter_spec _ _ _ _ (sorted_NoDup _ (proj1 (pointer_positions regions n))) E) as (L & _). congruence.
Qed.
Lemma step_values {V R} maps omaps (v1 v2 : list V) regions oregions (ratio : nat -> V -> R) l st :
  fold_result (invert_step (Some maps) omaps v1 regions oregions ratio) l st = fold_result (invert_step (Some maps) omaps v2 regions oregions ratio) l st.
Proof. reflexivity. Qed.
Lemma total_count labels c : (forall z, In z labels -> (0 <= z < Z.of_nat c)%Z) -> list_sum (map (count_label labels) (seq 0 c)) = length labels.
Proof.
  intro H. induction labels as [|z labels IH].
  - clear. induction c as [|c IH]; [reflexivity|]. rewrite seq_S, map_app. unfold list_sum in *. rewrite fold_right_app. cbn. exact IH.
  - transitivity (list_sum (map (count_label labels) (seq 0 c)) + list_sum (map (fun i => if (Z.of_nat i =? z)%Z then 1 else 0) (seq 0 c))).
    + clear. induction (seq 0 c) as [|i l IH]; [reflexivity|]. cbn [map]. change (list_sum (?a :: ?b)) with (a + list_sum b) in *.
      unfold list_sum in *. cbn [fold_right]. rewrite IH. replace (count_label (z :: labels) i) with (count_label labels i + if (Z.of_nat i =? z)%Z then 1 else 0); [lia|]. unfold count_label. cbn [filter]. destruct (Z.eqb_spec (Z.of_nat i) z); cbn [length]; lia.
    + rewrite IH by (intros; apply H; right; assumption). cbn [length]. assert (0 <= z < Z.of_nat c)%Z as B by (apply H; left; reflexivity).
      assert (forall a n, list_sum (map (fun i => if (Z.of_nat i =? z)%Z then 1 else 0) (seq a n)) = if ((Z.of_nat a <=? z) && (z <? Z.of_nat (a + n)))%Z then 1 else 0) as K.
      { clear. intros a n. revert a. induction n as [|n IH]; intro a.
        - cbn [seq map]. rewrite Nat.add_0_r. destruct (Z.leb_spec (Z.of_nat a) z), (Z.ltb_spec z (Z.of_nat a)); cbn; lia.
        - cbn [seq map]. unfold list_sum in *. cbn [fold_right]. rewrite IH. destruct (Z.eqb_spec (Z.of_nat a) z);
          destruct (Z.leb_spec (Z.of_nat (S a)) z), (Z.ltb_spec z (Z.of_nat (S a + n))), (Z.leb_spec (Z.of_nat a) z), (Z.ltb_spec z (Z.of_nat (a + S n))); cbn; lia. }
      rewrite K. cbn [Z.of_nat plus]. destruct (Z.leb_spec 0 z), (Z.ltb_spec z (Z.of_nat c)); cbn; lia.
Qed.
Lemma length_concat {A} (l : list (list A)) : length (concat l) = list_sum (map (@length A) l).
Proof. induction l as [|x l IH]; [reflexivity|]. cbn [concat map]. rewrite app_length, IH. reflexivity. Qed.
Lemma map_seq_nth {A B} (f : A -> B) (g : nat -> B) l : (forall i x, nth_error l i = Some x -> f x = g i) -> map f l = map g (seq 0 (length l)).
Proof.
  intro H. apply nth_error_ext. intro i. rewrite !nth_error_map, nth_error_seq. destruct (Nat.ltb_spec i (length l)) as [L|L].
  - destruct (nth_error l i) as [x|] eqn:E; [|apply nth_error_None in E; lia]. cbn. f_equal. apply H, E.
  - rewrite (proj2 (nth_error_None l i) L). reflexivity.
Qed.
Lemma one_process_lemma : forall V R (zero : R) (l : luq V) ratio, learned l ->
  exists w rs ptrs, luq_invert zero 1 true l ratio = Ok (w, rs, ptrs) /\ length w = length (predict_labels l) /\
    forall k i v, transformed l k i v -> nth_error w k = Some (ratio i v).
Proof.
  intros V R zero l ratio (C1 & C2' & Z & M & _). unfold luq_invert, make_disc_regions. cbn [regions_used]. rewrite !gathered_1.
  destruct (step_loop_ok zero (predict_maps l) (obs_maps l) (predict_labels l) (obs_labels l) ratio (length (predict_maps l))) as (w & rs & ptrs & E & L); [lia | exact C1 | lia | |].
  - intros i m Hm. rewrite pointer_length. apply M, Hm.
  - exists w, rs, ptrs. split; [exact E|]. split; [exact L|]. intros k i v (Hk & ptr & p & m & Hp & Hpk & Hm & Hv).
    set (vals := concat (predict_maps l)).
    assert (length (predict_labels l) = length vals) as LV.
    { unfold vals. rewrite length_concat, <- (total_count _ _ Z). f_equal. symmetry. apply map_seq_nth. intros j x Hx. apply M, Hx. }
    assert (invert zero (Some (predict_maps l)) (Some (obs_maps l)) vals (predict_labels l) (obs_labels l) ratio = Ok (w, rs, ptrs)) as I.
    { unfold invert. cbn [num_clusters bind]. rewrite <- LV. exact E. }
    destruct (invert_maps_lemma V R zero _ _ _ _ _ _ _ _ _ LV I) as (_ & _ & W & _). destruct (W i m ptr p k Hm Hp Hpk) as [-> _]. rewrite Hv. reflexivity.
Qed.
(** every sample has transformed data *)
Lemma transformed_total V (l : luq V) : learned l -> forall k, k < length (predict_labels l) -> exists i v, transformed l k i v.
Proof.
  intros (C1 & C2' & Z & M & _) k Hk. destruct (nth_error (predict_labels l) k) as [z|] eqn:E; [|apply nth_error_None in E; lia].
  pose proof (Z z (nth_error_In _ _ E)) as B. exists (Z.to_nat z).
  destruct (nth_error (predict_maps l) (Z.to_nat z)) as [m|] eqn:Em; [|apply nth_error_None in Em; lia].
  assert (In k (pointer (predict_labels l) (Z.to_nat z))) as I by (apply (pointer_positions (predict_labels l) (Z.to_nat z)); rewrite E; f_equal; lia).
  apply In_nth_error in I. destruct I as [p Hp]. assert (p < length m) as Lp.
  { rewrite (proj1 (M _ _ Em)), <- pointer_length. apply nth_error_Some. rewrite Hp. discriminate. }
  destruct (nth_error m p) as [v|] eqn:Ev; [|apply nth_error_None in Ev; lia]. exists v. split; [rewrite E; f_equal; lia|].
  exists (pointer (predict_labels l) (Z.to_nat z)), p, m. split; [apply pointer_positions|]. split; [exact Hp|]. split; [exact Em | exact Ev].
Qed.
Lemma first_bad {V R} maps omaps regions oregions (ratio : nat -> V -> R) is_ : 2 <= length maps -> 2 <= length omaps ->
  (forall i, In i is_ -> i < length maps) ->
  (forall i m, nth_error maps i = Some m -> length (pointer regions i) = 0 \/ length m <> length (pointer regions i)) ->
  (exists i, In i is_ /\ length (pointer regions i) <> 0) -> forall st,
  fold_result (invert_step (Some maps) (Some omaps) [] regions oregions ratio) is_ st = Raise PyValueError.
Proof.
  intros H1 H2 HL HM. induction is_ as [|j is_ IH]; intros (i & I & N) st; [contradiction|]. cbn [fold_result]. destruct st as ((w, rs), ptrs). unfold invert_step at 1.
  destruct (nth_error maps j) as [m|] eqn:Em; [|apply nth_error_None in Em; specialize (HL j (or_introl eq_refl)); lia]. cbn [bind].
  destruct (Nat.ltb_spec 0 (length (pointer regions j))) as [Z|Z].
  - unfold has_kde. replace (1 <? length omaps) with true by (symmetry; apply Nat.ltb_lt; lia). replace (1 <? length maps) with true by (symmetry; apply Nat.ltb_lt; lia). cbn [andb].
    destruct (scatter w (pointer regions j) (map (ratio j) m)) as [w'|] eqn:S_; [|reflexivity]. apply scatter_len in S_. rewrite map_length in S_. destruct (HM j m Em); lia.
  - cbn [bind]. apply IH.
    + intros x Hx. apply HL. right. exact Hx.
    + destruct I as [->|I]; [lia|]. exists i. split; assumption.
Qed.
Lemma many_processes_lemma : forall V R (zero : R) P (l : luq V) ratio, learned l -> 2 <= P ->
  luq_invert zero P true l ratio = Raise PyValueError.
Proof.
  intros V R zero P l ratio (C1 & C2' & Z & M & _) HP. unfold luq_invert. cbn [make_disc_regions regions_used]. apply first_bad.
  - exact C1.
  - lia.
  - intros i I. apply in_seq in I. lia.
  - intros i m Hm. rewrite pointer_length, count_gathered. destruct (M i m Hm) as [L _]. nia.
  - exists 0. split; [apply in_seq; lia|]. rewrite pointer_length, count_gathered. destruct (nth_error (predict_maps l) 0) as [m|] eqn:E; [|apply nth_error_None in E; lia]. destruct (M _ _ E). nia.
Qed.
Lemma count_zeros n : count_label (repeat 0%Z n) 0 = n.
Proof. unfold count_label. induction n as [|n IH]; [reflexivity|]. cbn. f_equal. exact IH. Qed.
Lemma count_le l i j : i <> j -> count_label l i + count_label l j <= length l.
Proof.
  intro N. unfold count_label. induction l as [|z l IH]; [cbn; lia|]. cbn [filter]. destruct (Z.eqb_spec (Z.of_nat i) z), (Z.eqb_spec (Z.of_nat j) z); cbn [length]; lia.
Qed.
Lemma count_zeros_S n i : count_label (repeat 0%Z n) (S i) = 0.
Proof. pose proof (count_le (repeat 0%Z n) 0 (S i)) as H. rewrite count_zeros, repeat_length in H. lia. Qed.
Lemma no_obs_lemma : forall V R (zero : R) P (l : luq V) ratio, learned l -> 1 <= P -> luq_invert zero P false l ratio = Raise PyValueError.
Proof.
  intros V R zero P l ratio (C1 & C2 & Z & M & _) HP. unfold luq_invert. cbn [make_disc_regions regions_used]. rewrite gathered_length.
  assert (2 + length (nth 0 (predict_maps l) []) <= length (predict_labels l) /\ 2 <= length (predict_labels l)) as B.
  { destruct (nth_error (predict_maps l) 0) as [m|] eqn:E; [|apply nth_error_None in E; lia]. destruct (nth_error (predict_maps l) 1) as [m'|] eqn:E'; [|apply nth_error_None in E'; lia].
    rewrite (nth_error_nth _ _ [] E). destruct (M _ _ E), (M _ _ E'). pose proof (count_le (predict_labels l) 0 1). lia. }
  apply first_bad.
  - exact C1.
  - lia.
  - intros i I. apply in_seq in I. lia.
  - intros [|i] m Hm; rewrite pointer_length.
    + right. rewrite count_zeros. rewrite (nth_error_nth _ _ [] Hm) in B. nia.
    + left. apply count_zeros_S.
  - exists 0. split; [apply in_seq; lia|]. rewrite pointer_length, count_zeros. nia.
Qed.
