From Coq Require Import ZArith List Arith Lia Bool Sorting.Sorted QArith Qcanon Qround Permutation.
From Verif Require Import Err Num Ext NumPy Lists Query_Proofs Layout_Proofs Volume_Proofs Error_Proofs Inverse_Model Inverse_Spec Inverse_Proofs.
Import ListNotations.
Local Open Scope nat_scope.

(** ** Rejection sampling *)
Lemma qlist_max_is_max l : l <> [] -> is_max l (qlist_max l).
Proof.
  intro N. destruct l as [|x r]; [congruence|]. cbn [qlist_max].
  assert (G : forall r x, In (fold_left qmax r x) (x :: r) /\ forall y, In y (x :: r) -> (y <= fold_left qmax r x)%Qc).
  { clear. induction r as [|a r IH]; intro x; cbn [fold_left].
    - split; [left; reflexivity|]. intros y [<-|[]]. apply Qcle_refl.
    - destruct (IH (qmax x a)) as [H1 H2]. split.
      + destruct H1 as [H1|H1]; [|right; right; exact H1]. rewrite <- H1. destruct (qmax_cases x a) as [->| ->]; simpl; auto.
      + intros y [<-|[<-|Hy]].
        * eapply Qcle_trans; [apply qmax_ge_l | apply H2; left; reflexivity].
        * eapply Qcle_trans; [apply qmax_ge_r | apply H2; left; reflexivity].
        * apply H2. right. exact Hy. }
  apply G.
Qed.
Lemma qlist_min_le l x : In x l -> (qlist_min l <= x)%Qc.
Proof.
  intro H. destruct l as [|y r]; [contradiction|]. cbn [qlist_min].
  assert (G : forall r x y, In y (x :: r) -> (fold_left qmin r x <= y)%Qc).
  { clear. induction r as [|a r IH]; intros x y H; cbn [fold_left].
    - destruct H as [<-|[]]. apply Qcle_refl.
    - destruct H as [<-|[<-|Hy]].
      + eapply Qcle_trans; [apply IH; left; reflexivity | apply qmin_le_l].
      + eapply Qcle_trans; [apply IH; left; reflexivity | apply qmin_le_r].
      + apply IH. right. exact Hy. }
  apply G, H.
Qed.
Lemma is_max_unique l m n : is_max l m -> is_max l n -> m = n.
Proof. intros [A B] [C D]. apply Qcle_antisym; auto. Qed.

Lemma kept_iff d x m : (0 < m)%Qc -> xleb (Fin d) (xdivq x m) = true <-> (d * m <= x)%Qc.
Proof.
  intro H. rewrite xdivq_fin by (apply Qclt_neq0, H). simpl. rewrite qleb_true. split; intro G.
  - rewrite <- (qc_div_mul x m) by (apply Qclt_neq0, H). apply Qcmult_le_compat_r; [exact G | apply Qclt_le_weak, H].
  - apply qc_le_div; assumption.
Qed.

Lemma rejection_loop_ok rr pt draws a n : (forall i, a <= i < a + n -> rr i <> []) ->
  rejection_loop (map (fun i => Some (rr i)) (seq a n)) (map pt (seq a n)) draws a =
  Ok (flat_map (fun i => chosen (pt i) (accepted (rr i) (draws i))) (seq a n)).
Proof.
  revert a; induction n as [|n IH]; intros a H; [reflexivity|]. cbn [seq map rejection_loop flat_map].
  destruct (Nat.eqb_spec (length (rr a)) 0) as [E|E]; [apply length_zero_iff_nil in E; exfalso; apply (H a); [lia | exact E]|].
  rewrite IH by (intros; apply H; lia). reflexivity.
Qed.
Lemma rejection_loop_none rs ptrs draws a : In None rs -> (forall r, In (Some r) rs -> r <> []) -> length ptrs = length rs ->
  rejection_loop rs ptrs draws a = Raise PyAttributeError.
Proof.
  revert ptrs a; induction rs as [|r rs IH]; intros ptrs a H1 H2 H3; [contradiction|]. destruct ptrs as [|p ptrs]; [discriminate|].
  cbn [rejection_loop]. destruct r as [r|]; [|reflexivity].
  destruct (Nat.eqb_spec (length r) 0) as [E|E]; [apply length_zero_iff_nil in E; exfalso; apply (H2 r); [left; reflexivity | exact E]|].
  rewrite IH; [reflexivity | destruct H1 as [H1|H1]; [discriminate|exact H1] | intros; apply H2; right; assumption | simpl in H3; lia].
Qed.

Lemma in_chosen ptr r ds k : In k (chosen ptr (accepted r ds)) <->
  exists p x d, nth_error ptr p = Some k /\ nth_error r p = Some x /\ nth_error ds p = Some d /\ xleb (Fin d) (xdivq x (qlist_max r)) = true.
Proof.
  unfold chosen. rewrite in_map_iff. split.
  - intros ((k' & b) & E & H). simpl in E. subst k'. apply filter_In in H. destruct H as [H Hb]. simpl in Hb. subst b.
    apply In_nth_error in H. destruct H as [p Hp]. rewrite nth_error_combine in Hp. unfold accepted in Hp. rewrite nth_error_map, nth_error_combine in Hp.
    destruct (nth_error ptr p) eqn:E1; [|discriminate]. destruct (nth_error r p) eqn:E2; [|discriminate]. destruct (nth_error ds p) eqn:E3; [|discriminate].
    simpl in Hp. injection Hp as -> Hp. eauto 10.
  - intros (p & x & d & E1 & E2 & E3 & E4). exists (k, true). split; [reflexivity|]. apply filter_In. split; [|reflexivity].
    apply (nth_error_In _ p). rewrite nth_error_combine. unfold accepted. rewrite nth_error_map, nth_error_combine, E1, E2, E3. cbn -[xleb xdivq]. rewrite E4. reflexivity.
Qed.
Lemma NoDup_map_fst_filter {A B} (l : list A) (m : list B) p : NoDup l -> NoDup (map fst (filter p (combine l m))).
Proof.
  revert m; induction l as [|x l IH]; intros [|y m] H; simpl; try constructor. inversion_clear H as [|? ? H1 H2].
  destruct (p (x, y)); [|auto]. simpl. constructor; [|auto]. intro Hin. apply in_map_iff in Hin. destruct Hin as ((a & b) & E & Hin). simpl in E. subst a.
  apply filter_In in Hin. apply H1. apply (in_combine_l _ _ _ _ (proj1 Hin)).
Qed.

Section Rejection.
Context {V : Type} (values : list V) (regions oregions : list Z) (ratio : nat -> V -> Qc).
Hypothesis Lv : length regions = length values.
Definition cluster_values (i : nat) : list V := match take_idx values (pointer regions i) with Some v => v | None => [] end.

Lemma cluster_values_eq i : take_idx values (pointer regions i) = Some (cluster_values i).
Proof.
  unfold cluster_values. destruct (take_idx_some values (pointer regions i)) as [vs E]; [|rewrite E; reflexivity].
  intros k Hk. rewrite <- Lv. eapply pointer_lt, Hk.
Qed.
Lemma cluster_values_nth i p k : nth_error (pointer regions i) p = Some k -> nth_error (cluster_values i) p = nth_error values k.
Proof. apply (proj2 (take_idx_nth _ _ _ (cluster_values_eq i))). Qed.
Lemma cluster_values_length i : length (cluster_values i) = length (pointer regions i).
Proof. apply (proj1 (take_idx_nth _ _ _ (cluster_values_eq i))). Qed.

(** What invert hands to the loop. *)
Lemma invert_shape w rs ptrs : invert 0%Qc None None values regions oregions ratio = Ok (w, rs, ptrs) ->
  exists c, clusters regions c /\ ptrs = map (pointer regions) (seq 0 c) /\
  rs = map (fun i => if length (pointer regions i) =? 0 then None else Some (map (ratio i) (cluster_values i))) (seq 0 c).
Proof.
  intro H. assert (N : regions <> []) by (intros ->; discriminate H). unfold invert in H.
  destruct (num_clusters_spec (V := V) regions N) as (c & Ec & Cc). rewrite Ec in H. simpl in H.
  apply invert_fold in H. destruct H as [I1 I2 I3 I4 I5]. simpl in I1, I2, I3, I4, I5. exists c. split; [exact Cc|]. split; [exact I2|].
  apply nth_error_ext. intro i. rewrite nth_error_map, nth_error_seq. destruct (Nat.ltb_spec i c) as [Hi|Hi]; simpl.
  - destruct (I4 i Hi) as (vs & A1 & A2 & _). unfold points_of in A1. rewrite cluster_values_eq in A1. injection A1 as <-. exact A2.
  - apply nth_error_None. lia.
Qed.

Context (dim : nat) (inputs : list (list Qc)) (draws : nat -> list Qc).
Hypothesis Li : length inputs = length values.
Hypothesis Ne : regions <> [].
Hypothesis Full : forall i c, clusters regions c -> i < c -> 2 <= count_label regions i /\ 2 <= count_label oregions i.
Hypothesis Rn : forall i v, (0 <= ratio i v)%Qc.
Hypothesis Rp : forall i c, clusters regions c -> i < c -> exists k v, nth_error regions k = Some (Z.of_nat i) /\ nth_error values k = Some v /\ (0 < ratio i v)%Qc.
Hypothesis Dl : forall i, length (draws i) = count_label regions i.
Hypothesis Dr : forall i d, In d (draws i) -> (0 <= d /\ d < 1)%Qc.

Lemma max_ratio i : length (pointer regions i) <> 0 -> cluster_max values regions ratio i (qlist_max (map (ratio i) (cluster_values i))).
Proof.
  intro N. destruct (qlist_max_is_max (map (ratio i) (cluster_values i))) as [M1 M2].
  { intro E. apply map_eq_nil in E. apply N. rewrite <- cluster_values_length, E. reflexivity. }
  split.
  - apply in_map_iff in M1. destruct M1 as (v & E & Hv). apply In_nth_error in Hv. destruct Hv as [p Hp].
    destruct (nth_error (pointer regions i) p) as [k|] eqn:Ek.
    + exists k, v. rewrite <- (cluster_values_nth _ _ _ Ek). split; [apply (pointer_positions regions i), (nth_error_In _ _ Ek)|]. auto.
    + apply nth_error_None in Ek. rewrite <- cluster_values_length in Ek. apply nth_error_None in Ek. congruence.
  - intros k v Hk Hv. apply M2. apply in_map. apply (pointer_positions regions i) in Hk. apply In_nth_error in Hk. destruct Hk as [p Hp].
    apply (nth_error_In _ p). rewrite (cluster_values_nth _ _ _ Hp). exact Hv.
Qed.
Lemma cluster_max_unique i m n : cluster_max values regions ratio i m -> cluster_max values regions ratio i n -> m = n.
Proof.
  intros [(k & v & A1 & A2 & ->) B] [(k' & v' & C1 & C2 & ->) D]. apply Qcle_antisym; [apply (D k v A1 A2) | apply (B k' v' C1 C2)].
Qed.

Lemma clusters_full c i : clusters regions c -> (i < c <-> count_label regions i <> 0).
Proof.
  intro Hc. split; intro H; [destruct (Full i c Hc H); lia|].
  rewrite <- pointer_length in H. destruct (pointer regions i) as [|k q] eqn:E; [simpl in H; congruence|].
  assert (Hin : In k (pointer regions i)) by (rewrite E; left; reflexivity). apply (pointer_positions regions i) in Hin.
  apply nth_error_In in Hin. apply (proj1 Hc) in Hin. lia.
Qed.

Lemma rejection_lemma : (exists l, In l regions /\ (0 <= l)%Z) ->
  exists res kept, invert_rejection_sampling dim inputs None None values regions oregions ratio draws = Ok res /\
  kept <> [] /\ NoDup kept /\
  (** the returned samples are the kept input rows *)
  length (res_values res) = length kept /\
  (forall j k, nth_error kept j = Some k -> nth_error (res_values res) j = nth_error inputs k /\ k < length inputs) /\
  (** which are kept *)
  (forall k, In k kept <-> exists i v m d, nth_error regions k = Some (Z.of_nat i) /\ nth_error values k = Some v /\
     cluster_max values regions ratio i m /\ drawn_for regions draws k d /\ (d * m <= ratio i v)%Qc) /\
  (forall k i v, nth_error regions k = Some (Z.of_nat i) -> nth_error values k = Some v -> cluster_max values regions ratio i (ratio i v) -> In k kept) /\
  (forall k i v d, In k kept -> nth_error regions k = Some (Z.of_nat i) -> nth_error values k = Some v -> ratio i v = 0%Qc ->
     drawn_for regions draws k d -> d = 0%Qc) /\
  (** probabilities and domain *)
  res_probs res = repeat (1 / qn (length kept))%Qc (length kept) /\ qsum (res_probs res) = 1%Qc /\
  length (res_domain res) = dim /\
  (forall j row a b, In row (res_values res) -> nth_error (res_domain res) j = Some (a, b) -> (a <= nth j row 0 /\ nth j row 0 <= b)%Qc).
Proof.
  intros (l0 & Hl0 & Pl0).
  destruct (proj2 (invert_succeeds_lemma V Qc 0%Qc values regions oregions ratio Lv)) as [((w, rs), ptrs) Einv].
  { split; [exact Ne|]. intro i. destruct (Nat.eq_dec (count_label regions i) 0) as [E|E]; [left; exact E|right].
    destruct (num_clusters_spec (V := V) regions Ne) as (c & _ & Cc). apply (Full i c Cc). apply (clusters_full c i Cc). exact E. }
  destruct (invert_shape _ _ _ Einv) as (c & Cc & Ep & Er). subst rs ptrs.
  assert (NZ : forall i, i < c -> length (pointer regions i) <> 0) by (intros i Hi; rewrite pointer_length; destruct (Full i c Cc Hi); lia).
  rewrite (map_ext_in _ (fun i => Some (map (ratio i) (cluster_values i)))) in Einv.
  2:{ intros i Hi. apply in_seq in Hi. destruct (Nat.eqb_spec (length (pointer regions i)) 0) as [E|E]; [exfalso; apply (NZ i); [lia|exact E] | reflexivity]. }
  set (sel := fun i => chosen (pointer regions i) (accepted (map (ratio i) (cluster_values i)) (draws i))).
  set (kept := flat_map sel (seq 0 c)).
  assert (Loop : rejection_loop (map (fun i => Some (map (ratio i) (cluster_values i))) (seq 0 c)) (map (pointer regions) (seq 0 c)) draws 0 = Ok kept).
  { apply rejection_loop_ok. intros i Hi E. apply map_eq_nil in E. apply (NZ i); [lia|]. rewrite <- cluster_values_length, E. reflexivity. }
  assert (Mpos : forall i, i < c -> (0 < qlist_max (map (ratio i) (cluster_values i)))%Qc).
  { intros i Hi. destruct (Rp i c Cc Hi) as (k & v & A & B & C). eapply Qclt_le_trans; [exact C|]. apply (max_ratio i (NZ i Hi)) with (k := k); assumption. }
  assert (Kiff : forall k, In k kept <-> exists i v m d, nth_error regions k = Some (Z.of_nat i) /\ nth_error values k = Some v /\
     cluster_max values regions ratio i m /\ drawn_for regions draws k d /\ (d * m <= ratio i v)%Qc).
  { intro k. unfold kept. rewrite in_flat_map. split.
    - intros (i & Hi & H). apply in_seq in Hi. apply in_chosen in H. destruct H as (p & x & d & A1 & A2 & A3 & A4).
      apply kept_iff in A4; [|apply Mpos; lia]. rewrite nth_error_map, (cluster_values_nth _ _ _ A1) in A2.
      destruct (nth_error values k) as [v|] eqn:Ev; [|discriminate]. simpl in A2. injection A2 as <-.
      exists i, v, (qlist_max (map (ratio i) (cluster_values i))), d. split; [apply (pointer_positions regions i), (nth_error_In _ _ A1)|].
      split; [reflexivity|]. split; [apply max_ratio, NZ; lia|]. split; [|exact A4]. exists i, (pointer regions i), p. split; [apply pointer_positions|]. auto.
    - intros (i & v & m & d & B1 & B2 & B3 & (i' & ptr & p & P1 & P2 & P3) & B5).
      assert (i' = i). { apply nth_error_In in P2. apply P1 in P2. rewrite P2 in B1. injection B1. lia. } subst i'.
      rewrite (positions_unique _ _ _ _ P1 (pointer_positions regions i)) in *.
      assert (Hi : i < c). { apply nth_error_In in B1. apply (proj1 Cc) in B1. lia. }
      exists i. split; [apply in_seq; lia|]. apply in_chosen. exists p, (ratio i v), d. split; [exact P2|]. split.
      + rewrite nth_error_map, (cluster_values_nth _ _ _ P2), B2. reflexivity.
      + split; [exact P3|]. apply kept_iff; [apply Mpos, Hi|]. rewrite (cluster_max_unique _ _ _ (max_ratio i (NZ i Hi)) B3). exact B5. }
  assert (Draw : forall k i, nth_error regions k = Some (Z.of_nat i) -> exists d, drawn_for regions draws k d /\ (0 <= d)%Qc /\ (d < 1)%Qc).
  { intros k i Hk. apply (pointer_positions regions i) in Hk. apply In_nth_error in Hk. destruct Hk as [p Hp].
    destruct (nth_error (draws i) p) as [d|] eqn:Ed.
    - exists d. split; [exists i, (pointer regions i), p; split; [apply pointer_positions|]; auto|]. apply (Dr i), (nth_error_In _ _ Ed).
    - exfalso. apply nth_error_None in Ed. rewrite Dl, <- pointer_length in Ed. apply nth_error_None in Ed. congruence. }
  assert (Kmax : forall k i v, nth_error regions k = Some (Z.of_nat i) -> nth_error values k = Some v -> cluster_max values regions ratio i (ratio i v) -> In k kept).
  { intros k i v H1 H2 H3. apply Kiff. destruct (Draw k i H1) as (d & D1 & D2 & D3). exists i, v, (ratio i v), d.
    split; [exact H1|]. split; [exact H2|]. split; [exact H3|]. split; [exact D1|].
    rewrite <- (Qcmult_1_l (ratio i v)) at 2. apply Qcmult_le_compat_r; [apply Qclt_le_weak, D3 | apply Rn]. }
  assert (Kz : forall k i v d, In k kept -> nth_error regions k = Some (Z.of_nat i) -> nth_error values k = Some v -> ratio i v = 0%Qc ->
     drawn_for regions draws k d -> d = 0%Qc).
  { intros k i v d Hk H1 H2 H3 (i' & ptr & p & P1 & P2 & P3). apply Kiff in Hk. destruct Hk as (i2 & v2 & m & d2 & B1 & B2 & B3 & (i3 & ptr3 & p3 & Q1 & Q2 & Q3) & B5).
    assert (i' = i). { apply nth_error_In in P2. apply P1 in P2. rewrite P2 in H1. injection H1. lia. } subst i'.
    assert (i2 = i) by (rewrite B1 in H1; injection H1; lia). subst i2.
    assert (i3 = i). { apply nth_error_In in Q2. apply Q1 in Q2. rewrite Q2 in H1. injection H1. lia. } subst i3.
    rewrite (positions_unique _ _ _ _ Q1 P1) in *. assert (v2 = v) by congruence. subst v2.
    assert (p3 = p). { apply (proj1 (NoDup_nth_error ptr) (sorted_NoDup _ (proj1 P1))); [apply nth_error_Some; rewrite Q2; discriminate | congruence]. } subst p3.
    assert (d2 = d) by congruence. subst d2.
    assert (Hi : i < c). { apply nth_error_In in B1. apply (proj1 Cc) in B1. lia. }
    rewrite (cluster_max_unique _ _ _ B3 (max_ratio i (NZ i Hi))) in B5. specialize (Mpos i Hi). rewrite H3 in B5.
    assert (0 <= d)%Qc by (apply (Dr i d), (nth_error_In _ _ P3)).
    apply Qcle_antisym; [|assumption]. apply Qcnot_lt_le. intro Hd. pose proof (qc_mul_pos _ _ Hd Mpos) as Q. apply (Qclt_not_le _ _ Q), B5. }
  assert (Kne : kept <> []).
  { assert (Hl0c : (l0 < Z.of_nat c)%Z) by (apply (proj1 Cc), Hl0). assert (Hi : Z.to_nat l0 < c) by lia.
    destruct (max_ratio _ (NZ _ Hi)) as [(k & v & A & B & C) D]. assert (Hin : In k kept).
    { apply (Kmax k (Z.to_nat l0) v A B). split; [exists k, v; auto|]. rewrite <- C. exact D. }
    intro E. rewrite E in Hin. contradiction. }
  assert (Knd : NoDup kept).
  { unfold kept. apply NoDup_flat_map.
    - apply seq_NoDup.
    - intros i _. apply NoDup_map_fst_filter, sorted_NoDup, (pointer_positions regions i).
    - intros i j k _ _ H1 H2. apply in_chosen in H1, H2. destruct H1 as (p & _ & _ & H1 & _). destruct H2 as (q & _ & _ & H2 & _).
      apply nth_error_In in H1, H2. apply (pointer_positions regions) in H1, H2. rewrite H1 in H2. injection H2. lia. }
  assert (Kb : forall k, In k kept -> k < length inputs).
  { intros k Hk. apply Kiff in Hk. destruct Hk as (i & v & m & d & H1 & H2 & _). rewrite Li. apply nth_error_Some. rewrite H2. discriminate. }
  destruct (take_idx_some inputs kept Kb) as [vals Ev]. destruct (take_idx_nth _ _ _ Ev) as [Lval Nval].
  exists (mk_res vals (repeat (1 / qn (length vals))%Qc (length vals)) (map (fun j => (qlist_min (column j vals), qlist_max (column j vals))) (seq 0 dim))), kept.
  assert (Lk : length vals <> 0) by (rewrite Lval; intro E; apply length_zero_iff_nil in E; contradiction).
  split.
  { unfold invert_rejection_sampling. rewrite Einv. cbn [bind]. unfold rejection_sampling. rewrite Loop. cbn [bind]. rewrite Ev.
    destruct (Nat.eqb_spec (length vals) 0); [contradiction | reflexivity]. }
  split; [exact Kne|]. split; [exact Knd|]. split; [exact Lval|]. split.
  { intros j k Hj. split; [apply Nval, Hj | apply Kb, (nth_error_In _ _ Hj)]. }
  split; [exact Kiff|]. split; [exact Kmax|]. split; [exact Kz|]. simpl. rewrite <- Lval. split; [reflexivity|]. split.
  { assert (G : forall x n, qsum (repeat x n) = (qn n * x)%Qc).
    { clear. intros x n. induction n as [|n IH]; cbn [repeat qsum]; [rewrite qn_0; ring | rewrite IH, qn_S; ring]. }
    rewrite G. field. apply qn_neq0. lia. }
  split; [rewrite map_length, seq_length; reflexivity|].
  intros j row a b Hrow Hj. apply nth_error_map_seq in Hj. destruct Hj as [Hj Eab]. injection Eab as -> ->.
  assert (Hc : In (nth j row 0%Qc) (column j vals)) by (unfold column; apply (in_map (fun r => nth j r 0%Qc)), Hrow).
  split; [apply qlist_min_le, Hc|]. apply (qlist_max_is_max (column j vals)); [intro E; rewrite E in Hc; contradiction | exact Hc].
Qed.
End Rejection.

(** Empty cluster: AttributeError. *)
Lemma rejection_empty_lemma : forall (V : Type) dim inputs (values : list V) regions oregions ratio draws c i,
  length regions = length values ->
  (exists out, invert 0%Qc None None values regions oregions ratio = Ok out) ->
  clusters regions c -> i < c -> count_label regions i = 0 ->
  invert_rejection_sampling dim inputs None None values regions oregions ratio draws = Raise PyAttributeError.
Proof.
  intros V dim inputs values regions oregions ratio draws c i Lv [((w, rs), ptrs) H] Cc Hi E.
  assert (N : regions <> []) by (intros ->; discriminate H).
  unfold invert_rejection_sampling. rewrite H. cbn [bind]. unfold rejection_sampling.
  destruct (invert_shape values regions oregions ratio Lv _ _ _ H) as (c' & Cc' & -> & ->). rewrite (clusters_unique _ _ _ N Cc' Cc).
  rewrite rejection_loop_none; [reflexivity|..].
  - apply in_map_iff. exists i. rewrite pointer_length, E. split; [reflexivity | apply in_seq; lia].
  - intros r Hr. apply in_map_iff in Hr. destruct Hr as (j & Ej & _). destruct (Nat.eqb_spec (length (pointer regions j)) 0) as [Q|Q]; [discriminate|].
    injection Ej as <-. intro Z. apply map_eq_nil in Z. apply Q. rewrite <- (cluster_values_length _ _ Lv), Z. reflexivity.
  - rewrite !map_length. reflexivity.
Qed.
