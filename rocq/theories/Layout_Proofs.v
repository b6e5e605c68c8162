From Coq Require Import List Arith ZArith QArith Qround Lia Permutation.
From Verif Require Import Lists NumPy Layout_Model.
Import ListNotations.

Lemma Qfloor_div n P : (0 < P)%nat ->
  Qfloor (inject_Z (Z.of_nat n) / inject_Z (Z.of_nat P)) = Z.of_nat (n / P).
Proof.
  intro HP. destruct P as [|p]; [lia|].
  unfold Qfloor, Qdiv, Qmult, Qinv, inject_Z.
  change (Z.of_nat (S p)) with (Z.pos (Pos.of_succ_nat p)). cbn [Qnum Qden].
  rewrite Nat2Z.inj_div. f_equal; lia.
Qed.

Lemma Qfloor_add_Z q z : Qfloor (q + inject_Z z) = (Qfloor q + z)%Z.
Proof.
  destruct q as [a b]. unfold Qfloor, Qplus, inject_Z. cbn [Qnum Qden].
  rewrite Pos.mul_1_r, Z.mul_1_r. apply Z.div_add. lia.
Qed.

Lemma draw_count_eq n P r : (0 < P)%nat ->
  draw_count n P r = Z.of_nat (n / P + (if r <? n mod P then 1 else 0))%nat.
Proof.
  intro HP. unfold draw_count, py_int. rewrite Qfloor_add_Z, Qfloor_div by exact HP.
  unfold bool_int. destruct (r <? n mod P)%nat; lia.
Qed.

Lemma mc_count_eq n P r : (0 < P)%nat ->
  mc_count n P r = Z.of_nat (n / P + (if r <? n mod P then 1 else 0))%nat.
Proof.
  intro HP. unfold mc_count, py_int. rewrite Qfloor_div by exact HP.
  unfold bool_int. destruct (r <? n mod P)%nat; lia.
Qed.

Lemma counts_as_sizes n P : (0 < P)%nat ->
  map (fun r => n / P + (if r <? n mod P then 1 else 0))%nat (seq 0 P) = split_sizes n P.
Proof.
  intro HP. apply nth_ext with (d := 0%nat) (d' := 0%nat).
  - rewrite map_length, seq_length, split_sizes_length; auto.
  - intros i Hi. rewrite map_length, seq_length in Hi.
    rewrite (nth_indep _ 0%nat (n / P + (if 0 <? n mod P then 1 else 0))%nat) by (rewrite map_length, seq_length; auto).
    rewrite (map_nth (fun r => n / P + (if r <? n mod P then 1 else 0))%nat (seq 0 P) 0%nat).
    rewrite seq_nth by exact Hi. rewrite split_sizes_nth by exact Hi. reflexivity.
Qed.

Lemma sum_of_nat l : fold_right Z.add 0%Z (map Z.of_nat l) = Z.of_nat (list_sum l).
Proof. induction l as [|x l IH]; simpl; [reflexivity|]. rewrite IH. unfold list_sum. lia. Qed.

Lemma draw_count_sum n P : (0 < P)%nat ->
  fold_right Z.add 0%Z (map (draw_count n P) (seq 0 P)) = Z.of_nat n.
Proof.
  intro HP. rewrite (map_ext _ _ (fun r => draw_count_eq n P r HP)).
  rewrite <- (map_map (fun r => n / P + (if r <? n mod P then 1 else 0))%nat Z.of_nat).
  rewrite sum_of_nat, counts_as_sizes, split_sizes_sum by exact HP. reflexivity.
Qed.

Lemma mc_count_sum n P : (0 < P)%nat ->
  fold_right Z.add 0%Z (map (mc_count n P) (seq 0 P)) = Z.of_nat n.
Proof.
  intro HP. rewrite <- (draw_count_sum n P HP). f_equal. apply map_ext. intro r.
  rewrite mc_count_eq, draw_count_eq by exact HP. reflexivity.
Qed.

Lemma draw_count_balanced n P r r' : (0 < P)%nat ->
  (0 <= draw_count n P r /\ Z.abs (draw_count n P r - draw_count n P r') <= 1)%Z.
Proof.
  intro HP. rewrite !draw_count_eq by exact HP.
  destruct (r <? n mod P)%nat, (r' <? n mod P)%nat; lia.
Qed.
Lemma mc_count_balanced n P r r' : (0 < P)%nat ->
  (0 <= mc_count n P r /\ Z.abs (mc_count n P r - mc_count n P r') <= 1)%Z.
Proof.
  intro HP. rewrite !mc_count_eq by exact HP.
  destruct (r <? n mod P)%nat, (r' <? n mod P)%nat; lia.
Qed.

Lemma random_rows_length {A} (draw : nat -> nat -> list A) n P : (0 < P)%nat ->
  (forall r k, length (draw r k) = k) -> length (random_rows draw n P) = n.
Proof.
  intros HP Hd. unfold random_rows.
  rewrite concat_length, map_map.
  rewrite (map_ext _ (fun r => n / P + (if r <? n mod P then 1 else 0))%nat).
  - rewrite counts_as_sizes, split_sizes_sum by exact HP. reflexivity.
  - intro r. rewrite Hd, draw_count_eq, Nat2Z.id by exact HP. reflexivity.
Qed.

(** strided index sets *)
Lemma arange_In s n P k : (0 < P)%nat -> In k (arange s n P) <-> (s <= k < n /\ (k - s) mod P = 0)%nat.
Proof.
  intro HP. unfold arange. rewrite in_map_iff. split.
  - intros (j & <- & Hj). apply in_seq in Hj. destruct Hj as [_ Hj]. simpl in Hj.
    assert (H : (j * P < n - s)%nat).
    { assert (S j <= (n - s + P - 1) / P)%nat by lia.
      pose proof (Nat.div_mod (n - s + P - 1) P ltac:(lia)).
      pose proof (Nat.mod_upper_bound (n - s + P - 1) P ltac:(lia)). nia. }
    split; [lia|]. replace (s + j * P - s)%nat with (j * P)%nat by lia. apply Nat.mod_mul. lia.
  - intros [H1 H2]. exists ((k - s) / P)%nat.
    pose proof (Nat.div_mod (k - s) P ltac:(lia)) as D. rewrite H2 in D.
    split; [lia|]. apply in_seq. split; [lia|]. simpl.
    assert (S ((k - s) / P) <= (n - s + P - 1) / P)%nat; [|lia].
    apply Nat.div_le_lower_bound; [lia|]. nia.
Qed.

Lemma arange_NoDup s n P : (0 < P)%nat -> NoDup (arange s n P).
Proof.
  intro HP. unfold arange. apply FinFun.Injective_map_NoDup; [|apply seq_NoDup].
  intros a b H. nia.
Qed.

Lemma strided_NoDup num P rs : (0 < P)%nat -> NoDup rs -> (forall r, In r rs -> (r < P)%nat) ->
  NoDup (concat (map (local_cells num P) rs)).
Proof.
  intros HP N B. induction rs as [|r rs IH]; simpl; [constructor|].
  inversion N as [|? ? Hnin Hn]; subst. apply NoDup_app.
  - apply arange_NoDup, HP.
  - apply IH; [exact Hn | intros x Hx; apply B; right; exact Hx].
  - intros x Hx Hx2. apply in_concat in Hx2. destruct Hx2 as (l & Hl & Hxl).
    apply in_map_iff in Hl. destruct Hl as (r' & <- & Hr'). unfold local_cells in *.
    apply arange_In in Hx; [|exact HP]. apply arange_In in Hxl; [|exact HP].
    assert (Er : (r < P)%nat) by (apply B; left; reflexivity).
    assert (Er' : (r' < P)%nat) by (apply B; right; exact Hr').
    assert (r = r'); [|subst; contradiction].
    destruct Hx as [H1 H2], Hxl as [H3 H4].
    apply Nat.mod_divides in H2; [|lia]. apply Nat.mod_divides in H4; [|lia].
    destruct H2 as [c Hc], H4 as [d Hd].
    assert (c = d) by nia. subst. lia.
Qed.

Lemma strided_In num P k : (0 < P)%nat ->
  In k (concat (map (local_cells num P) (seq 0 P))) <-> (k < num)%nat.
Proof.
  intro HP. rewrite in_concat. split.
  - intros (l & Hl & Hk). apply in_map_iff in Hl. destruct Hl as (r & <- & _).
    apply arange_In in Hk; [lia | exact HP].
  - intro Hk. exists (local_cells num P (k mod P)). split.
    + apply in_map. apply in_seq. pose proof (Nat.mod_upper_bound k P ltac:(lia)). lia.
    + apply arange_In; [exact HP|].
      pose proof (Nat.div_mod k P ltac:(lia)). split; [nia|].
      replace (k - k mod P)%nat with (k / P * P)%nat by nia. apply Nat.mod_mul. lia.
Qed.

Lemma scatter_spec {A} idx (vs l l' : list A) : NoDup idx -> scatter l idx vs = Some l' ->
  length l' = length l /\
  (forall j, ~ In j idx -> nth_error l' j = nth_error l j) /\
  (forall k j, nth_error idx k = Some j -> nth_error l' j = nth_error vs k).
Proof.
  revert vs l; induction idx as [|i is IH]; intros [|v vs] l N H; simpl in H; try discriminate.
  - injection H as <-. repeat split; auto. intros [|k] j; discriminate.
  - destruct (set_nth i v l) as [m|] eqn:E; [|discriminate].
    inversion N as [|? ? Hni Hn]; subst.
    destruct (IH _ _ Hn H) as (L & Ho & Hi). destruct (set_nth_nth _ _ _ _ E) as (_ & L2 & S).
    repeat split.
    + congruence.
    + intros j Hj. rewrite Ho by (intro; apply Hj; right; assumption). rewrite S.
      destruct (Nat.eqb_spec j i); [subst; exfalso; apply Hj; left; reflexivity | reflexivity].
    + intros [|k] j Hk; simpl in Hk |- *.
      * injection Hk as <-. rewrite Ho by exact Hni. rewrite S, Nat.eqb_refl. reflexivity.
      * apply (Hi k j Hk).
Qed.

Lemma scatter_some {A} idx (vs l : list A) : length vs = length idx ->
  (forall i, In i idx -> (i < length l)%nat) -> exists l', scatter l idx vs = Some l'.
Proof.
  revert vs l; induction idx as [|i is IH]; intros [|v vs] l E B; simpl in *; try discriminate; [eauto|].
  destruct (set_nth_some i v l (B i (or_introl eq_refl))) as [m Hm]. rewrite Hm.
  destruct (set_nth_nth _ _ _ _ Hm) as (_ & L2 & _). apply IH; [lia|].
  intros j Hj. rewrite L2. apply B. right. exact Hj.
Qed.

Lemma strided_volumes_eq {A} (zero : A) vol num P : (0 < P)%nat ->
  strided_volumes zero vol num P = Some (map vol (seq 0 num)).
Proof.
  intro HP. unfold strided_volumes. rewrite concat_map_map.
  set (idx := concat (map (local_cells num P) (seq 0 P))).
  assert (N : NoDup idx).
  { apply strided_NoDup; [exact HP | apply seq_NoDup|]. intros r Hr. apply in_seq in Hr. lia. }
  destruct (scatter_some idx (map vol idx) (repeat zero num)) as [l' Hl'].
  { apply map_length. }
  { intros i Hi. rewrite repeat_length. apply (strided_In num P i HP), Hi. }
  rewrite Hl'. f_equal.
  destruct (scatter_spec _ _ _ _ N Hl') as (L & _ & S).
  rewrite repeat_length in L.
  apply nth_error_ext. intro j.
  destruct (Nat.lt_ge_cases j num) as [Hj|Hj].
  - destruct (In_nth_error idx j) as [k Hk]; [apply strided_In; auto|].
    rewrite (S k j Hk), nth_error_map, Hk. simpl.
    rewrite nth_error_map. rewrite (nth_error_nth' _ 0%nat) by (rewrite seq_length; lia).
    rewrite seq_nth by lia. reflexivity.
  - rewrite !(proj2 (nth_error_None _ _)); [reflexivity | rewrite map_length, seq_length; lia | lia].
Qed.
