From Coq Require Import List Arith Bool QArith Qcanon Lia.
From Verif Require Import Err Num NumPy Lists Prob_Model Prob_Spec Prob_Proofs Query_Proofs OutCells_Spec.
Import ListNotations.
Local Open Scope nat_scope.

Lemma in_cell_total c v k : in_cell c v k = total_in (combine c v) k. Proof. reflexivity. Qed.
Lemma parts_coarse g c v i : in_parts g c v i = in_cell (map g c) v i.
Proof.
  unfold in_parts, in_cell. revert v. induction c as [|k c IH]; intros [|x v]; try reflexivity. cbn [map combine filter fst]. destruct (g k =? i); [cbn [map snd qsum]; f_equal|]; apply IH.
Qed.
Lemma filter_filter_total g i k (s : list (nat * Qc)) : total_in (filter (fun e => g (fst e) =? i) s) k = if g k =? i then total_in s k else 0%Qc.
Proof.
  unfold total_in. induction s as [|e s IH]; [destruct (g k =? i); reflexivity|]. cbn [filter]. destruct (g (fst e) =? i) eqn:E1; cbn [filter]; destruct (Nat.eqb_spec (fst e) k) as [E2|E2].
  - subst. rewrite E1 in *. cbn [map qsum]. rewrite IH. reflexivity.
  - exact IH.
  - subst. rewrite E1 in *. exact IH.
  - exact IH.
Qed.
Lemma parts_split g c v n i : (forall k, In k c -> k < n) -> in_parts g c v i = qsum (map (fun k => if g k =? i then in_cell c v k else 0%Qc) (seq 0 n)).
Proof.
  intros H. unfold in_parts. rewrite (total_in_split _ n).
  - apply qsum_map_ext. intros k _. apply filter_filter_total.
  - intros [k x] He. apply filter_In in He. destruct He as [He _]. cbn. apply H. apply in_combine_l in He. exact He.
Qed.
Lemma part_sum_seq g fine i : part_sum g fine i = qsum (map (fun k => if g k =? i then nth k fine 0%Qc else 0%Qc) (seq 0 (length fine))).
Proof.
  unfold part_sum. assert (G : forall a, qsum (map snd (filter (fun e => g (fst e) =? i) (combine (seq a (length fine)) fine))) = qsum (map (fun k => if g k =? i then nth (k - a) fine 0%Qc else 0%Qc) (seq a (length fine)))).
  { induction fine as [|p fine IH]; intros a; [reflexivity|]. cbn [length seq combine filter fst map]. rewrite Nat.sub_diag. change (nth 0 (p :: fine) 0%Qc) with p.
    assert (E : map (fun k => if g k =? i then nth (k - a) (p :: fine) 0%Qc else 0%Qc) (seq (S a) (length fine)) = map (fun k => if g k =? i then nth (k - S a) fine 0%Qc else 0%Qc) (seq (S a) (length fine))).
    { apply map_ext_in. intros k Hk. apply in_seq in Hk. destruct (g k =? i); [|reflexivity]. replace (k - a) with (S (k - S a)) by lia. reflexivity. }
    rewrite E. change (qsum (?x :: ?y)) with (x + qsum y)%Qc. rewrite <- IH. destruct (g a =? i); [reflexivity|]. ring. }
  rewrite (G 0). apply qsum_map_ext. intros k _. rewrite Nat.sub_0_r. reflexivity.
Qed.

(** The probabilities of the samples of one cell *)
Lemma cell_solution probs ptrs vols Q : same_lengths ptrs vols -> prob probs ptrs vols = Ok Q ->
  length (concat Q) = length (concat ptrs) /\ forall k p, nth_error probs k = Some p -> in_cell (concat ptrs) (concat Q) k = if (qltb 0 p && qltb 0 (in_cell (concat ptrs) (concat vols) k))%bool then p else 0%Qc.
Proof.
  intros H E. destruct (prob_concat probs ptrs vols H) as (Q' & E' & S & C). rewrite E in E'. injection E' as <-. split; [apply same_lengths_concat; exact S|].
  intros k p Hp. rewrite !in_cell_total, <- (share_total probs (combine (concat ptrs) (concat vols)) k p Hp). rewrite C. f_equal.
  pose proof (same_lengths_concat _ _ H) as L. revert L. generalize (share probs (combine (concat ptrs) (concat vols))). generalize (concat ptrs) (concat vols). clear. intros c v f. revert v. induction c as [|k c IH]; intros [|x v] L; try discriminate L; [reflexivity|]. cbn [combine map fst]. f_equal. apply IH. injection L as L. exact L.
Qed.
Lemma cell_nonneg c v k : nonneg v -> (0 <= in_cell c v k)%Qc.
Proof. intros N. rewrite in_cell_total. apply total_in_nonneg. intros [i x] H. apply N. apply in_combine_r in H. exact H. Qed.
Lemma nth_nonneg l k : nonneg l -> (0 <= nth k l 0)%Qc.
Proof. intros N. destruct (nth_in_or_default k l 0%Qc) as [H|H]; [apply N; exact H|rewrite H; apply Qcle_refl]. Qed.

Definition kept (p v : Qc) : Qc := if qltb 0 v then p else 0%Qc.
Lemma finer_total_lemma g fine ptrs vols Q : same_lengths ptrs vols -> nonneg fine -> (forall k, In k (concat ptrs) -> k < length fine) -> prob fine ptrs vols = Ok Q ->
  forall i, in_parts g (concat ptrs) (concat Q) i = qsum (map (fun k => if g k =? i then kept (nth k fine 0%Qc) (in_cell (concat ptrs) (concat vols) k) else 0%Qc) (seq 0 (length fine))).
Proof.
  intros H N B E i. destruct (cell_solution fine ptrs vols Q H E) as [L C]. rewrite (parts_split g _ _ (length fine) i B). apply qsum_map_ext. intros k Hk. apply in_seq in Hk. destruct (g k =? i); [|reflexivity].
  assert (Hn : nth_error fine k = Some (nth k fine 0%Qc)) by (apply nth_error_nth'; lia). rewrite (C k _ Hn). unfold kept.
  destruct (qltb_spec 0%Qc (nth k fine 0%Qc)) as [P|P]; cbn [andb]; [reflexivity|]. assert (Z : nth k fine 0%Qc = 0%Qc). { apply Qcle_antisym; [apply Qcnot_lt_le; exact P|apply nth_nonneg; exact N]. }
  rewrite Z. destruct (qltb 0 _); reflexivity.
Qed.

Section Sub.
Variables (g : nat -> nat) (coarse fine : list Qc) (ptrs cptrs : list (list nat)) (vols Q C : list (list Qc)).
Hypotheses (H : same_lengths ptrs vols) (NV : nonneg (concat vols)) (NF : nonneg fine) (B : forall k, In k (concat ptrs) -> k < length fine)
  (SD : subdivides g coarse fine) (CP : cptrs = map (map g) ptrs) (EQ : prob fine ptrs vols = Ok Q) (EC : prob coarse cptrs vols = Ok C).
Lemma coarse_lengths : same_lengths cptrs vols.
Proof. rewrite CP. unfold same_lengths in *. clear -H. induction H as [|x y xs ys L K IH]; cbn [map]; [constructor|]. constructor; [rewrite map_length; exact L|exact (IH K)]. Qed.
Lemma coarse_volume i : in_cell (concat cptrs) (concat vols) i = qsum (map (fun k => if g k =? i then in_cell (concat ptrs) (concat vols) k else 0%Qc) (seq 0 (length fine))).
Proof. rewrite CP, concat_map_map', <- parts_coarse. apply parts_split. exact B. Qed.
Lemma coarse_total i p : nth_error coarse i = Some p -> in_cell (concat cptrs) (concat C) i = kept p (in_cell (concat cptrs) (concat vols) i).
Proof.
  intros Hp. destruct (cell_solution coarse cptrs vols C coarse_lengths EC) as [_ K]. rewrite (K i p Hp). unfold kept.
  destruct (qltb_spec 0%Qc p) as [P|P]; cbn [andb]; [reflexivity|]. assert (Z : p = 0%Qc).
  { apply Qcle_antisym; [apply Qcnot_lt_le; exact P|]. rewrite (proj2 SD i p Hp), part_sum_seq. apply qsum_nonneg. intros x Hx. apply in_map_iff in Hx. destruct Hx as (k & <- & _). destruct (g k =? i); [apply nth_nonneg; exact NF|apply Qcle_refl]. }
  rewrite Z. destruct (qltb 0 _); reflexivity.
Qed.
Lemma hit_coarse i k : k < length fine -> g k = i -> (0 < in_cell (concat ptrs) (concat vols) k)%Qc -> (0 < in_cell (concat cptrs) (concat vols) i)%Qc.
Proof.
  intros L E P. rewrite coarse_volume. eapply Qclt_le_trans; [exact P|].
  assert (K : In k (seq 0 (length fine))) by (apply in_seq; lia). apply in_split in K. destruct K as (s & t & K). rewrite K, map_app, qsum_app. cbn [map qsum].
  assert (NN : forall l, (0 <= qsum (map (fun k => if g k =? i then in_cell (concat ptrs) (concat vols) k else 0%Qc) l))%Qc).
  { intros l. apply qsum_nonneg. intros x Hx. apply in_map_iff in Hx. destruct Hx as (j & <- & _). destruct (g j =? i); [apply cell_nonneg; exact NV|apply Qcle_refl]. }
  rewrite E, Nat.eqb_refl. pose proof (NN s). pose proof (NN t). qc_lra.
Qed.
Lemma finer_le i p : nth_error coarse i = Some p -> (in_parts g (concat ptrs) (concat Q) i <= in_cell (concat cptrs) (concat C) i)%Qc.
Proof.
  intros Hp. rewrite (coarse_total i p Hp), (finer_total_lemma g fine ptrs vols Q H NF B EQ i). unfold kept at 2. destruct (qltb_spec 0%Qc (in_cell (concat cptrs) (concat vols) i)) as [P|P].
  - rewrite (proj2 SD i p Hp), part_sum_seq. apply qsum_map_le. intros k Hk. destruct (g k =? i); [|apply Qcle_refl]. unfold kept. destruct (qltb 0 _); [apply Qcle_refl|apply nth_nonneg; exact NF].
  - rewrite qsum_map_zero; [apply Qcle_refl|]. intros k Hk. apply in_seq in Hk. destruct (Nat.eqb_spec (g k) i) as [E|E]; [|reflexivity]. unfold kept. destruct (qltb_spec 0%Qc (in_cell (concat ptrs) (concat vols) k)) as [P'|P']; [|reflexivity]. exfalso. apply P. apply (hit_coarse i k); [lia|exact E|exact P'].
Qed.
Lemma finer_keeps i p : nth_error coarse i = Some p -> (forall k q, nth_error fine k = Some q -> g k = i -> (0 < q)%Qc -> (0 < in_cell (concat ptrs) (concat vols) k)%Qc) ->
  in_parts g (concat ptrs) (concat Q) i = p /\ in_cell (concat cptrs) (concat C) i = p.
Proof.
  intros Hp All. assert (F : in_parts g (concat ptrs) (concat Q) i = p).
  { rewrite (finer_total_lemma g fine ptrs vols Q H NF B EQ i), (proj2 SD i p Hp), part_sum_seq. apply qsum_map_ext. intros k Hk. apply in_seq in Hk. destruct (Nat.eqb_spec (g k) i) as [E|E]; [|reflexivity]. unfold kept.
    destruct (qltb_spec 0%Qc (in_cell (concat ptrs) (concat vols) k)) as [P|P]; [reflexivity|]. symmetry. apply Qcle_antisym; [|apply nth_nonneg; exact NF]. apply Qcnot_lt_le. intros P'. apply P. apply (All k (nth k fine 0%Qc)); [apply nth_error_nth'; lia|exact E|exact P']. }
  split; [exact F|]. pose proof (finer_le i p Hp) as L. rewrite F in L. rewrite (coarse_total i p Hp) in *. unfold kept in *. destruct (qltb 0 _); [reflexivity|].
  apply Qcle_antisym; [|exact L]. rewrite <- F. rewrite (finer_total_lemma g fine ptrs vols Q H NF B EQ i). apply qsum_nonneg. intros x Hx. apply in_map_iff in Hx. destruct Hx as (k & <- & _). destruct (g k =? i); [|apply Qcle_refl]. unfold kept. destruct (qltb 0 _); [apply nth_nonneg; exact NF|apply Qcle_refl].
Qed.
Lemma finer_loses i p k q : nth_error coarse i = Some p -> nth_error fine k = Some q -> g k = i -> (0 < q)%Qc -> in_cell (concat ptrs) (concat vols) k = 0%Qc ->
  (in_parts g (concat ptrs) (concat Q) i <= p - q)%Qc.
Proof.
  intros Hp Hk E P Z. assert (L : k < length fine) by (apply nth_error_Some; congruence). rewrite (finer_total_lemma g fine ptrs vols Q H NF B EQ i), (proj2 SD i p Hp), part_sum_seq.
  assert (K : In k (seq 0 (length fine))) by (apply in_seq; lia). apply in_split in K. destruct K as (s & t & K). rewrite K, !map_app, !qsum_app. cbn [map qsum].
  assert (NN : forall l, (qsum (map (fun k => if g k =? i then kept (nth k fine 0%Qc) (in_cell (concat ptrs) (concat vols) k) else 0%Qc) l) <= qsum (map (fun k => if g k =? i then nth k fine 0%Qc else 0%Qc) l))%Qc).
  { intros l. apply qsum_map_le. intros j _. destruct (g j =? i); [|apply Qcle_refl]. unfold kept. destruct (qltb 0 _); [apply Qcle_refl|apply nth_nonneg; exact NF]. }
  rewrite E, Nat.eqb_refl. unfold kept at 2. rewrite Z. change (qltb 0 0%Qc) with false. cbv iota. rewrite (nth_error_nth _ _ 0%Qc Hk). pose proof (NN s). pose proof (NN t). qc_lra.
Qed.
Lemma finer_same j k x q c pk pi : nth_error (concat ptrs) j = Some k -> nth_error (concat vols) j = Some x -> (0 < x)%Qc -> nth_error fine k = Some pk -> nth_error coarse (g k) = Some pi ->
  nth_error (concat Q) j = Some q -> nth_error (concat C) j = Some c ->
  (q = c <-> pk * in_cell (concat cptrs) (concat vols) (g k) = pi * in_cell (concat ptrs) (concat vols) k)%Qc.
Proof.
  intros Hk Hx X Hpk Hpi Hq Hc. destruct (prob_concat fine ptrs vols H) as (Q' & E1 & _ & C1). rewrite EQ in E1. injection E1 as <-. destruct (prob_concat coarse cptrs vols coarse_lengths) as (C' & E2 & _ & C2). rewrite EC in E2. injection E2 as <-.
  assert (Hgk : nth_error (concat cptrs) j = Some (g k)) by (rewrite CP, concat_map_map', nth_error_map, Hk; reflexivity).
  rewrite C1, nth_error_map, nth_error_combine, Hk, Hx in Hq. rewrite C2, nth_error_map, nth_error_combine, Hgk, Hx in Hc. cbn [option_map] in Hq, Hc. injection Hq as <-. injection Hc as <-.
  assert (Vk : (0 < in_cell (concat ptrs) (concat vols) k)%Qc).
  { rewrite in_cell_total. unfold total_in. assert (I : In x (map snd (filter (fun s => fst s =? k) (combine (concat ptrs) (concat vols))))).
    { apply in_map_iff. exists (k, x). split; [reflexivity|]. apply filter_In. split; [|apply Nat.eqb_refl]. apply (nth_error_In _ j). rewrite nth_error_combine, Hk, Hx. reflexivity. }
    apply in_split in I. destruct I as (s & t & I). rewrite I, qsum_app. cbn [qsum].
    assert (NN : forall y, In y (s ++ x :: t) -> (0 <= y)%Qc). { intros y Hy. rewrite <- I in Hy. apply in_map_iff in Hy. destruct Hy as (e & <- & He). apply filter_In in He. destruct e as [a b]. apply NV. destruct He as [He _]. apply in_combine_r in He. exact He. }
    assert (S1 : (0 <= qsum s)%Qc) by (apply qsum_nonneg; intros y Hy; apply NN; apply in_or_app; left; exact Hy). assert (S2 : (0 <= qsum t)%Qc) by (apply qsum_nonneg; intros y Hy; apply NN; apply in_or_app; right; right; exact Hy).
    qc_lra. }
  assert (Lk : k < length fine) by (apply nth_error_Some; congruence). pose proof (hit_coarse (g k) k Lk eq_refl Vk) as Vi.
  unfold share. cbn [fst snd]. rewrite Hpk, Hpi, <- !in_cell_total.
  assert (Npk : (0 <= pk)%Qc) by (apply NF; apply (nth_error_In _ _ Hpk)).
  assert (Npi : (0 <= pi)%Qc). { rewrite (proj2 SD _ _ Hpi), part_sum_seq. apply qsum_nonneg. intros y Hy. apply in_map_iff in Hy. destruct Hy as (n & <- & _). destruct (g n =? g k); [apply nth_nonneg; exact NF|apply Qcle_refl]. }
  set (V := in_cell (concat ptrs) (concat vols) k) in *. set (W := in_cell (concat cptrs) (concat vols) (g k)) in *.
  assert (F : forall p U, (0 <= p)%Qc -> (0 < U)%Qc -> (if (qltb 0 p && qltb 0 U)%bool then p * x / U else 0)%Qc = (p * x / U)%Qc).
  { intros p U Np PU. destruct (qltb_spec 0%Qc p) as [P|P]; cbn [andb]; [destruct (qltb_spec 0%Qc U); [reflexivity|contradiction]|].
    assert (p = 0%Qc) as -> by (apply Qcle_antisym; [apply Qcnot_lt_le; exact P|exact Np]). unfold Qcdiv. ring. }
  rewrite (F pk V Npk Vk), (F pi W Npi Vi).
  assert (V0 : V <> 0%Qc) by (intros Z; rewrite Z in Vk; revert Vk; apply Qcle_not_lt, Qcle_refl). assert (W0 : W <> 0%Qc) by (intros Z; rewrite Z in Vi; revert Vi; apply Qcle_not_lt, Qcle_refl). assert (X0 : x <> 0%Qc) by (intros Z; rewrite Z in X; revert X; apply Qcle_not_lt, Qcle_refl).
  split; intros K.
  - replace (pk * W)%Qc with (pk * x / V * (V * W / x))%Qc by (field; auto). rewrite K. field; auto.
  - replace (pk * x / V)%Qc with (pk * W * x / (V * W))%Qc by (field; auto). rewrite K. field; auto.
Qed.
End Sub.
