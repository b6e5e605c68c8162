From Coq Require Import ZArith List Arith Lia Bool Permutation QArith Qcanon.
From Verif Require Import Err Num Ext NumPy Lists SampleSet_Model SampleSet_Spec SampleSet_Proofs Disc_Model Disc_Proofs Inverse_Model Inverse_Spec Inverse_Proofs Inverse2_Proofs Inverse3_Proofs
  Density_Model Density_Spec Density_Proofs Fits_Model Fits_Spec Fits_Proofs Fits2_Proofs.
Import ListNotations.
Local Open Scope nat_scope.
Local Open Scope err_scope.

(** ** Sums over clusters *)
Lemma members_cons {A} (x : A) l r j : members ((x, l) :: r) j = if Z.eqb l (Z.of_nat j) then x :: members r j else members r j.
Proof. unfold members. cbn [filter snd]. destruct (Z.eqb l (Z.of_nat j)); reflexivity. Qed.
Lemma qsum_single (c : nat -> Qc) (l : Z) K : (l < Z.of_nat K)%Z -> qsum (map (fun j => if Z.eqb l (Z.of_nat j) then c j else 0%Qc) (seq 0 K)) = if (l <? 0)%Z then 0%Qc else c (Z.to_nat l).
Proof.
  intros B. destruct (Z.ltb_spec l 0) as [N|N].
  - rewrite (qsum_map_ext _ (fun _ => 0%Qc)); [apply qsum_map_zero|]. intros j _. destruct (Z.eqb_spec l (Z.of_nat j)); [lia|reflexivity].
  - assert (G : forall K, qsum (map (fun j => if Z.eqb l (Z.of_nat j) then c j else 0%Qc) (seq 0 K)) = if (l <? Z.of_nat K)%Z then c (Z.to_nat l) else 0%Qc).
    { clear K B. induction K as [|K IH]; [cbn [seq map qsum fold_right]; destruct (Z.ltb_spec l (Z.of_nat 0)); [lia|reflexivity]|]. rewrite seq_S, map_app, qsum_app, IH. cbn [map Nat.add]. rewrite qsum_cons. change (qsum []) with 0%Qc.
      destruct (Z.ltb_spec l (Z.of_nat K)), (Z.ltb_spec l (Z.of_nat (S K))), (Z.eqb_spec l (Z.of_nat K)); try lia; try ring. subst l. rewrite Nat2Z.id. ring. }
    rewrite G. destruct (Z.ltb_spec l (Z.of_nat K)); [reflexivity|lia].
Qed.
Section Sums.
Context (xs : list (list Qc)) (ys : list cell) (ls ms : list Z) (p q : nat -> cell -> Qc) (K : nat).
Hypothesis HK : forall l, In l ls -> (l < Z.of_nat K)%Z.
Lemma split_sum (g : list Qc -> Qc) : qsum (map (fun e => snd e * g (fst e))%Qc (all_points xs ys ls ms p q)) =
  qsum (map (fun j => share ms j * qsum (map (fun e => snd e * g (fst e)) (cluster_points xs ys ls p q j)))%Qc (seq 0 K)).
Proof.
  unfold all_points, cluster_points. rewrite map_map. cbn [fst snd]. assert (B : forall e, In e (combine (combine xs ys) ls) -> (snd e < Z.of_nat K)%Z) by (intros (e & l) H; apply HK; apply in_combine_r in H; exact H).
  induction (combine (combine xs ys) ls) as [|((x & y) & l) r IH].
  - cbn [map]. rewrite (qsum_map_ext _ (fun _ => 0%Qc)); [rewrite qsum_map_zero; reflexivity|]. intros j _. cbn. ring.
  - cbn [map]. rewrite qsum_cons, IH by (intros e H; apply B; right; exact H). cbn [fst snd].
    rewrite (qsum_map_ext (fun j => share ms j * qsum (map (fun e => snd e * g (fst e)) (map (fun e => (fst e, quotient p q j (snd e))) (members ((x, y, l) :: r) j))))%Qc
      (fun j => (if Z.eqb l (Z.of_nat j) then share ms j * (quotient p q j y * g x) else 0) + share ms j * qsum (map (fun e => snd e * g (fst e)) (map (fun e => (fst e, quotient p q j (snd e))) (members r j))))%Qc).
    + rewrite qsum_map_add, (qsum_single (fun j => share ms j * (quotient p q j y * g x))%Qc l K (B _ (or_introl eq_refl))). destruct (l <? 0)%Z; ring.
    + intros j _. rewrite members_cons. destruct (Z.eqb l (Z.of_nat j)); [|ring]. cbn [map]. rewrite qsum_cons. cbn [fst snd]. ring.
Qed.
Lemma mass_split : mass (all_points xs ys ls ms p q) = qsum (map (fun j => share ms j * mass (cluster_points xs ys ls p q j))%Qc (seq 0 K)).
Proof.
  pose proof (split_sum (fun _ => 1%Qc)) as H. unfold mass. rewrite <- (map_map snd (fun v => v * 1)%Qc) in H. rewrite (map_ext (fun v => v * 1)%Qc (fun v => v) (fun v => Qcmult_1_r v)), map_id in H. rewrite H.
  apply qsum_map_ext. intros j _. f_equal. apply qsum_map_ext. intros e _. ring.
Qed.
End Sums.
Lemma moment_sum di pts m c i : is_moments di pts m c -> i < di -> qsum (map (fun e => snd e * axis i (fst e))%Qc pts) = (axis i m * mass pts)%Qc.
Proof.
  intros (_ & _ & H & _) I. specialize (H i I). rewrite (qsum_map_ext _ (fun e => snd e * axis i (fst e) - axis i m * snd e)%Qc), qsum_map_sub, qsum_map_mul in H by (intros; ring). unfold mass. qc_lra.
Qed.
Lemma moment_prod di pts m c a b u v : is_moments di pts m c -> a < di -> b < di ->
  qsum (map (fun e => snd e * ((axis a (fst e) - u) * (axis b (fst e) - v)))%Qc pts) = ((entry c a b + (axis a m - u) * (axis b m - v)) * mass pts)%Qc.
Proof.
  intros H A B. pose proof (moment_sum _ _ _ _ a H A) as Sa. pose proof (moment_sum _ _ _ _ b H B) as Sb. pose proof (proj2 (proj2 (proj2 H)) a b A B) as C.
  rewrite (qsum_map_ext _ (fun e => snd e * ((axis a (fst e) - axis a m) * (axis b (fst e) - axis b m)) + ((axis b m - v) * (snd e * axis a (fst e)) + ((axis a m - u) * (snd e * axis b (fst e)) - (axis a m * axis b m - u * v) * snd e)))%Qc) by (intros; ring).
  rewrite qsum_map_add, qsum_map_add, qsum_map_sub, !qsum_map_mul, Sa, Sb, <- C. fold (mass pts). ring.
Qed.
Lemma shares_one ms K : labelled ms K -> qsum (map (share ms) (seq 0 K)) = 1%Qc.
Proof.
  intros (N & B). unfold share. rewrite qsum_qn_div, list_sum_count. rewrite (proj2 (filter_length_all _ ms)).
  - field. apply qn_neq0. destruct ms; [contradiction|cbn [length]; lia].
  - intros l H. specialize (B l H). apply andb_true_intro. split; [apply Z.leb_le|apply Z.ltb_lt]; lia.
Qed.
(** Moments of all samples from those of the clusters. *)
Lemma gaussian_mixture_lemma di xs ys ls ms p q K m c mj cj : (forall l, In l ls -> (l < Z.of_nat K)%Z) ->
  is_moments di (all_points xs ys ls ms p q) m c -> (forall j, j < K -> is_moments di (cluster_points xs ys ls p q j) (mj j) (cj j)) ->
  (forall i, i < di -> (axis i m * qsum (map (fun j => share ms j * mass (cluster_points xs ys ls p q j)) (seq 0 K)))%Qc = qsum (map (fun j => share ms j * mass (cluster_points xs ys ls p q j) * axis i (mj j))%Qc (seq 0 K))) /\
  ((exists S, S <> 0%Qc /\ forall j, j < K -> mass (cluster_points xs ys ls p q j) = S) -> labelled ms K ->
    (forall i, i < di -> axis i m = mixture_mean ms K mj i) /\ forall a b, a < di -> b < di -> entry c a b = mixture_cov ms K mj cj a b).
Proof.
  intros HK Hm Hj.
  assert (T : forall i, i < di -> (axis i m * qsum (map (fun j => share ms j * mass (cluster_points xs ys ls p q j)) (seq 0 K)))%Qc = qsum (map (fun j => share ms j * mass (cluster_points xs ys ls p q j) * axis i (mj j))%Qc (seq 0 K))).
  { intros i I. rewrite <- (mass_split xs ys ls ms p q K HK), <- (moment_sum _ _ _ _ i Hm I), (split_sum xs ys ls ms p q K HK (axis i)). apply qsum_map_ext. intros j J. apply in_seq in J. rewrite (moment_sum _ _ _ _ i (Hj j ltac:(lia)) I). ring. }
  split; [exact T|]. intros (S & NS & E) Lb.
  assert (MT : qsum (map (fun j => share ms j * mass (cluster_points xs ys ls p q j))%Qc (seq 0 K)) = S).
  { rewrite (qsum_map_ext _ (fun j => S * share ms j)%Qc), qsum_map_mul, (shares_one ms K Lb) by (intros j J; apply in_seq in J; rewrite E by lia; ring). ring. }
  assert (MM : forall i, i < di -> axis i m = mixture_mean ms K mj i).
  { intros i I. specialize (T i I). rewrite MT in T. unfold mixture_mean. rewrite (qsum_map_ext _ (fun j => S * (share ms j * axis i (mj j)))%Qc), qsum_map_mul in T by (intros j J; apply in_seq in J; rewrite E by lia; ring).
    apply (f_equal (fun v => v / S)%Qc) in T. replace (axis i m) with (axis i m * S / S)%Qc by (field; exact NS). rewrite T. field. exact NS. }
  split; [exact MM|]. intros a b A B. pose proof (proj2 (proj2 (proj2 Hm)) a b A B) as C.
  rewrite (split_sum xs ys ls ms p q K HK (fun x => (axis a x - axis a m) * (axis b x - axis b m))%Qc), (mass_split xs ys ls ms p q K HK), MT in C.
  unfold mixture_cov. rewrite (qsum_map_ext _ (fun j => S * (share ms j * (entry (cj j) a b + (axis a (mj j) - mixture_mean ms K mj a) * (axis b (mj j) - mixture_mean ms K mj b))))%Qc), qsum_map_mul in C.
  - apply (f_equal (fun v => v / S)%Qc) in C. replace (entry c a b) with (entry c a b * S / S)%Qc by (field; exact NS). rewrite C. field. exact NS.
  - intros j J. apply in_seq in J. rewrite (moment_prod _ _ _ _ a b (axis a m) (axis b m) (Hj j ltac:(lia)) A B), (E j) by lia. rewrite (MM a A), (MM b B). ring.
Qed.

(** ** The data of the fit methods *)
Lemma np_repeat_copies {A} (l : list A) counts : length l = length counts -> np_repeat l counts = Ok (copies l counts).
Proof. revert counts. induction l as [|x l IH]; intros [|n counts] L; try discriminate; [reflexivity|]. cbn [np_repeat copies]. rewrite IH by (cbn [length] in L; lia). reflexivity. Qed.
Lemma copies_map {A B} (f : A -> B) l counts : copies (map f l) counts = map f (copies l counts).
Proof. revert counts. induction l as [|x l IH]; intros [|n counts]; try reflexivity. cbn [map copies]. rewrite IH, map_app. f_equal. clear. induction n as [|n IH]; [reflexivity|]. cbn [repeat map]. rewrite IH. reflexivity. Qed.
Lemma copies_in {A} (l : list A) counts x : In x (copies l counts) -> In x l.
Proof. revert counts. induction l as [|y l IH]; intros [|n counts]; cbn [copies]; try contradiction. rewrite in_app_iff. intros [H|H]; [left; symmetry; apply (repeat_spec n y x H)|right; apply (IH _ H)]. Qed.
Definition count_for (num : nat) (total v : Qc) : nat := Z.to_nat (round_half_even (qn num * v / total)%Qc).
Lemma count_nearest num total v : (0 <= v)%Qc -> (0 < total)%Qc -> nearest (qn num * v / total)%Qc (Z.of_nat (count_for num total v)).
Proof.
  intros V T. unfold count_for. rewrite Z2Nat.id; [apply round_nearest|]. apply round_nonneg. apply qc_div_nonneg; [apply qc_mul_nonneg; [apply qn_nonneg|exact V]|exact T].
Qed.
Lemma copies_of_fin num total v : (0 <= v)%Qc -> (0 < total)%Qc -> copies_of num (Fin total) (Fin v) = Ok (count_for num total v).
Proof.
  intros V T. unfold copies_of. cbn [xmul xdiv]. rewrite xdivq_fin by (intros Z; rewrite Z in T; exact (Qclt_not_eq _ _ T eq_refl)). cbv zeta.
  destruct (Z.ltb_spec (round_half_even (qn num * v / total)) 0) as [B|_]; [|reflexivity]. pose proof (round_nonneg (qn num * v / total)%Qc) as R. exfalso. apply (Zlt_not_le _ _ B), R. apply qc_div_nonneg; [apply qc_mul_nonneg; [apply qn_nonneg|exact V]|exact T].
Qed.
Lemma each_raise {A B} (f : A -> result B) e l : (exists x, In x l /\ f x = Raise e) -> (forall x, In x l -> f x = Raise e \/ exists y, f x = Ok y) -> each f l = Raise e.
Proof.
  induction l as [|x l IH]; [intros (y & [] & _)|]. intros (y & [<-|I] & E) H; cbn [each]; [rewrite E; reflexivity|]. destruct (H x (or_introl eq_refl)) as [->|(z & ->)]; [reflexivity|]. cbn [bind].
  rewrite IH; [reflexivity|exists y; split; assumption|]. intros z' I'. apply H. right. exact I'.
Qed.
Lemma copies_of_useless num total v : (forall t, total <> Fin t) -> (forall u, v <> Fin u) -> copies_of num total v = Raise PyValueError.
Proof.
  intros T V. unfold copies_of. replace (xdiv (xmul (Fin (qn num)) v) total) with NaN; [reflexivity|].
  destruct v as [v| | |]; [destruct (V v eq_refl)| | |]; (destruct total as [t| | |]; [destruct (T t eq_refl)| | |]); cbn [xmul]; destruct (qeqb (qn num) 0); try destruct (sgn_inf (qn num)) eqn:E; try reflexivity; unfold sgn_inf in E; destruct (qltb 0 (qn num)); discriminate.
Qed.
Lemma copies_of_cases num total v : copies_of num total v = Raise PyValueError \/ exists n, copies_of num total v = Ok n.
Proof. unfold copies_of. destruct (xdiv _ total); try (left; reflexivity). cbv zeta. destruct (_ <? 0)%Z; [left; reflexivity|right; eexists; reflexivity]. Qed.
