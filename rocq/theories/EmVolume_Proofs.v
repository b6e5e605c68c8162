From Coq Require Import List Arith Bool ZArith QArith Qcanon Lia Permutation.
From Verif Require Import Err Num Ext Show Lists NumPy Prob_Model Prob_Spec Prob_Proofs Volume_Model Volume_Spec Volume_Proofs
  EmVolume_Model EmVolume_Spec.
Import ListNotations.
Local Open Scope nat_scope.

(** ** The loop on finite volumes is the loop of prob *)
Definition finb (b : list (list (nat * Qc))) : list (list (nat * xnum)) := map (map (fun e => (fst e, Fin (snd e)))) b.
Definition fins (q : list (list Qc)) : list (list xnum) := map (map Fin) q.
Lemma xlocal_fin i b : xlocal_sum i (map (fun e => (fst e, Fin (snd e))) b) = Fin (local_sum i b).
Proof.
  unfold xlocal_sum, local_sum. apply xsum_fin'. rewrite filter_map_comm, !map_map. reflexivity.
Qed.
Lemma xtotal_fin i blocks : xsum (map (xlocal_sum i) (finb blocks)) = Fin (cell_sum i blocks).
Proof.
  apply xsum_fin'. unfold finb. rewrite !map_map. apply map_ext. intros b. symmetry. apply xlocal_fin.
Qed.
Lemma step_fin blocks acc ip : xprob_step (finb blocks) (fins acc) ip = fins (prob_step blocks acc ip).
Proof.
  destruct ip as [i p]. unfold xprob_step, prob_step. destruct (qltb 0 p); [|reflexivity].
  rewrite xtotal_fin. cbn [xltb xleb].
  change (negb (qleb (cell_sum i blocks) 0)) with (qltb 0 (cell_sum i blocks)).
  destruct (qltb_spec 0 (cell_sum i blocks)) as [T|T]; [|reflexivity].
  assert (cell_sum i blocks <> 0%Qc) as T0 by (apply Qclt_neq0; exact T).
  revert T0. generalize (cell_sum i blocks). intros t T0. clear T.
  unfold finb, fins. revert acc. induction blocks as [|b bs IH]; intros [|o os]; cbn [map combine]; [reflexivity..|].
  f_equal; [|apply IH]. cbn [fst snd]. unfold assign. clear IH.
  revert o. induction b as [|e b IH]; intros [|x o]; cbn [map combine]; [reflexivity..|].
  f_equal; [|apply IH]. cbn [fst snd]. destruct (fst e =? i); [|reflexivity].
  cbn [xmul over_total]. apply xdivq_fin. exact T0.
Qed.
Lemma zip_fin ptrs vols : zip_blocks ptrs (fins vols) =
  match zip_blocks ptrs vols with Ok b => Ok (finb b) | Raise e => Raise e end.
Proof.
  revert vols. induction ptrs as [|p ps IH]; intros [|v vs]; cbn [fins map zip_blocks]; try reflexivity.
  rewrite map_length. destruct (length p =? length v); [|reflexivity].
  change (map (map Fin) vs) with (fins vs). rewrite IH. destruct (zip_blocks ps vs); [|reflexivity]. cbn [bind finb map].
  do 2 f_equal. rewrite combine_map_r. reflexivity.
Qed.
Lemma zeros_fin (ptrs : list (list nat)) : map (fun p => repeat (Fin 0) (length p)) ptrs = fins (map (fun p => repeat 0%Qc (length p)) ptrs).
Proof.
  unfold fins. rewrite map_map. apply map_ext. intros p. induction (length p) as [|n IH]; cbn [repeat map]; [reflexivity|]. rewrite IH. reflexivity.
Qed.
Lemma xprob_fin probs ptrs vols Q : prob probs ptrs vols = Ok Q -> xprob probs ptrs (fins vols) = Ok (fins Q).
Proof.
  unfold prob, xprob. rewrite zip_fin, zeros_fin. destruct (existsb (qltb 0) probs); [|intros [= <-]; reflexivity].
  destruct (zip_blocks ptrs vols) as [b|e]; [|discriminate]. cbn [bind]. intros [= <-]. f_equal.
  generalize (map (fun p : list nat => repeat 0%Qc (length p)) ptrs) (enumerate probs). intros acc l. revert acc.
  induction l as [|ip l IH]; intros acc; cbn [fold_left]; [reflexivity|]. rewrite step_fin. apply IH.
Qed.

(** ** Splitting *)
Lemma split_lengths {A B} (l : list A) (m : list B) P : 0 < P -> length l = length m ->
  same_lengths (array_split l P) (array_split m P).
Proof.
  intros HP HL. unfold same_lengths. pose proof (array_split_length l P HP) as L1. pose proof (array_split_length m P HP) as L2.
  assert (G : forall (a : list (list A)) (b : list (list B)), length a = length b ->
    (forall r, r < length a -> length (nth r a []) = length (nth r b [])) -> Forall2 (fun x y => length x = length y) a b).
  { induction a as [|x a IH]; intros [|y b] E H; try discriminate; constructor.
    - apply (H 0). simpl. lia.
    - apply IH; [simpl in E; lia|]. intros r Hr. apply (H (S r)). simpl. lia. }
  apply G; [congruence|]. intros r Hr. rewrite L1 in Hr. rewrite !array_split_nth_length by exact Hr. rewrite HL. reflexivity.
Qed.

(** ** Counting *)
Section Count.
Context {X : Type} (probs : list Qc) (io : list nat) (near : X -> nat) (pts : list X).
Hypothesis Hnear : forall x, In x pts -> near x < length io.
Let out (x : X) : nat := nth (near x) io 0.

Lemma over_eq i : points_over near io pts i = number_in (map out pts) i.
Proof.
  unfold points_over, number_in. rewrite filter_map_comm, map_length. f_equal. apply filter_ext_in. intros x Hx.
  unfold out. rewrite (nth_error_nth' io 0 (Hnear x Hx)). reflexivity.
Qed.
Lemma total_over n i : (0 < n)%nat ->
  total_in (combine io (map (fun j => qn (points_in near pts j) / qn n)%Qc (seq 0 (length io)))) i =
  (qn (points_over near io pts i) / qn n)%Qc.
Proof.
  intros Hn. unfold total_in.
  assert (C : combine io (map (fun j => qn (points_in near pts j) / qn n)%Qc (seq 0 (length io))) =
              map (fun j => (nth j io 0, (qn (points_in near pts j) / qn n)%Qc)) (seq 0 (length io))).
  { transitivity (combine (map (fun j => nth j io 0) (seq 0 (length io))) (map (fun j => qn (points_in near pts j) / qn n)%Qc (seq 0 (length io)))).
    - rewrite map_nth_seq. reflexivity.
    - generalize (seq 0 (length io)) as l. induction l as [|j l IH]; cbn [map combine]; [reflexivity|]. rewrite IH. reflexivity. }
  rewrite C. rewrite qsum_filter, map_map. cbn [fst snd].
  rewrite over_eq. unfold number_in. rewrite filter_map_comm, map_length.
  transitivity (Qcdiv (qsum (map (fun j => qsum (map (fun x => ind (near x =? j) (ind (nth j io 0 =? i) 1%Qc)) pts)) (seq 0 (length io)))) (qn n)).
  - rewrite <- qsum_map_div. apply qsum_map_ext. intros j _.
    assert (E : qn (points_in near pts j) = qsum (map (fun x => ind (near x =? j) 1) pts)).
    { unfold points_in. rewrite <- (qsum_filter (fun x => near x =? j) (fun _ => 1%Qc)), qsum_map_const. ring. }
    destruct (nth j io 0 =? i); cbn [ind].
    + rewrite E. reflexivity.
    + rewrite qsum_map_zero; [unfold Qcdiv; ring|]. intros x _. destruct (near x =? j); reflexivity.
  - f_equal. rewrite (qsum_swap (fun j x => ind (near x =? j) (ind (nth j io 0 =? i) 1))).
    rewrite <- (Qcmult_1_r (qn _)), <- qsum_map_const.
    rewrite (qsum_filter (fun x => out x =? i) (fun _ => 1%Qc)). apply qsum_map_ext. intros x Hx.
    transitivity (qsum (map (fun j => ind (near x =? j) (ind (out x =? i) 1)) (seq 0 (length io)))).
    + apply qsum_map_ext. intros j _. destruct (Nat.eqb_spec (near x) j) as [<-|]; reflexivity.
    + apply qsum_ind_seq. apply Hnear. exact Hx.
Qed.

(** The weight of one point over output cell i. *)
Definition pweight (i : nat) : Qc :=
  match nth_error probs i with
  | Some p => if (qltb 0 p && (0 <? points_over near io pts i))%bool then (p / qn (points_over near io pts i))%Qc else 0%Qc
  | None => 0%Qc
  end.
Lemma share_ones i : share probs (map (fun k => (k, 1%Qc)) (map out pts)) (i, 1%Qc) = pweight i.
Proof.
  unfold share, pweight. cbn [fst snd]. destruct (nth_error probs i) as [p|]; [|reflexivity].
  rewrite number_total, <- over_eq, qltb_qn. destruct (_ && _)%bool; [|reflexivity]. unfold Qcdiv. ring.
Qed.
Lemma weight_sum j o : nth_error io j = Some o ->
  weight_in near pts (map (fun x => pweight (out x)) pts) j = (qn (points_in near pts j) * pweight o)%Qc.
Proof.
  intros Ho. unfold weight_in, points_in. rewrite combine_app_eq, filter_map_comm, map_map. cbn [fst snd].
  rewrite <- qsum_map_const. apply qsum_map_ext. intros x Hx. apply filter_In in Hx. destruct Hx as [_ Hx].
  apply Nat.eqb_eq in Hx. unfold out. rewrite Hx. rewrite (nth_error_nth _ _ 0 Ho). reflexivity.
Qed.
Lemma share_frac n o j : 0 < n -> nth_error io j = Some o -> (forall x, In x pts -> True) ->
  share probs (combine io (map (fun j => qn (points_in near pts j) / qn n)%Qc (seq 0 (length io)))) (o, qn (points_in near pts j) / qn n)%Qc =
  (qn (points_in near pts j) * pweight o)%Qc.
Proof.
  intros Hn Ho _. unfold share, pweight. cbn [fst snd]. destruct (nth_error probs o) as [p|]; [|ring].
  rewrite total_over by exact Hn.
  assert (qltb 0 (qn (points_over near io pts o) / qn n) = (0 <? points_over near io pts o)) as ->.
  { pose proof (qn_pos n Hn) as Pn. destruct (Nat.ltb_spec 0 (points_over near io pts o)) as [H|H].
    - apply qltb_true. apply qc_div_pos; [apply qn_pos, H|exact Pn].
    - apply qltb_false. assert (points_over near io pts o = 0) as -> by lia. rewrite qn_0. unfold Qcdiv. rewrite Qcmult_0_l. apply Qcle_refl. }
  destruct (qltb 0 p); cbn [andb]; [|ring]. destruct (Nat.ltb_spec 0 (points_over near io pts o)) as [H|H]; [|ring].
  field. split; apply qn_neq0; assumption.
Qed.
End Count.

Lemma fraction_points {X} (near : X -> nat) pts j : fraction near pts j = (qn (points_in near pts j) / qn (length pts))%Qc.
Proof. reflexivity. Qed.

Lemma nth_combine {A B} (l : list A) (m : list B) j a b : nth_error l j = Some a -> nth_error m j = Some b ->
  nth_error (combine l m) j = Some (a, b).
Proof.
  revert m j. induction l as [|x l IH]; intros [|y m] [|j] E1 E2; try discriminate; simpl in *; [congruence|apply IH; assumption].
Qed.
Lemma with_emulated_eq {X} probs io (near : X -> nat) P blocks : 0 < P -> concat blocks <> [] ->
  (forall x, In x (concat blocks) -> near x < length io) ->
  exists q, prob_with_emulated_volumes probs io near P blocks = Ok (fins q) /\ length q = P /\
    same_lengths q (array_split io P) /\
    forall j o, nth_error io j = Some o ->
      nth_error (concat q) j = Some (qn (points_in near (concat blocks) j) * pweight probs io near (concat blocks) o)%Qc.
Proof.
  intros HP HN Hnear. set (pts := concat blocks) in *.
  set (v := map (fun j => qn (points_in near pts j) / qn (length pts))%Qc (seq 0 (length io))).
  assert (Hn : 0 < length pts) by (destruct pts; [congruence|simpl; lia]).
  assert (HL : length io = length v) by (unfold v; rewrite map_length, seq_length; reflexivity).
  destruct (prob_concat probs (array_split io P) (array_split v P) (split_lengths io v P HP HL)) as (Q & EQ & SQ & CQ).
  exists Q. split; [|split; [|split]].
  - unfold prob_with_emulated_volumes. rewrite (emulated_eq (length io) near blocks HN). fold pts.
    assert (map (fun i => Fin (fraction near pts i)) (seq 0 (length io)) = map Fin v) as ->.
    { unfold v. rewrite map_map. reflexivity. }
    rewrite array_split_map. apply xprob_fin. exact EQ.
  - apply Forall2_length in SQ. rewrite SQ. apply array_split_length. exact HP.
  - exact SQ.
  - intros j o Ho. rewrite CQ, !array_split_concat by exact HP.
    assert (Hj : j < length io) by (apply nth_error_Some; congruence).
    erewrite map_nth_error.
    2:{ instantiate (1 := (o, qn (points_in near pts j) / qn (length pts))%Qc).
        assert (Hv : nth_error v j = Some (qn (points_in near pts j) / qn (length pts))%Qc).
        { unfold v. erewrite map_nth_error; [reflexivity|]. rewrite nth_error_seq. apply Nat.ltb_lt in Hj. rewrite Hj. reflexivity. }
        apply nth_combine; assumption. }
    f_equal. apply share_frac; auto.
Qed.

Lemma emulated_concat {X} probs io (near : X -> nat) blocks : (forall x, In x (concat blocks) -> near x < length io) ->
  exists E, prob_on_emulated_samples probs io (map (map near) blocks) = Ok E /\
    concat E = map (fun x => pweight probs io near (concat blocks) (nth (near x) io 0)) (concat blocks).
Proof.
  intros Hnear. set (pts := concat blocks) in *.
  assert (HC : concat (map (map near) blocks) = map near pts) by (apply concat_map_map').
  destruct (follow_ok io (map (map near) blocks)) as (ptrs & E & Hs & Hk).
  { intros k Hk. rewrite HC in Hk. apply in_map_iff in Hk. destruct Hk as (x & <- & Hx). auto. }
  destruct (prob_concat probs ptrs (ones ptrs) (ones_lengths ptrs)) as (Q & HQ & HlQ & Hc).
  exists Q. unfold prob_on_emulated_samples. rewrite E. cbn [bind]. rewrite emulated_is_prob. split; [exact HQ|].
  assert (HP : concat ptrs = map (fun x => nth (near x) io 0) pts).
  { apply nth_error_ext. intros j. rewrite HC in Hk.
    destruct (nth_error pts j) as [x|] eqn:Ex.
    - rewrite (Hk j (near x)) by (apply map_nth_error; exact Ex).
      rewrite (map_nth_error (fun x => nth (near x) io 0) j pts Ex). apply nth_error_nth'. apply Hnear. eapply nth_error_In; eauto.
    - apply nth_error_None in Ex. transitivity (@None nat); [|symmetry]; apply nth_error_None.
      + rewrite (same_lengths_concat _ _ Hs), HC, map_length. exact Ex.
      + rewrite map_length. exact Ex. }
  rewrite Hc, ones_concat, combine_app_eq, HP, !map_map. apply map_ext_in. intros x Hx.
  rewrite <- (map_map (fun x => nth (near x) io 0) (fun k => (k, 1%Qc))). apply (share_ones probs io near pts Hnear).
Qed.

(** ** The theorems *)
Lemma emulated_agree {X} probs io (near : X -> nat) P blocks : 0 < P -> concat blocks <> [] ->
  (forall x, In x (concat blocks) -> near x < length io) ->
  exists q E, prob_with_emulated_volumes probs io near P blocks = Ok (map (map Fin) q) /\ length q = P /\
    prob_on_emulated_samples probs io (map (map near) blocks) = Ok E /\
    length (concat q) = length io /\
    forall j, j < length io -> nth_error (concat q) j = Some (weight_in near (concat blocks) (concat E) j).
Proof.
  intros HP HN Hnear. destruct (with_emulated_eq probs io near P blocks HP HN Hnear) as (q & Eq & Lq & Sq & Vq).
  destruct (emulated_concat probs io near blocks Hnear) as (E & EE & CE). exists q, E.
  split; [exact Eq|]. split; [exact Lq|]. split; [exact EE|]. split.
  - rewrite (same_lengths_concat _ _ Sq), array_split_concat by exact HP. reflexivity.
  - intros j Hj. destruct (nth_error io j) as [o|] eqn:Ho; [|apply nth_error_None in Ho; lia].
    rewrite (Vq j o Ho). f_equal. rewrite CE. symmetry. apply weight_sum. exact Ho.
Qed.
Lemma emulated_formula {X} probs io (near : X -> nat) P blocks q : 0 < P -> concat blocks <> [] ->
  (forall x, In x (concat blocks) -> near x < length io) ->
  prob_with_emulated_volumes probs io near P blocks = Ok q ->
  forall j o p, nth_error io j = Some o -> nth_error probs o = Some p -> (0 <= p)%Qc -> 0 < points_over near io (concat blocks) o ->
  nth_error (concat q) j = Some (Fin (p * qn (points_in near (concat blocks) j) / qn (points_over near io (concat blocks) o))%Qc).
Proof.
  intros HP HN Hnear Eq j o p Ho Hp P0 H0. destruct (with_emulated_eq probs io near P blocks HP HN Hnear) as (q' & Eq' & _ & _ & V).
  rewrite Eq in Eq'. injection Eq' as ->. unfold fins. rewrite concat_map_map'.
  rewrite (map_nth_error Fin j (concat q') (V j o Ho)). do 2 f_equal. unfold pweight. rewrite Hp.
  apply Nat.ltb_lt in H0. rewrite H0, andb_true_r. destruct (qltb_spec 0 p) as [Pp|Pp].
  - unfold Qcdiv. ring.
  - assert (p = 0)%Qc as -> by qc_lra. unfold Qcdiv. ring.
Qed.
Lemma combine_map_snd_sum {X} (near : X -> nat) pts (f : X -> Qc) n : (forall x, In x pts -> near x < n) ->
  qsum (map f pts) = qsum (map (weight_in near pts (map f pts)) (seq 0 n)).
Proof.
  intros H. unfold weight_in. rewrite combine_app_eq.
  transitivity (qsum (map (fun j => qsum (map (fun x => ind (near x =? j) (f x)) pts)) (seq 0 n))).
  - rewrite (qsum_swap (fun j x => ind (near x =? j) (f x))). apply qsum_map_ext. intros x Hx. symmetry. apply qsum_ind_seq. auto.
  - apply qsum_map_ext. intros j _. rewrite filter_map_comm, map_map. cbn [fst snd]. rewrite qsum_filter. reflexivity.
Qed.
Lemma nth_all {A} (l : list A) (f : nat -> A) : (forall j, j < length l -> nth_error l j = Some (f j)) -> l = map f (seq 0 (length l)).
Proof.
  intros H. apply nth_error_ext. intros j. destruct (Nat.lt_ge_cases j (length l)) as [L|L].
  - rewrite H by exact L. symmetry. apply map_nth_error. rewrite nth_error_seq. apply Nat.ltb_lt in L. rewrite L. reflexivity.
  - transitivity (@None A); [|symmetry]; apply nth_error_None; [exact L|]. rewrite map_length, seq_length. exact L.
Qed.
Lemma emulated_totals {X} probs io (near : X -> nat) P blocks : 0 < P -> concat blocks <> [] ->
  (forall x, In x (concat blocks) -> near x < length io) -> (forall o, In o io -> o < length probs) -> nonneg probs ->
  exists q, prob_with_emulated_volumes probs io near P blocks = Ok (map (map Fin) q) /\
    (qsum (concat q) <= qsum probs)%Qc /\
    (qsum (concat q) = qsum probs <->
     forall i p, nth_error probs i = Some p -> (0 < p)%Qc -> 0 < points_over near io (concat blocks) i).
Proof.
  intros HP HN Hnear Hio Hpos. set (pts := concat blocks) in *.
  set (v := map (fun j => qn (points_in near pts j) / qn (length pts))%Qc (seq 0 (length io))).
  assert (Hn : 0 < length pts) by (destruct pts; [congruence|simpl; lia]).
  assert (HL : length io = length v) by (unfold v; rewrite map_length, seq_length; reflexivity).
  destruct (prob_concat probs (array_split io P) (array_split v P) (split_lengths io v P HP HL)) as (Q & EQ & SQ & CQ).
  exists Q. split.
  - unfold prob_with_emulated_volumes. rewrite (emulated_eq (length io) near blocks HN). fold pts.
    assert (map (fun i => Fin (fraction near pts i)) (seq 0 (length io)) = map Fin v) as ->.
    { unfold v. rewrite map_map. reflexivity. }
    rewrite array_split_map. apply xprob_fin. exact EQ.
  - assert (Hpt : forall i, In i (concat (array_split io P)) -> i < length probs) by (rewrite array_split_concat by exact HP; exact Hio).
    destruct (prob_total_iff_lemma probs _ _ Q (split_lengths io v P HP HL) Hpos Hpt EQ) as [T1 T2].
    split; [exact T1|]. rewrite T2, !array_split_concat by exact HP.
    assert (G : forall i, (0 < total_in (combine io v) i)%Qc <-> 0 < points_over near io pts i).
    { intros i. unfold v. rewrite total_over by assumption. pose proof (qn_pos _ Hn) as Pn. split; intros H.
      - destruct (points_over near io pts i) eqn:Z; [|lia]. rewrite qn_0 in H. unfold Qcdiv in H. rewrite Qcmult_0_l in H. exfalso. revert H. apply Qcle_not_lt. apply Qcle_refl.
      - apply qc_div_pos; [apply qn_pos, H|exact Pn]. }
    split; intros H i p Hi Hp; apply G; apply (H i p Hi Hp).
Qed.

(** Without emulated points all volumes are nan, and no probability is assigned. *)
Lemma xadd_nan y : xadd NaN y = NaN.
Proof. destruct y; reflexivity. Qed.
Lemma nan_sum l : (forall x, In x l -> x = NaN) -> xltb (Fin 0) (xsum l) = false.
Proof.
  destruct l as [|x l]; intros H; [reflexivity|]. cbn [xsum fold_right]. rewrite (H x (or_introl eq_refl)), xadd_nan. reflexivity.
Qed.
Lemma nan_or_zero l : (forall x, In x l -> x = NaN \/ x = Fin 0) -> xltb (Fin 0) (xsum l) = false.
Proof.
  intros H. assert (G : xsum l = NaN \/ xsum l = Fin 0).
  { induction l as [|x l IH]; cbn [xsum fold_right]; [right; reflexivity|].
    destruct (H x (or_introl eq_refl)) as [-> | ->]; [left; apply xadd_nan|].
    destruct IH as [E|E]; [intros; apply H; right; assumption| |]; unfold xsum in E; rewrite E; [left; reflexivity|right].
    cbn [xadd]. f_equal. }
  destruct G as [-> | ->]; reflexivity.
Qed.
Lemma zip_in {A} ptrs (vals : list (list A)) bs : zip_blocks ptrs vals = Ok bs -> forall b, In b bs -> forall e, In e b -> In (snd e) (concat vals).
Proof.
  revert vals bs. induction ptrs as [|p ps IH]; intros [|v vs] bs; cbn [zip_blocks]; try discriminate.
  - intros [= <-] b [].
  - destruct (length p =? length v); [|discriminate]. destruct (zip_blocks ps vs) as [r|] eqn:Z; [|discriminate]. cbn [bind]. intros [= <-] b [<-|Hb] e He.
    + cbn [concat]. apply in_or_app. left. destruct e as [a w]. apply in_combine_r in He. exact He.
    + cbn [concat]. apply in_or_app. right. eapply IH; eauto.
Qed.
Lemma no_points {X} probs io (near : X -> nat) P blocks : 0 < P -> concat blocks = [] ->
  exists q, prob_with_emulated_volumes probs io near P blocks = Ok q /\ concat q = repeat (Fin 0) (length io).
Proof.
  intros HP HN. unfold prob_with_emulated_volumes, xprob.
  assert (V : estimate_volume_emulated (length io) near blocks = repeat NaN (length io)).
  { unfold estimate_volume_emulated. rewrite <- concat_length, HN, allreduce_counts, HN. cbn [map length]. rewrite cell_counts_nil.
    unfold zeros. induction (length io) as [|n IH]; cbn [repeat map]; [reflexivity|]. rewrite IH. reflexivity. }
  rewrite V.
  assert (Z : forall ptrs : list (list nat), concat (map (fun p => repeat (Fin 0) (length p)) ptrs) = repeat (Fin 0) (length (concat ptrs))).
  { induction ptrs as [|p ps IH]; cbn [map concat]; [reflexivity|]. rewrite IH, app_length, repeat_app. reflexivity. }
  destruct (existsb (qltb 0) probs).
  2:{ eexists. split; [reflexivity|]. rewrite Z, array_split_concat by exact HP. reflexivity. }
  destruct (zip_blocks (array_split io P) (array_split (repeat NaN (length io)) P)) as [bs|e] eqn:EZ.
  2:{ rewrite (zip_blocks_ok _ _ (split_lengths io (repeat NaN (length io)) P HP (eq_sym (repeat_length _ _)))) in EZ. discriminate. }
  cbn [bind]. eexists. split; [reflexivity|].
  pose proof (zip_in _ _ _ EZ) as HI. rewrite array_split_concat in HI by exact HP.
  assert (HB : forall b, In b bs -> forall e, In e b -> snd e = NaN) by (intros b Hb e He; exact (repeat_spec _ _ _ (HI b Hb e He))).
  assert (F : forall l acc, fold_left (xprob_step bs) l acc = acc).
  { induction l as [|[i p] l IH]; intros acc; cbn [fold_left]; [reflexivity|].
    assert (xprob_step bs acc (i, p) = acc) as ->; [|apply IH].
    unfold xprob_step. destruct (qltb 0 p); [|reflexivity].
    rewrite nan_or_zero; [reflexivity|]. intros x Hx. apply in_map_iff in Hx. destruct Hx as (b & <- & Hb).
    unfold xlocal_sum.
    assert (A : forall y, In y (map snd (filter (fun e => fst e =? i) b)) -> y = NaN).
    { intros y Hy. apply in_map_iff in Hy. destruct Hy as (e & <- & He). apply filter_In in He. apply (HB b Hb e). tauto. }
    destruct (map snd (filter (fun e => fst e =? i) b)) as [|y l']; [right; reflexivity|].
    left. cbn [xsum fold_right]. rewrite (A y (or_introl eq_refl)). apply xadd_nan. }
  rewrite F, Z, array_split_concat by exact HP. reflexivity.
Qed.

(** ** Layout *)
Lemma filter_perm_len {A} (f : A -> bool) l m : Permutation l m -> length (filter f l) = length (filter f m).
Proof. apply filter_perm_length. Qed.
Lemma emulated_layout {X} probs io (near : X -> nat) P P' blocks blocks' : 0 < P -> 0 < P' ->
  (forall x, In x (concat blocks) -> near x < length io) -> Permutation (concat blocks) (concat blocks') ->
  exists q q', prob_with_emulated_volumes probs io near P blocks = Ok q /\
    prob_with_emulated_volumes probs io near P' blocks' = Ok q' /\ concat q = concat q'.
Proof.
  intros HP HP' Hn Pm. destruct (concat blocks) as [|x0 r] eqn:EC.
  - apply Permutation_nil in Pm. destruct (no_points probs io near P blocks HP EC) as (q & Eq & Cq).
    destruct (no_points probs io near P' blocks' HP' Pm) as (q' & Eq' & Cq'). exists q, q'. split; [exact Eq|]. split; [exact Eq'|]. congruence.
  - rewrite <- EC in *. assert (N : concat blocks <> []) by (rewrite EC; discriminate).
    assert (N' : concat blocks' <> []).
    { intros Z. rewrite Z in Pm. apply Permutation_sym, Permutation_nil in Pm. contradiction. }
    assert (Hn' : forall x, In x (concat blocks') -> near x < length io).
    { intros x Hx. apply Hn. apply (Permutation_in _ (Permutation_sym Pm)). exact Hx. }
    destruct (with_emulated_eq probs io near P blocks HP N Hn) as (q & Eq & _ & Sq & V).
    destruct (with_emulated_eq probs io near P' blocks' HP' N' Hn') as (q' & Eq' & _ & Sq' & V').
    exists (fins q), (fins q'). split; [exact Eq|]. split; [exact Eq'|]. unfold fins. rewrite !concat_map_map'. f_equal.
    apply nth_error_ext. intros j. destruct (nth_error io j) as [o|] eqn:Ho.
    + rewrite (V j o Ho), (V' j o Ho). unfold pweight, points_in, points_over.
      rewrite !(filter_perm_len _ _ _ Pm). reflexivity.
    + apply nth_error_None in Ho. transitivity (@None Qc); [|symmetry]; apply nth_error_None.
      * rewrite (same_lengths_concat _ _ Sq), array_split_concat; assumption.
      * rewrite (same_lengths_concat _ _ Sq'), array_split_concat; assumption.
Qed.

Lemma xlist2_eq (l m : list (list xnum)) : map (map xshow) l = map (map xshow) m -> l = m.
Proof.
  revert m; induction l as [|x l IH]; intros [|y m] H; simpl in *; try discriminate; [reflexivity|].
  injection H as H1 H2. f_equal; [apply xlist_eq, H1 | apply IH, H2].
Qed.
