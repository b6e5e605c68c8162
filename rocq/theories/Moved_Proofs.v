From Coq Require Import List Arith Bool QArith Qcanon Lia.
From Verif Require Import Err Num NumPy Lists SampleSet_Model SampleSet_Spec SampleSet_Proofs Prob_Model Prob_Spec Prob_Proofs
  Disc_Model Disc_Spec Disc_Proofs Workflow_Model Workflow_Spec Workflow_Proofs Stable_Spec Stable_Proofs DataUnif_Proofs Batches_Proofs Batches2_Proofs Restart_Proofs Clipped_Proofs Emulated_Model Emulated_Spec Emulated_Proofs
  ErrorDisc_Model ErrorDisc_Proofs Surrogate_Proofs Moved_Model Moved_Spec.
Import ListNotations.
Local Open Scope nat_scope.
Local Open Scope err_scope.

Lemma probability_parts nn zs (xs : list cell) q j : length q = length xs -> probability_in nn zs xs q j = total_in (combine (map (nn zs) xs) q) j.
Proof. intros L. unfold probability_in. symmetry. apply (parts_weights (nn zs) xs q j L). Qed.
Lemma scalar_vecs (Q : list (list Qc)) : scalar_blocks (map vec_arr Q) = Ok Q.
Proof. induction Q as [|q Q IH]; [reflexivity|]. cbn [map scalar_blocks rows vec_arr]. rewrite scalars_nums. cbn [bind]. rewrite IH. reflexivity. Qed.
Lemma carries_localized P d xs q s : 0 < P -> carries d xs q s ->
  exists s1, localized P s = Ok s1 /\ carries d xs q s1 /\ distributed d xs q s1 /\ glob s1 = glob s.
Proof.
  intros HP (V & D & H). destruct H as [H|(L & GV & GP)].
  - pose proof H as (B & Q & LV & _). exists s. unfold localized. rewrite LV. split; [reflexivity|]. split; [|split; [exact H|reflexivity]]. split; [exact V|]. split; [exact D|left; exact H].
  - unfold localized. rewrite L. unfold global_to_local. rewrite (valid_count P _ _ V). cbn [bind]. eexists. split; [reflexivity|].
    assert (X : distributed d xs q (mk_sset (dim s) (glob s) (fun a => match glob s a with Some x => Some (split_arr P x) | None => loc s a end) (Some (array_split (seq 0 (length xs)) P)) (kd s) (domain s) (weights s))).
    { exists (array_split xs P), (array_split q P). cbn [loc]. rewrite GV, GP. split; [rewrite split_rows; reflexivity|]. split; [apply array_split_concat; exact HP|]. split; [unfold vec_arr; rewrite split_rows, array_split_map, map_map; reflexivity|]. split; [apply array_split_concat; exact HP|].
      apply split_same_lengths; [exact HP|]. pose proof (proj1 V _ _ GP) as E. cbn [rows vec_arr] in E. rewrite map_length in E. exact E. }
    split; [|split; [exact X|reflexivity]]. split; [exact V|]. split; [exact D|left; exact X].
Qed.
Lemma distributed_length d xs q s : distributed d xs q s -> length q = length xs.
Proof. intros (B & Q & _ & <- & _ & <- & S). apply same_lengths_concat. exact S. Qed.

Section Sums.
Context (nn : list cell -> cell -> nat) (P d : nat) (HP : 0 < P).
Lemma sums_lemma xs q zs s1 new : zs <> [] -> distributed d xs q s1 -> target d zs new ->
  exists bs ptr new1, loc_values s1 = Ok bs /\ query_blocks nn P bs new = Ok (ptr, new1) /\ cell_sums (length zs) ptr s1 = Ok (moved nn zs xs q) /\
    target d zs new1 /\ loc new1 = loc new /\ same_data new new1.
Proof.
  intros NZ H T. pose proof (distributed_length _ _ _ _ H) as LQ. destruct H as (B & Q & LV & CB & LP & CQ & S).
  destruct (held_query nn P d new zs (map (fun b => mk_arr b [d]) B) T) as (new1 & E & T1 & SD & L1 & _).
  { intros b Hb. apply in_map_iff in Hb. destruct Hb as (r & <- & _). reflexivity. }
  exists (map (fun b => mk_arr b [d]) B), (map (map (nn zs)) B), new1. split; [unfold loc_values; rewrite LV; reflexivity|]. split; [rewrite E, map_map; reflexivity|]. split; [|split; [exact T1|split; [exact L1|exact SD]]].
  unfold cell_sums. destruct (Nat.eqb_spec (length zs) 0) as [Z|_]; [destruct zs; [contradiction|discriminate]|]. rewrite LP. cbn [subscript bind]. rewrite scalar_vecs. cbn [bind].
  rewrite transfer_lemma.
  - f_equal. unfold moved. apply map_ext. intros j. rewrite <- concat_map, CB, CQ. symmetry. apply probability_parts. exact LQ.
  - clear -S. unfold same_lengths in *. induction S as [|x y X Y H S IH]; constructor; [rewrite map_length; symmetry; exact H|exact IH].
Qed.
Lemma moved_length zs xs q : length (moved nn zs xs q) = length zs.
Proof. unfold moved. rewrite map_length, seq_length. reflexivity. Qed.
Lemma target_stored zs new r : target d zs new -> length r = length zs -> target d zs (set_glob Probabilities (Some (vec_arr r)) new).
Proof. intros T L. apply held_set_glob; [exact T|discriminate|]. cbn [rows vec_arr]. rewrite map_length. exact L. Qed.
Lemma transfer_set_lemma xs q zs old new : zs <> [] -> carries d xs q old -> target d zs new ->
  exists old1 new1, transfer_set nn P old new = Ok (old1, new1, moved nn zs xs q) /\ carries d xs q old1 /\ glob old1 = glob old /\
    target d zs new1 /\ loc new1 = loc new /\ glob new1 Probabilities = Some (vec_arr (moved nn zs xs q)) /\ (forall a, a <> Probabilities -> a <> KdtreeValues -> glob new1 a = glob new a).
Proof.
  intros NZ C T. unfold transfer_set. destruct C as (V & D & H). rewrite (valid_count P _ _ V). cbn [bind]. rewrite (held_count P d new zs T). cbn [bind].
  rewrite D, (proj1 (proj2 (proj2 T))), Nat.eqb_refl. cbn [negb]. destruct (carries_localized P d xs q old HP (conj V (conj D H))) as (old1 & -> & C1 & D1 & G1). cbn [bind].
  destruct (sums_lemma xs q zs old1 new NZ D1 T) as (bs & ptr & new1 & -> & E2 & E3 & T1 & L1 & SD). cbn [bind]. rewrite E2. cbn [bind fst snd]. rewrite E3. cbn [bind].
  eexists. eexists. split; [reflexivity|]. split; [exact C1|]. split; [exact G1|]. split; [apply target_stored; [exact T1|apply moved_length]|]. split; [exact L1|].
  cbn [set_glob glob]. split; [apply upd_same|]. intros a Na Nk. rewrite upd_other by exact Na. apply SD. exact Nk.
Qed.
Lemma transfer_disc_lemma xs q zs d0 em inp out n new : zs <> [] -> (d_ein d0 = Some em \/ d_ein d0 = None /\ em = inp) -> d_in d0 = Some inp -> dim inp = d -> d_out d0 = Some out ->
  check_num P inp = Ok n -> check_num P out = Ok n -> carries d xs q em -> target d zs new ->
  exists d1 new1, transfer_disc nn P d0 new = Ok (d1, new1, moved nn zs xs q) /\
    target d zs new1 /\ loc new1 = loc new /\ glob new1 Probabilities = Some (vec_arr (moved nn zs xs q)) /\ (forall a, a <> Probabilities -> a <> KdtreeValues -> glob new1 a = glob new a).
Proof.
  intros NZ He Hi Di Ho Ci Co C T. unfold transfer_disc. destruct (carries_localized P d xs q em HP C) as (em1 & El & C1 & D1 & G1). pose proof D1 as (B & Q & _ & _ & LP & _).
  destruct (sums_lemma xs q zs em1 new NZ D1 T) as (bs & ptr & new1 & E1 & E2 & E3 & T1 & L1 & SD).
  assert (CN : forall i x (d1 : disc cell), d_in d1 = Some i -> d_out d1 = Some out -> check_num P i = Ok n -> check_nums P d1 = Ok x -> x = n).
  { intros i x d1 H1 H2 H3. unfold check_nums. rewrite H1, H2. cbn [need bind]. rewrite Co, H3. cbn [bind]. rewrite Nat.eqb_refl. destruct (glob out Values); [destruct (glob i Values)|]; intros [= <-]; reflexivity. }
  assert (CK : forall i (d1 : disc cell), d_in d1 = Some i -> d_out d1 = Some out -> check_num P i = Ok n -> check_nums P d1 = Ok n).
  { intros i d1 H1 H2 H3. unfold check_nums. rewrite H1, H2. cbn [need bind]. rewrite Co, H3. cbn [bind]. rewrite Nat.eqb_refl. destruct (glob out Values); [destruct (glob i Values)|]; reflexivity. }
  destruct He as [He|[He ->]]; rewrite He.
  - cbn [bind]. rewrite El. cbn [bind]. rewrite LP. cbn [need bind]. rewrite (CK inp (with_ein (Some em1) d0)) by assumption. cbn [bind]. rewrite (held_count P d new zs T). cbn [bind with_ein d_in]. rewrite Hi. cbn [need bind].
    rewrite Di, (proj1 (proj2 (proj2 T))), Nat.eqb_refl. cbn [negb]. rewrite E1. cbn [bind]. rewrite E2. cbn [bind fst snd]. rewrite E3. cbn [bind].
    eexists. eexists. split; [reflexivity|]. split; [apply target_stored; [exact T1|apply moved_length]|]. split; [exact L1|]. cbn [set_glob glob]. split; [apply upd_same|]. intros a Na Nk. rewrite upd_other by exact Na. apply SD. exact Nk.
  - rewrite Hi. cbn [need bind]. rewrite El. cbn [bind]. rewrite LP. cbn [need bind].
    assert (C1' : check_num P em1 = Ok n). { rewrite (valid_count P _ _ (proj1 C1)). rewrite (valid_count P _ _ (proj1 C)) in Ci. exact Ci. }
    rewrite (CK em1 (with_in (Some em1) d0)) by (try assumption; reflexivity). cbn [bind]. rewrite (held_count P d new zs T). cbn [bind with_in d_in need].
    rewrite (proj1 (proj2 C1)), (proj1 (proj2 (proj2 T))), Nat.eqb_refl. cbn [negb]. rewrite E1. cbn [bind]. rewrite E2. cbn [bind fst snd]. rewrite E3. cbn [bind].
    eexists. eexists. split; [reflexivity|]. split; [apply target_stored; [exact T1|apply moved_length]|]. split; [exact L1|]. cbn [set_glob glob]. split; [apply upd_same|]. intros a Na Nk. rewrite upd_other by exact Na. apply SD. exact Nk.
Qed.
Lemma moved_total zs xs q : length q = length xs -> (forall x, In x xs -> nn zs x < length zs) -> qsum (moved nn zs xs q) = qsum q.
Proof.
  intros L B. unfold moved. rewrite (map_ext _ (total_in (combine (map (nn zs) xs) q))) by (intros j; apply probability_parts; exact L).
  rewrite <- total_in_split; [rewrite combine_snd; [reflexivity|rewrite map_length; symmetry; exact L]|]. intros [a b] He. apply in_combine_l in He. apply in_map_iff in He. destruct He as (x & <- & Hx). apply B. exact Hx.
Qed.
(** Again moved: the nearest sample of the nearest sample *)
Lemma moved_again zs ws xs q : length q = length xs -> (forall x, In x xs -> nn zs x < length zs) ->
  moved nn ws zs (moved nn zs xs q) = map (fun j => qsum (map snd (filter (fun xq => nn ws (nth (nn zs (fst xq)) zs (fst xq)) =? j) (combine xs q)))) (seq 0 (length ws)).
Proof.
  intros L B. unfold moved at 1. apply map_ext. intros j. rewrite probability_parts by apply moved_length. unfold moved.
  set (l := combine (map (nn zs) xs) q). rewrite (map_ext _ (total_in l)) by (intros i; apply probability_parts; exact L).
  assert (B' : forall e, In e l -> fst e < length zs). { intros [a b] He. apply in_combine_l in He. apply in_map_iff in He. destruct He as (x & <- & Hx). apply B. exact Hx. }
  destruct zs as [|z0 zs0] eqn:EZ.
  { destruct xs as [|x xs']; [|exfalso; specialize (B x (or_introl eq_refl)); cbn in B; lia]. destruct q; [reflexivity|discriminate]. }
  rewrite <- EZ in *. set (f := fun k => nn ws (nth k zs z0)). transitivity (total_in (map (fun e => (f (fst e), snd e)) l) j).
  - rewrite (total_in_map_fst f l j (length zs) B'). f_equal. generalize (total_in l). intros tot. unfold f. clear. 
    assert (G : forall s (l : list cell) , combine (map (nn ws) l) (map tot (seq s (length l))) = map (fun k => (nn ws (nth (k - s) l z0), tot k)) (seq s (length l))).
    { intros s l. revert s. induction l as [|a l IH]; intros s; [reflexivity|]. cbn [map length seq combine]. rewrite Nat.sub_diag. f_equal. rewrite IH. apply map_ext_in. intros k Hk. apply in_seq in Hk. replace (k - s) with (S (k - S s)) by lia. reflexivity. }
    rewrite (G 0 zs). apply map_ext. intros k. rewrite Nat.sub_0_r. reflexivity.
  - unfold total_in, l, f. rewrite <- EZ in *. clear -L B. revert q L. induction xs as [|x xs IH]; intros [|a q] L; try discriminate; [reflexivity|]. cbn [map combine filter fst snd]. injection L as L.
    rewrite (nth_indep zs x z0) by (apply B; left; reflexivity). destruct (nn ws (nth (nn zs x) zs z0) =? j); cbn [map snd qsum]; rewrite (IH (fun y Hy => B y (or_intror Hy)) q L); reflexivity.
Qed.
Lemma moved_carries zs r new : loc new Values = None -> target d zs new -> glob new Probabilities = Some (vec_arr r) -> carries d zs r new.
Proof. intros L (V & _ & D & G) GP. split; [exact V|]. split; [exact D|]. right. split; [exact L|]. split; assumption. Qed.
End Sums.
