From Coq Require Import List Arith Lia.
From Verif Require Import Err NumPy SampleSet_Model SampleSet_Spec SampleSet_Proofs Extend_Model Extend_Spec Extend_Proofs.
Import ListNotations.
Local Open Scope nat_scope.
Local Open Scope err_scope.

(** C190: rows appended in any order. *)
Theorem extended_rows : forall R (s : sset R) f sh l, has_parts s f sh -> fitting_shapes sh l ->
  exists s1, append_parts Appending l s = Ok s1 /\ has_parts s1 (fun p => f p ++ given_to p l) sh /\ (forall a, (forall p, a <> array_of p) -> glob s1 a = glob s a) /\ dim s1 = dim s /\ loc s1 = loc s.
Proof. intros R s f sh l. apply (append_lemma sh l f s). Qed.
Print Assumptions extended_rows.
(** The set is accepted exactly if all arrays have grown to the same number. *)
Theorem extended_check : forall R P (s s1 : sset R) f sh l, has_parts s f sh -> sh PValues = [dim s] -> fitting_shapes sh l -> append_parts Appending l s = Ok s1 ->
  (forall n, check_num P s1 = Ok n <-> (forall p, length (f p) + length (given_to p l) = n) /\ forall a x, (forall p, a <> array_of p) -> glob s a = Some x -> length (rows x) = n) /\
  (only_parts s -> (check_num P s1 = Raise LengthNotMatching <-> exists p q, length (f p) + length (given_to p l) <> length (f q) + length (given_to q l))) /\
  shape s1 = Ok [length (f PValues) + length (given_to PValues l); dim s].
Proof.
  intros R P s s1 f sh l H W F E. destruct (append_lemma sh l f s H F) as (s2 & E2 & H2 & O2 & D2 & _). rewrite E in E2. injection E2 as <-. split; [|split].
  - intros n. rewrite (count_iff P s1 _ sh n H2) by (rewrite D2; exact W). split; intros [A B]; (split; [intros p; specialize (A p); rewrite app_length in *; exact A|]); intros a x Na G; apply (B a x Na); [rewrite O2 by exact Na; exact G|rewrite <- O2 by exact Na; exact G].
  - intros O. rewrite (refuse_iff P s1 _ sh H2) by (intros a Na; rewrite O2 by exact Na; apply O; exact Na). split; intros (p & q & N); exists p, q; rewrite !app_length in *; exact N.
  - unfold shape. pose proof (H2 PValues) as V. cbn [array_of] in V. rewrite V. unfold shape_of. cbn [rows tail_shape]. rewrite app_length, W. reflexivity.
Qed.
Print Assumptions extended_check.
(** An array of another shape is refused. *)
Theorem extended_shape_refused : forall R (s : sset R) f sh l1 p x l2, has_parts s f sh -> fitting_shapes sh l1 -> tail_shape x <> sh p -> append_parts Appending (l1 ++ (p, x) :: l2) s = Raise PyValueError.
Proof. intros R s f sh l1 p x l2 H F N. apply (append_raises l1 l2 Appending p x f sh s eq_refl H F N). Qed.
Print Assumptions extended_shape_refused.
(** So is one for an array that does not exist. *)
Theorem extended_missing_refused : forall R (s : sset R) p x l, glob s (array_of p) = None -> append_parts Appending ((p, x) :: l) s = Raise PyValueError.
Proof. intros R s p x l. apply append_missing. Qed.
Print Assumptions extended_missing_refused.
(** Distributed afterwards, every process gets the samples, Jacobians and errors of
    the same numbers, and nothing is lost when they are gathered. *)
Theorem extended_distributed_partial : forall R P (s s1 : sset R) f sh l n, 0 < P -> has_parts s f sh -> sh PValues = [dim s] -> only_parts s -> (forall a, loc s a <> None -> exists p, a = array_of p) -> fitting_shapes sh l ->
  append_parts Appending l s = Ok s1 -> (forall p, length (f p) + length (given_to p l) = n) ->
  exists s2 s3, global_to_local P s1 = Ok s2 /\ local_to_global s2 = Ok s3 /\ has_parts s3 (fun p => f p ++ given_to p l) sh /\
    (forall p, exists bs, loc s2 (array_of p) = Some bs /\ concat (map rows bs) = f p ++ given_to p l) /\
    (forall p q bs cs, loc s2 (array_of p) = Some bs -> loc s2 (array_of q) = Some cs -> map (fun b => length (rows b)) bs = map (fun c => length (rows c)) cs) /\
    shape_local s2 = Ok (map (fun k => [k; dim s]) (map (fun r => n / P + if r <? n mod P then 1 else 0) (seq 0 P))).
Proof.
  intros R P s s1 f sh l n HP H W O OL F E L. destruct (append_lemma sh l f s H F) as (s2 & E2 & H2 & O2 & D2 & L2). rewrite E in E2. injection E2 as <-.
  assert (C : check_num P s1 = Ok n). { apply (count_iff P s1 _ sh n H2); [rewrite D2; exact W|]. split; [intros p; rewrite app_length; apply L|]. intros a x Na G. rewrite O2, (O a Na) in G by exact Na. discriminate. }
  unfold global_to_local. rewrite C. cbn [bind]. set (t := mk_sset _ _ _ _ _ _ _).
  assert (LT : forall p, loc t (array_of p) = Some (split_arr P (mk_arr (f p ++ given_to p l) (sh p)))) by (intros p; unfold t; cbn [loc]; rewrite (H2 p); reflexivity).
  assert (LN : forall a, (forall p, a <> array_of p) -> loc t a = None).
  { intros a Na. unfold t. cbn [loc]. rewrite O2, (O a Na) by exact Na. rewrite L2. destruct (loc s a) eqn:Ea; [|reflexivity]. destruct (OL a) as [p ->]; [congruence|]. exfalso. apply (Na p). reflexivity. }
  destruct (gather_attrs_total all_attrs t) as [s3 E3].
  { intros a bs _ G. assert (D : (exists p, a = array_of p) \/ forall p, a <> array_of p).
    { destruct a; ((left; exists PValues; reflexivity) || (left; exists PJacobians; reflexivity) || (left; exists PErrors; reflexivity) || (right; intros []; discriminate)). }
    destruct D as [[p ->]|D]; [rewrite LT in G; injection G as <-; eexists; apply gather_split; exact HP|rewrite (LN a D) in G; discriminate]. }
  exists t, s3. split; [reflexivity|]. split; [exact E3|]. split; [|split; [|split]].
  - intros p. destruct (local_to_global_spec _ _ E3) as (_ & _ & _ & _ & _ & _ & I). specialize (I (array_of p)). rewrite LT in I. destruct I as (g & Hg & ->). rewrite gather_split in Hg by exact HP. injection Hg as <-. reflexivity.
  - intros p. eexists. split; [apply LT|]. rewrite split_arr_rows. apply array_split_concat. exact HP.
  - intros p q bs cs Hb Hc. rewrite LT in Hb, Hc. injection Hb as <-. injection Hc as <-. unfold split_arr. rewrite !map_map. cbn [rows]. apply split_lengths; [exact HP|]. rewrite !app_length, !L. reflexivity.
  - unfold shape_local. pose proof (LT PValues) as V. cbn [array_of] in V. rewrite V. f_equal. unfold split_arr. rewrite map_map. cbn [rows tail_shape].
    replace n with (length (f PValues ++ given_to PValues l)) by (rewrite app_length; apply L). rewrite <- Disc_Proofs.array_split_lengths by exact HP. rewrite map_map. apply map_ext. intros b. unfold shape_of. cbn [rows tail_shape]. rewrite W. reflexivity.
Qed.
Print Assumptions extended_distributed_partial.
(** Without that, the arrays distributed before come back and the appended rows are
    lost. *)
Theorem extended_lost_refuted : forall R P (s s0 s1 : sset R) f sh l, 0 < P -> has_parts s f sh -> global_to_local P s = Ok s0 -> fitting_shapes sh l -> append_parts Appending l s0 = Ok s1 ->
  (forall a, glob s a = None -> loc s a = None) -> exists s2, local_to_global s1 = Ok s2 /\ has_parts s2 f sh.
Proof.
  intros R P s s0 s1 f sh l HP H G F E N. unfold global_to_local in G. destruct (check_num P s); [|discriminate]. cbn [bind] in G. injection G as <-. set (t := mk_sset _ _ _ _ _ _ _) in E.
  assert (Ht : has_parts t f sh) by (intros p; apply H). destruct (append_lemma sh l f t Ht F) as (s3 & E3 & _ & _ & _ & L3). rewrite E in E3. injection E3 as <-.
  destruct (gather_attrs_total all_attrs s1) as [s4 E4].
  { intros c bs _ Hc. rewrite L3 in Hc. unfold t in Hc. cbn [loc] in Hc. destruct (glob s c) as [x|] eqn:Ec; [injection Hc as <-; eexists; apply gather_split; exact HP|rewrite (N c Ec) in Hc; discriminate]. }
  exists s4. split; [exact E4|]. intros p. destruct (local_to_global_spec _ _ E4) as (_ & _ & _ & _ & _ & _ & I). specialize (I (array_of p)). rewrite L3 in I. unfold t in I. cbn [loc] in I. rewrite (H p) in I. destruct I as (g & Hg & ->). rewrite gather_split in Hg by exact HP. injection Hg as <-. reflexivity.
Qed.
Print Assumptions extended_lost_refuted.
(** Rectangle and ball sets drop everything without an error. *)
Theorem extended_fixed_refuted : forall R (s : sset R) l, append_parts Fixed l s = Ok s.
Proof. intros R s l. apply fixed_lemma. Qed.
Print Assumptions extended_fixed_refuted.

Definition small : sset nat := set_glob ErrorEstimates (Some (mk_arr [10; 11] [])) (set_glob Jacobians (Some (mk_arr [20; 21] [1; 1])) (set_glob Values (Some (mk_arr [30; 31] [1])) (new_sset 1))).
Definition rows_added : list (part * arr nat) := [(PErrors, mk_arr [12] []); (PValues, mk_arr [32] [1]); (PJacobians, mk_arr [22] [1; 1])].
Definition small_rows (p : part) : list nat := match p with PValues => [30; 31] | PJacobians => [20; 21] | PErrors => [10; 11] end.
Definition small_shapes (p : part) : list nat := match p with PValues => [1] | PJacobians => [1; 1] | PErrors => [] end.
Example extended_example : has_parts small small_rows small_shapes /\ only_parts small /\ fitting_shapes small_shapes rows_added /\
  (exists s1, append_parts Appending rows_added small = Ok s1 /\ check_num 2 s1 = Ok 3 /\ shape s1 = Ok [3; 1]) /\
  exists s0 s1 s2, global_to_local 2 small = Ok s0 /\ append_parts Appending rows_added s0 = Ok s1 /\ local_to_global s1 = Ok s2 /\ shape s2 = Ok [2; 1].
Proof.
  split; [intros []; reflexivity|]. split; [intros a N; destruct a; try reflexivity; [destruct (N PValues)|destruct (N PJacobians)|destruct (N PErrors)]; reflexivity|]. split; [repeat constructor|]. split.
  - eexists. split; [reflexivity|]. split; reflexivity.
  - do 3 eexists. split; [reflexivity|]. split; [reflexivity|]. split; reflexivity.
Qed.
