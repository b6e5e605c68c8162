(** Sets a surrogate object works with. *)
From Coq Require Import List Arith Bool QArith Qcanon Lia.
From Verif Require Import Err Num Ext NumPy Lists SampleSet_Model SampleSet_Spec SampleSet_Proofs Prob_Model Prob_Spec Prob_Proofs
  Disc_Model Disc_Spec Disc_Proofs Workflow_Model Workflow_Proofs VolHist_Proofs Error_Model
  ErrorDisc_Model ErrorDisc_Spec ErrorDisc_Proofs ErrorDisc2_Proofs ErrorDisc3_Proofs ErrorDisc4_Proofs Surrogate_Model Surrogate_Spec.
Import ListNotations.
Local Open Scope nat_scope.
Local Open Scope err_scope.

(** A set with these points whose tree, if any, belongs to them. *)
Definition held (d : nat) (s : sset cell) (xs : list cell) : Prop :=
  valid_set s (length xs) /\ tree_current s /\ dim s = d /\ glob s Values = Some (mk_arr xs [d]).
Lemma points_held P d s xs : points_are P d s xs -> held d s xs.
Proof. intros ((V & (T & _) & _) & D & G). repeat split; try assumption; apply V. Qed.
Lemma held_count P d s xs : held d s xs -> check_num P s = Ok (length xs).
Proof. intros (V & _). apply valid_count. exact V. Qed.
Lemma held_query nn P d s ys bs : held d s ys -> (forall b, In b bs -> tail_shape b = [d]) ->
  exists s1, query_blocks nn P bs s = Ok (map (fun b => map (nn ys) (rows b)) bs, s1) /\ held d s1 ys /\ same_data s s1 /\ loc s1 = loc s /\ domain s1 = domain s.
Proof.
  intros H T. pose proof (held_count P d s ys H) as C. destruct H as ((A & v & GV' & TV) & TC & D & GV).
  assert (X : exists s1, (match kd s with None => set_kdtree s | Some _ => do _ <- check_num P s ; Ok s end) = Ok s1 /\ kd s1 = Some (mk_arr ys [d]) /\
            held d s1 ys /\ same_data s s1 /\ loc s1 = loc s /\ domain s1 = domain s).
  { destruct (kd s) as [t|] eqn:K.
    - rewrite C. cbn [bind]. exists s. split; [reflexivity|]. destruct TC as [E|E]; [congruence|]. split; [congruence|]. split; [|split; [apply same_refl|split; reflexivity]].
      split; [split; [exact A|exists v; auto]|]. split; [right; congruence|auto].
    - unfold set_kdtree. rewrite GV. eexists. split; [reflexivity|]. split; [reflexivity|]. split; [|split; [|split; reflexivity]].
      + split; [split|split; [|split; [exact D|]]].
        * intros a x. cbn [glob]. unfold upd. destruct (attr_eq_dec a KdtreeValues); [intros [= <-]; apply (A Values _ GV)|apply A].
        * exists v. cbn [glob dim]. rewrite upd_other by discriminate. auto.
        * right. cbn [kd glob]. rewrite upd_other by discriminate. congruence.
        * cbn [glob]. rewrite upd_other by discriminate. exact GV.
      + split; [reflexivity|]. intros a N. cbn [glob]. apply upd_other. exact N. }
  destruct X as (s1 & E & K & I & S0 & L1 & DM). unfold query_blocks. rewrite E. cbn [bind]. rewrite K. cbn [need bind rows tail_shape].
  rewrite (proj2 (forallb_forall _ bs)).
  - exists s1. auto.
  - intros b Hb. rewrite (T b Hb). destruct (shape_eq_dec [d] [d]); congruence.
Qed.
Lemma held_query_split nn P d s ys xs : 0 < P -> held d s ys ->
  exists s1, query_blocks nn P (split_arr P (mk_arr xs [d])) s = Ok (array_split (map (nn ys) xs) P, s1) /\ held d s1 ys /\ same_data s s1 /\ loc s1 = loc s /\ domain s1 = domain s.
Proof.
  intros HP H. destruct (held_query nn P d s ys (split_arr P (mk_arr xs [d])) H) as (s1 & E & R0).
  - intros b Hb. apply split_arr_tail in Hb. exact Hb.
  - exists s1. rewrite E, blocks_ptrs. auto.
Qed.
Lemma held_set_glob d s xs a x : held d s xs -> a <> Values -> length (rows x) = length xs -> held d (set_glob a (Some x) s) xs.
Proof.
  intros ((A & v & GV' & TV) & TC & D & GV) N L. split; [split|split; [|split; [exact D|]]].
  - intros b y. cbn [set_glob glob]. unfold upd. destruct (attr_eq_dec b a); [intros [= <-]; exact L|apply A].
  - exists v. cbn [set_glob glob dim]. rewrite upd_other by congruence. auto.
  - unfold tree_current. cbn [set_glob glob kd]. rewrite upd_other by congruence. exact TC.
  - cbn [set_glob glob]. rewrite upd_other by congruence. exact GV.
Qed.
Lemma held_set_loc d s xs a x : held d s xs -> held d (set_loc a x s) xs.
Proof. intros H. exact H. Qed.
Lemma held_width d s xs : held d s xs -> width_is_dim s.
Proof. intros (_ & _ & D & G) x Gx. rewrite G in Gx. injection Gx as <-. exists []. cbn [tail_shape]. congruence. Qed.

(** Blocks of the sizes array_split makes *)
Definition fitting {A} (P : nat) (xs : list A) (s : sset cell) : Prop := forall a bs, loc s a = Some bs -> same_lengths (map rows bs) (array_split xs P).
Lemma fitting_set {A} P (xs : list A) s a x : 0 < P -> fitting P xs s -> length (rows x) = length xs -> fitting P xs (set_loc a (Some (split_arr P x)) s).
Proof.
  intros HP F L b bs. cbn [set_loc loc]. unfold upd. destruct (attr_eq_dec b a); [|apply F]. intros [= <-]. rewrite split_arr_rows. apply split_same_lengths; assumption.
Qed.
Lemma lengths_length {A B} (a : list (list A)) (b : list (list B)) : same_lengths a b -> length a = length b.
Proof. induction 1; cbn; congruence. Qed.
Lemma fitting_rows {A} P (xs : list A) s a bs r : 0 < P -> fitting P xs s -> loc s a = Some bs -> r < P -> local_rows s r (length (nth r (array_split xs P) [])).
Proof.
  intros HP F L R. pose proof (F a bs L) as E.
  assert (K : forall b cs c, loc s b = Some cs -> nth_error cs r = Some c -> length (rows c) = length (nth r (array_split xs P) [])).
  { intros b cs c Lb Hc. pose proof (F b cs Lb) as E'. unfold same_lengths in E'. apply (map_nth_error rows) in Hc. revert Hc E'. generalize (array_split xs P). generalize (map rows cs). clear. intros l. revert r. induction l as [|x l IH]; intros [|r] m Hc E'; inversion E'; subst; cbn in *; try discriminate; [injection Hc as <-; assumption|eapply IH; eassumption]. }
  split; [|exact K]. exists a, bs. assert (LB : length bs = P) by (apply lengths_length in E; rewrite map_length, array_split_length in E by exact HP; exact E).
  destruct (nth_error bs r) as [c|] eqn:N; [eauto|]. apply nth_error_None in N. lia.
Qed.
Lemma steady_local {A} P d (xs : list A) s a bs ys r : 0 < P -> held d s ys -> fitting P xs s -> loc s a = Some bs -> r < P ->
  check_num_local s r = Ok (Some (length (nth r (array_split xs P) []))).
Proof. intros HP H F L R. apply local_number; [eapply fitting_rows; eassumption|eapply held_width; exact H]. Qed.
Lemma ranks_numbers {A} P d (xs : list A) s a bs ys : 0 < P -> held d s ys -> fitting P xs s -> loc s a = Some bs ->
  each_rank (fun r => do k <- check_num_local s r ; subscript k) (seq 0 P) = Ok (map (@length A) (array_split xs P)).
Proof.
  intros HP H F L. rewrite (each_rank_map _ (fun r => length (nth r (array_split xs P) []))).
  - f_equal. transitivity (map (@length A) (map (fun r => nth r (array_split xs P) []) (seq 0 (length (array_split xs P))))); [|rewrite nth_all; reflexivity].
    rewrite map_map, array_split_length by exact HP. reflexivity.
  - intros r R. apply in_seq in R. rewrite (steady_local P d xs s a bs ys r HP H F L) by lia. reflexivity.
Qed.
Lemma mc_blocks {A} P d (xs : list A) s a bs ys num : 0 < P -> held d s ys -> fitting P xs s -> loc s a = Some bs -> num <> 0 ->
  each_rank (mc_block s num) (seq 0 P) = Ok (split_arr P (vec_arr (map (fun _ => (1 / qn num)%Qc) xs))).
Proof.
  intros HP H F L N. rewrite (each_rank_map _ (fun r => vec_arr (repeat (1 / qn num)%Qc (length (nth r (array_split xs P) []))))).
  - f_equal. unfold vec_arr. rewrite split_rows, !array_split_map, !map_map. set (c := (1 / qn num)%Qc).
    assert (E : forall (l : list A), repeat c (length l) = map (fun _ => c) l) by (intros l; induction l as [|y l IH]; [reflexivity|]; cbn [length repeat map]; f_equal; exact IH).
    replace (seq 0 P) with (seq 0 (length (array_split xs P))) by (rewrite array_split_length by exact HP; reflexivity). generalize (array_split xs P). intros l.
    transitivity (map (fun b => vec_arr (repeat c (length b))) (map (fun r => nth r l []) (seq 0 (length l)))); [rewrite map_map; reflexivity|]. rewrite nth_all. apply map_ext. intros b. rewrite E. reflexivity.
  - intros r R. apply in_seq in R. unfold mc_block. rewrite (steady_local P d xs s a bs ys r HP H F L) by lia. cbn [bind]. destruct (Nat.eqb_spec num 0); [contradiction|reflexivity].
Qed.

(** A set with local arrays only *)
Definition local_set (P o : nat) (zs es : list (list Qc)) (ee : bool) (s : sset cell) : Prop :=
  dim s = o /\ (forall a, glob s a = None) /\ loc s Values = Some (split_arr P (mk_arr (map row zs) [o])) /\
  loc s ErrorEstimates = (if ee then Some (split_arr P (mk_arr (map row es) [o])) else None) /\
  forall a, a <> Values -> a <> ErrorEstimates -> loc s a = None.
Lemma local_fitting P o zs es ee s : 0 < P -> length es = length zs -> local_set P o zs es ee s -> fitting P zs s.
Proof.
  intros HP L (D & G & L1 & L2 & L3) a bs E. destruct (attr_eq_dec a Values) as [->|N1].
  - rewrite L1 in E. injection E as <-. rewrite split_arr_rows. apply split_same_lengths; [exact HP|apply map_length].
  - destruct (attr_eq_dec a ErrorEstimates) as [->|N2]; [|rewrite L3 in E by assumption; discriminate]. rewrite L2 in E. destruct ee; [|discriminate]. injection E as <-.
    rewrite split_arr_rows. apply split_same_lengths; [exact HP|]. cbn [rows]. rewrite map_length. exact L.
Qed.
Lemma local_count P o zs es ee s : 0 < P -> length es = length zs -> local_set P o zs es ee s -> check_num P s = Ok (length zs).
Proof.
  intros HP L H. rewrite (check_num_locals_only P s (fun r => length (nth r (array_split zs P) []))); [rewrite split_sum by exact HP; reflexivity|apply H|].
  intros r R. eapply fitting_rows; [exact HP|eapply local_fitting; eassumption|apply H|exact R].
Qed.
Lemma local_g2l P o zs es ee s : 0 < P -> length es = length zs -> local_set P o zs es ee s -> exists s1, global_to_local P s = Ok s1 /\ local_set P o zs es ee s1.
Proof.
  intros HP L H. unfold global_to_local. rewrite (local_count P o zs es ee s HP L H). cbn [bind]. eexists. split; [reflexivity|].
  destruct H as (D & G & L1 & L2 & L3). split; [exact D|]. split; [exact G|]. cbn [loc]. rewrite !G. do 2 (split; [assumption|]). intros a N1 N2. cbn. rewrite G. apply L3; assumption.
Qed.

(** The shares *)
Lemma prob_split P ps evs vs : 0 < P -> length evs = length vs ->
  prob ps (array_split evs P) (array_split vs P) = Ok (array_split (map (event_share ps (combine evs vs)) (combine evs vs)) P).
Proof.
  intros HP L. rewrite prob_eq by (apply split_same_lengths; assumption). rewrite !array_split_concat by exact HP. f_equal.
  change (zipped (array_split evs P) (array_split vs P)) with (zipb (array_split evs P) (array_split vs P)). rewrite zipb_split by assumption. rewrite array_split_map. reflexivity.
Qed.
