From Coq Require Import List Arith Bool QArith Qcanon Lia.
From Verif Require Import Err Num NumPy Lists SampleSet_Model SampleSet_Spec SampleSet_Proofs Prob_Model Prob_Spec Prob_Proofs Disc_Model Disc_Spec Disc_Proofs Workflow_Model Workflow_Spec Workflow_Proofs DataUnif_Model DataUnif_Spec.
Import ListNotations.
Local Open Scope nat_scope.
Local Open Scope err_scope.

(** ** Any output probability set without tree *)
Definition gives (o : nat) (ys : list cell) (probs : list Qc) (s : sset cell) : Prop :=
  dim s = o /\ glob s Values = Some (mk_arr ys [o]) /\ glob s Probabilities = Some (vec_arr probs) /\ kd s = None /\ forall a x, glob s a = Some x -> length (rows x) = length ys.
Definition grown (o : nat) (ys : list cell) (s : sset cell) : sset cell :=
  mk_sset (dim s) (upd (glob s) KdtreeValues (Some (mk_arr ys [o]))) (loc s) (local_index s) (Some (mk_arr ys [o])) (domain s) (weights s).
Lemma grown_count P o ys probs s : gives o ys probs s -> check_num P (grown o ys s) = Ok (length ys).
Proof.
  intros (D & V & _ & _ & L). apply valid_count. split.
  - intros a x E. cbn [grown glob] in E. unfold upd in E. destruct (attr_eq_dec a KdtreeValues); [injection E as <-; reflexivity|]. eapply L. exact E.
  - exists (mk_arr ys [o]). cbn [grown glob dim]. rewrite upd_other by discriminate. rewrite V, D. split; reflexivity.
Qed.
Definition base (inp o1 : sset cell) : disc cell := mk_disc (Some inp) (Some o1) None None None None None None None None None None.
Definition ready (inp o1 pr : sset cell) (ptr : list (list nat)) : disc cell := mk_disc (Some inp) (Some o1) (Some pr) None None None None None None (Some ptr) None None.
Lemma store_lemma nn P o ys probs s zs inp o1 : gives o ys probs s -> loc o1 Values = Some (split_arr P (mk_arr zs [o])) ->
  store_output_probability nn P s (base inp o1) = Ok (ready inp o1 (grown o ys s) (array_split (map (nn ys) zs) P)).
Proof.
  intros (D & V & _ & K & _) L. unfold store_output_probability, set_io_ptr, base. cbn [with_prob d_out need bind]. unfold localized. rewrite L. cbn [bind d_prob with_prob need]. unfold loc_values. rewrite L. cbn [bind].
  unfold query_blocks. rewrite K. unfold set_kdtree. rewrite V. cbn [bind kd need].
  assert (F : forallb (fun b => if shape_eq_dec (tail_shape b) (tail_shape (mk_arr ys [o])) then true else false) (split_arr P (mk_arr zs [o])) = true).
  { apply forallb_forall. intros b Hb. apply split_arr_tail in Hb. rewrite Hb. cbn [tail_shape]. destruct (shape_eq_dec [o] [o]); [reflexivity|contradiction]. }
  rewrite F. cbn [bind fst snd rows]. rewrite blocks_ptrs. reflexivity.
Qed.
Lemma setter_lemma nn P o ys probs s zs inp o1 : gives o ys probs s -> loc o1 Values = Some (split_arr P (mk_arr zs [o])) -> dim o1 = o ->
  done (set_probability nn P s (base inp o1)) = Ok (ready inp o1 (grown o ys s) (array_split (map (nn ys) zs) P)).
Proof.
  intros G L D. pose proof (store_lemma nn P o ys probs s zs inp o1 G L) as E. unfold store_output_probability in E.
  unfold set_probability, same_dim. cbn [base d_out d_eout]. rewrite D, (proj1 G), Nat.eqb_refl. cbn [andb]. rewrite L, (proj1 (proj2 G)). fold (base inp o1). rewrite E. reflexivity.
Qed.
Lemma prob_given nn P o ys probs s zs inp o1 d xs v n : 0 < P -> gives o ys probs s -> length probs = length ys -> ys <> [] ->
  holds P o zs None true o1 -> holds P d xs (Some v) true inp -> length xs = n -> length zs = n -> length v = n ->
  exists Q, prob_disc nn P true (ready inp o1 (grown o ys s) (array_split (map (nn ys) zs) P)) =
    Ok (ready (set_loc Probabilities (Some (map vec_arr Q)) (set_glob Probabilities (Some (vec_arr (concat Q))) inp)) o1 (grown o ys s) (array_split (map (nn ys) zs) P)) /\
    same_lengths Q (array_split zs P) /\ concat Q = map (share probs (combine (map (nn ys) zs) v)) (combine (map (nn ys) zs) v).
Proof.
  intros HP G Lp NE Ho Hi Lx Lz Lv. destruct (prob_concat probs (array_split (map (nn ys) zs) P) (array_split v P)) as (Q & E & SL & CQ).
  { apply split_same_lengths; [exact HP|]. rewrite map_length. congruence. }
  rewrite !array_split_concat in CQ by exact HP.
  unfold prob_disc, check_nums, ready. cbn [d_out d_in need bind d_prob io_loc]. rewrite (holds_count _ _ _ _ _ _ Ho) by (intros ? [=]).
  rewrite (holds_count _ _ _ _ _ _ Hi) by (intros w [= <-]; congruence). cbn [bind]. rewrite (proj1 (proj2 Ho)), (proj1 (proj2 Hi)). cbn [expected]. rewrite Lz, Lx, Nat.eqb_refl. cbn [bind].
  rewrite (grown_count P o ys probs s G). cbn [bind d_in need]. unfold localized. rewrite (proj2 (proj2 Hi)). cbn [expected option_map bind subscript].
  unfold out_probs. destruct (Nat.eqb_spec (length ys) 0) as [Z|_]; [destruct ys; [contradiction|discriminate]|]. cbn [grown glob]. rewrite upd_other by discriminate. rewrite (proj1 (proj2 (proj2 G))). cbn [subscript bind].
  cbn [vec_arr rows]. rewrite scalars_nums. cbn [bind]. rewrite (proj2 (proj2 Hi)). cbn [expected option_map subscript bind]. rewrite split_vec.
  assert (PE : prob probs (array_split (map (nn ys) zs) P) (if existsb (qltb 0) probs then array_split v P else []) = Ok Q).
  { destruct (existsb (qltb 0) probs) eqn:X; [exact E|]. unfold prob in *. rewrite X in *. exact E. }
  replace (if existsb (qltb 0) probs then Ok (array_split v P) else Ok []) with (Ok (if existsb (qltb 0) probs then array_split v P else [])) by (destruct (existsb (qltb 0) probs); reflexivity).
  cbn [bind]. rewrite PE. cbn [bind]. exists Q. split; [reflexivity|]. split; [|exact CQ].
  unfold same_lengths in *. rewrite array_split_map in SL. clear -SL. revert SL. generalize (array_split zs P). induction Q as [|q Q IH]; intros [|z zs'] SL; inversion SL; subst; constructor; [rewrite map_length in *; assumption|apply IH; assumption].
Qed.

(** ** The output set has no tree *)
Lemma qoi_no_tree model P s e o1 : qoi model P true s = Ok e -> d_out e = Some o1 -> kd o1 = None.
Proof.
  unfold qoi. destruct (localized P s) as [s1|]; [cbn [bind]|discriminate]. destruct (loc_values s1) as [bs|]; [cbn [bind]|discriminate].
  cbv zeta. destruct (map model bs) as [|b r]; [discriminate|]. destruct (forallb _ (b :: r)); [|discriminate].
  unfold set_values_local. destruct (forallb _ (map two_d (b :: r))); [cbn [bind]|discriminate].
  destruct (local_to_global s1) as [s2|]; [cbn [bind]|discriminate]. destruct (local_to_global (set_loc _ _ _)) as [o2|] eqn:E; [cbn [bind]|discriminate].
  unfold new_disc. destruct (check_nums P _); [cbn [bind]|discriminate]. intros [= <-] [= <-].
  destruct (local_to_global_spec _ _ E) as (_ & _ & _ & K & _). rewrite K. reflexivity.
Qed.

(** ** The set with equal probabilities *)
Lemma equal_length n : length (repeat (1 / qn n)%Qc n) = n.
Proof. apply repeat_length. Qed.
Lemma out_gives P o zs o1 : holds P o zs None true o1 -> kd o1 = None ->
  gives o zs (repeat (1 / qn (length zs))%Qc (length zs)) (set_glob Probabilities (Some (equal_probabilities (length zs))) o1).
Proof.
  intros (D & G & _) K. split; [exact D|]. cbn [set_glob glob kd]. rewrite upd_other by discriminate. rewrite G, upd_same. split; [reflexivity|]. split; [reflexivity|]. split; [exact K|].
  intros a x. unfold upd. destruct (attr_eq_dec a Probabilities) as [->|N]; [intros [= <-]; cbn [equal_probabilities vec_arr rows]; rewrite map_length; apply repeat_length|].
  rewrite G. destruct a; try discriminate. intros [= <-]. reflexivity.
Qed.
Lemma array_gives o zs : gives o zs (repeat (1 / qn (length zs))%Qc (length zs))
  (set_glob Probabilities (Some (equal_probabilities (length zs))) (set_glob Values (Some (mk_arr zs [o])) (new_sset o))).
Proof.
  split; [reflexivity|]. cbn [set_glob glob kd new_sset]. split; [reflexivity|]. split; [reflexivity|]. split; [reflexivity|].
  intros a x. unfold upd. destruct (attr_eq_dec a Probabilities) as [->|N]; [intros [= <-]; cbn [equal_probabilities vec_arr rows]; rewrite map_length; apply repeat_length|].
  destruct (attr_eq_dec a Values); [intros [= <-]; reflexivity|discriminate].
Qed.
Lemma data_samples_lemma nn P k o zs inp o1 d xs v : holds P o zs None true o1 -> kd o1 = None -> holds P d xs (Some v) true inp -> length xs = length zs -> length v = length zs ->
  exists s, gives o zs (repeat (1 / qn (length zs))%Qc (length zs)) s /\
    data_samples nn P k (base inp o1) = Ok (ready inp o1 (grown o zs s) (array_split (map (nn zs) zs) P)).
Proof.
  intros Ho K Hi Lx Lv. assert (L : loc o1 Values = Some (split_arr P (mk_arr zs [o]))) by (rewrite (proj2 (proj2 Ho)); reflexivity).
  assert (C : check_num P o1 = Ok (length zs)) by (apply (holds_count _ _ _ _ _ _ Ho); intros ? [=]).
  destruct k; cbn [data_samples].
  - exists (set_glob Probabilities (Some (equal_probabilities (length zs))) o1). pose proof (out_gives _ _ _ _ Ho K) as G. split; [exact G|].
    unfold data_samples_disc, check_nums. cbn [base d_out d_in need bind]. rewrite C. cbn [bind]. rewrite (holds_count _ _ _ _ _ _ Hi) by (intros w [= <-]; congruence). cbn [bind].
    rewrite (proj1 (proj2 Ho)), (proj1 (proj2 Hi)). cbn [expected]. rewrite Lx, Nat.eqb_refl. cbn [bind]. apply (store_lemma nn P o zs _ _ zs inp o1 G L).
  - exists (set_glob Probabilities (Some (equal_probabilities (length zs))) o1). pose proof (out_gives _ _ _ _ Ho K) as G. split; [exact G|].
    cbn [base d_out need bind]. unfold data_samples_set. rewrite C. cbn [bind]. apply (setter_lemma nn P o zs _ _ zs inp o1 G L (proj1 Ho)).
  - exists (set_glob Probabilities (Some (equal_probabilities (length zs))) (set_glob Values (Some (mk_arr zs [o])) (new_sset o))). pose proof (array_gives o zs) as G. split; [exact G|].
    cbn [base d_out need bind]. rewrite (proj1 (proj2 Ho)). cbn [expected need bind data_samples_array tail_shape rows]. apply (setter_lemma nn P o zs _ _ zs inp o1 G L (proj1 Ho)).
Qed.

(** ** The answer in terms of the outputs *)
Lemma find_inj nn ys a b : finds_equal nn -> In a ys -> In b ys -> nn ys a = nn ys b -> a = b.
Proof. intros F Ha Hb E. pose proof (F ys a Ha) as Ea. pose proof (F ys b Hb) as Eb. rewrite E in Ea. congruence. Qed.
Lemma total_with nn g xs v y : finds_equal nn -> In y (map g xs) ->
  total_in (map (fun yw => (nn (map g xs) (g (fst yw)), snd yw)) (combine xs v)) (nn (map g xs) y) = volume_with g (combine xs v) y.
Proof.
  intros F Hy. unfold total_in, volume_with. assert (I : forall xw, In xw (combine xs v) -> In (g (fst xw)) (map g xs)).
  { intros (x, w) Hx. apply in_map. eapply in_combine_l. exact Hx. }
  revert I. generalize (combine xs v) as l. induction l as [|xw l IH]; intros I; [reflexivity|]. cbn [map filter fst snd].
  assert (E : (nn (map g xs) (g (fst xw)) =? nn (map g xs) y) = if cell_dec (g (fst xw)) y then true else false).
  { destruct (cell_dec (g (fst xw)) y) as [->|N]; [apply Nat.eqb_refl|]. apply Nat.eqb_neq. intros E. apply N. apply (find_inj nn (map g xs)); [exact F|apply I; left; reflexivity|exact Hy|exact E]. }
  rewrite E. destruct (cell_dec (g (fst xw)) y); cbn [map snd]; [change (qsum (?a :: ?r)) with (a + qsum r)%Qc|]; rewrite IH by (intros; apply I; right; assumption); reflexivity.
Qed.
Lemma nth_equal n i : i < n -> nth i (repeat (1 / qn n)%Qc n) 0%Qc = (1 / qn n)%Qc.
Proof. intros H. apply (repeat_spec n). apply nth_In. rewrite repeat_length. exact H. Qed.
Lemma shared_solution nn g xs v : finds_equal nn -> length v = length xs ->
  solution (fun x => nn (map g xs) (g x)) (repeat (1 / qn (length xs))%Qc (length xs)) (combine xs v) = shared_evenly g (combine xs v).
Proof.
  intros F L. unfold solution, shared_evenly. apply map_ext_in. intros (x, u) Hx. cbn [fst snd]. apply in_combine_l in Hx.
  rewrite (total_with nn g xs v (g x) F) by (apply in_map; exact Hx).
  assert (Lt : nn (map g xs) (g x) < length xs). { rewrite <- (map_length g xs). apply nth_error_Some. rewrite (F _ _ (in_map g _ _ Hx)). discriminate. }
  rewrite (nth_equal _ _ Lt), combine_length, L, Nat.min_id. unfold Qcdiv. ring.
Qed.
Lemma solve_data_lemma nn P d o g model w before k dom xs : sampled P d o g model w before xs -> finds_equal nn ->
  let r := solve_data_samples nn P model w before k (values_set d dom xs) in
  let q := shared_evenly g (combine xs (volume_list w (length xs))) in
  global_probabilities r = Some (map Num q) /\ sample_of r = Some xs /\
  exists qs, local_probabilities r = Some (map (map Num) qs) /\ concat qs = q /\ same_lengths qs (array_split xs P).
Proof.
  intros (HP & M & NX & W & B) F. cbv zeta. set (v := volume_list w (length xs)).
  assert (Lv : length v = length xs) by (apply volume_list_length; intros u Hu; apply (W u Hu)).
  assert (NV : nonneg v).
  { unfold v. destruct w as [|u]; [|apply (W u eq_refl)]. intros y Hy. apply repeat_spec in Hy. subst y. apply qc_div_nonneg; [discriminate|]. apply qn_pos. destruct xs; [contradiction|cbn; lia]. }
  assert (S1 : exists inp o1, (do s1 <- (if before then define_volumes P w (values_set d dom xs) else Ok (values_set d dom xs)) ; do e <- qoi model P true s1 ; if before then Ok e else define_input_volumes P w e) =
      Ok (base inp o1) /\ kd o1 = None /\ holds P d xs (Some v) true inp /\ holds P o (map g xs) None true o1).
  { destruct before.
    - destruct (holds_define P w d xs (values_set d dom xs) NX (fun u Hu => proj1 (W u Hu)) (values_holds P d dom xs)) as (l & s1 & -> & H1). cbn [bind].
      destruct (qoi_global P d o g model xs (Some v) l s1 HP M H1) as (s2 & o1 & E & H2 & H3); [intros ? [= <-]; exact Lv|]. rewrite E. exists s2, o1. split; [reflexivity|]. split; [|auto]. apply (qoi_no_tree _ _ _ _ _ E). reflexivity.
    - cbn [bind]. destruct (qoi_global P d o g model xs None false _ HP M (values_holds P d dom xs)) as (s2 & o1 & E & H2 & H3); [intros ? [=]|]. rewrite E. cbn [bind].
      unfold define_input_volumes. cbn [d_in need bind]. unfold v. rewrite (B eq_refl). cbn [define_volumes].
      destruct (holds_mc P d xs None true s2 NX H2) as (s3 & -> & H4); [intros ? [=]|]. exists s3, o1. split; [reflexivity|]. split; [|auto]. apply (qoi_no_tree _ _ _ _ _ E). reflexivity. }
  destruct S1 as (inp & o1 & S1 & K & Hi & Ho).
  assert (EQ : solve_data_samples nn P model w before k (values_set d dom xs) =
    bind (do s1 <- (if before then define_volumes P w (values_set d dom xs) else Ok (values_set d dom xs)) ; do e <- qoi model P true s1 ; if before then Ok e else define_input_volumes P w e)
      (fun d1 => bind (data_samples nn P k d1) (prob_disc nn P true))).
  { unfold solve_data_samples. destruct (if before then define_volumes P w (values_set d dom xs) else Ok (values_set d dom xs)) as [s1|e1]; [|reflexivity]. cbn [bind]. destruct (qoi model P true s1); reflexivity. }
  rewrite EQ, S1. cbn [bind]. destruct (data_samples_lemma nn P k o (map g xs) inp o1 d xs v Ho K Hi) as (s & G & ->); [rewrite map_length; reflexivity|rewrite map_length; exact Lv|]. cbn [bind].
  assert (NY : map g xs <> []) by (destruct xs; [contradiction|discriminate]).
  destruct (prob_given nn P o (map g xs) _ s (map g xs) inp o1 d xs v (length xs) HP G (repeat_length _ _) NY Ho Hi eq_refl (map_length _ _) Lv) as (Q & -> & SL & CQ).
  rewrite map_map in CQ. rewrite solution_share in CQ; [|congruence| |exact NV].
  2: { intros y Hy. apply repeat_spec in Hy. subst y. apply qc_div_nonneg; [discriminate|]. apply qn_pos. rewrite map_length. destruct xs; [contradiction|cbn; lia]. }
  rewrite map_length, (shared_solution nn g xs v F Lv) in CQ. rewrite CQ.
  cbn [global_probabilities local_probabilities sample_of ready d_in set_loc set_glob glob loc]. rewrite !upd_same, upd_other by discriminate. rewrite (proj1 (proj2 Hi)). cbn [expected option_map rows vec_arr].
  split; [reflexivity|]. split; [reflexivity|]. exists Q. split; [rewrite map_map; reflexivity|]. split; [exact CQ|].
  unfold same_lengths in *. rewrite array_split_map in SL. clear -SL. revert SL. generalize (array_split xs P). induction Q as [|q Q IH]; intros [|z zs'] SL; inversion SL; subst; constructor; [rewrite map_length in *; assumption|apply IH; assumption].
Qed.
