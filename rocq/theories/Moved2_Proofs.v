From Coq Require Import List Arith Bool QArith Qcanon Lia.
From Verif Require Import Err Num Ext NumPy Lists SampleSet_Model SampleSet_Spec SampleSet_Proofs Prob_Model Prob_Spec Prob_Proofs Volume_Model Volume_Spec Volume_Proofs
  Disc_Model Disc_Spec Disc_Proofs Workflow_Model Workflow_Spec Workflow_Proofs Stable_Spec Stable_Proofs DataUnif_Proofs Batches_Proofs Batches2_Proofs Restart_Proofs Clipped_Proofs Emulated_Model Emulated_Spec Emulated_Proofs
  ErrorDisc_Model ErrorDisc_Proofs ErrorDisc4_Proofs Surrogate_Proofs Moved_Model Moved_Spec Moved_Proofs.
Import ListNotations.
Local Open Scope nat_scope.
Local Open Scope err_scope.

(** ** The solution *)
Lemma solved_carries nn P d o g model w before setter dom dom' xs ys probs : 0 < P -> row_model d o g model -> xs <> [] -> ys <> [] -> length probs = length ys -> nonneg probs ->
  (forall v, w = Given v -> length v = length xs /\ nonneg v) -> (before = false -> w = MonteCarlo) ->
  exists D inp out, solve nn P model w before setter (values_set d dom xs) (probability_set o dom' ys probs) = Ok D /\ d_in D = Some inp /\ d_out D = Some out /\ d_ein D = None /\
    carries d xs (solution (fun x => nn ys (g x)) probs (combine xs (volume_list w (length xs)))) inp /\ check_num P out = Ok (length xs).
Proof.
  intros HP M NX NY Lp NP W B. destruct (solve_state nn P d o g model w before setter dom dom' xs ys probs HP M NX NY Lp NP W B) as (inp & o1 & Q & E & Hi & Ho & CQ & SQ).
  eexists. eexists. exists o1. split; [exact E|]. do 3 (split; [reflexivity|]).
  assert (Fv : fits xs (Some (volume_list w (length xs)))) by (intros v [= <-]; apply volume_list_length; intros u Hu; apply (W u Hu)).
  assert (Fo : fits (map g xs) (@None (list Qc))) by (intros z [=]).
  split; [|pose proof (holds_count _ _ _ _ _ _ Ho Fo) as Co; rewrite map_length in Co; exact Co].
  pose proof (Workflow_Proofs.holds_valid _ _ _ _ _ _ Hi Fv) as (V1 & y & V2 & V3). split; [|split; [exact (proj1 Hi)|left]].
  - split.
    + intros a x. cbn [set_loc set_glob glob]. unfold upd. destruct (attr_eq_dec a Probabilities); [|apply V1]. intros [= <-]. cbn [rows vec_arr]. rewrite map_length, <- CQ, (same_lengths_concat _ _ SQ), array_split_concat by exact HP. reflexivity.
    + exists y. cbn [set_loc set_glob glob dim]. rewrite upd_other by discriminate. split; assumption.
  - exists (array_split xs P), Q. cbn [set_loc set_glob loc]. rewrite upd_same, upd_other by discriminate. rewrite (proj2 (proj2 Hi) Values). cbn [expected option_map].
    split; [rewrite split_rows; reflexivity|]. split; [apply array_split_concat; exact HP|]. split; [reflexivity|]. split; [exact CQ|exact SQ].
Qed.

(** ** Emulated points *)
Section Points.
Context (nn : list cell -> cell -> nat) (P d o : nat) (g : cell -> cell) (model : arr cell -> arr cell) (dom dom' dome : option (list (Qc * Qc))) (xs ys es : list cell) (probs : list Qc).
Context (T : emulation nn P d o g model xs ys es probs).
Lemma points_carry D q : points_solved P d xs es D q -> exists em inp out, d_ein D = Some em /\ d_in D = Some inp /\ dim inp = d /\ d_out D = Some out /\ check_num P inp = Ok (length xs) /\ check_num P out = Ok (length xs) /\ carries d es q em.
Proof.
  intros (em & inp & o1 & Q & E1 & E2 & E3 & D1 & C1 & C2 & V & De & LV & LP & CQ & S). exists em, inp, o1. do 6 (split; [assumption|]). split; [exact V|]. split; [exact De|]. left.
  exists (array_split es P), Q. split; [exact LV|]. split; [apply array_split_concat; apply T|]. split; [exact LP|]. split; assumption.
Qed.
Let em := values_set d dome es.
Let pr0 := probability_set o dom' ys probs.
Let fractions := map (fraction_in nn xs es) (seq 0 (length xs)).
Lemma fractions_length : length fractions = length xs.
Proof. unfold fractions. rewrite map_length, seq_length. reflexivity. Qed.
Lemma fractions_nonneg : nonneg fractions.
Proof. intros y Hy. apply in_map_iff in Hy. destruct Hy as (j & <- & _). apply qc_div_nonneg; [apply qn_nonneg|]. apply qn_pos. destruct T as (_ & _ & _ & _ & NE & _). destruct es; [contradiction|cbn; lia]. Qed.
Lemma points_volumes inp : holds P d xs None true inp -> kd inp = None ->
  exists inp2, emulated_volumes nn P inp em = Ok (inp2, em_local P d dome es) /\ check_num P inp2 = Ok (length xs) /\ loc inp2 Values <> None /\ loc inp2 Volumes = Some (map vec_arr (array_split fractions P)).
Proof.
  intros Hi K. assert (Fi : fits xs (@None (list Qc))) by (intros z [=]). pose proof T as (HP & _ & _ & _ & NE & _).
  unfold emulated_volumes. rewrite (holds_count _ _ _ _ _ _ Hi Fi). cbn [bind]. unfold em. rewrite (em_localized P d dome es). cbn [bind].
  unfold loc_values. cbn [em_local loc values_set glob]. cbn [bind].
  assert (HH : held d inp xs).
  { split; [apply (Workflow_Proofs.holds_valid _ _ _ _ _ _ Hi Fi)|]. split; [left; exact K|]. split; [exact (proj1 Hi)|exact (proj1 (proj2 Hi) Values)]. }
  destruct (held_query_split nn P d inp xs es HP HH) as (inp1 & E & H1 & SD & L1 & _). rewrite E. cbn [bind fst snd].
  rewrite emulated_eq by (rewrite array_split_concat by exact HP; destruct es; [contradiction|discriminate]). rewrite array_split_concat by exact HP.
  assert (EV : map (fun i => Fin (fraction (fun k => k) (map (nn xs) es) i)) (seq 0 (length xs)) = map Fin fractions).
  { unfold fractions. rewrite map_map. apply map_ext. intros i. unfold fraction, fraction_in. rewrite map_length, counts_map. reflexivity. }
  rewrite EV, finite_fins. cbn [bind].
  assert (HV : held d (set_glob Volumes (Some (vec_arr fractions)) inp1) xs) by (apply held_set_glob; [exact H1|discriminate|cbn [rows vec_arr]; rewrite map_length; apply fractions_length]).
  unfold global_to_local. rewrite (held_count P _ _ _ HV). cbn [bind]. eexists. split; [reflexivity|]. cbn [set_glob glob loc]. rewrite upd_same, upd_other by discriminate. rewrite (proj2 (proj2 (proj2 H1))).
  split; [|split; [discriminate|unfold vec_arr; rewrite split_rows, array_split_map, map_map; reflexivity]]. apply valid_count. exact (proj1 HV).
Qed.
Lemma prob_points setter : global_probabilities (solve_with_points nn P model setter (values_set d dom xs) pr0 em) =
  Some (map Num (solution (fun x => nn ys (g x)) probs (combine xs fractions))).
Proof.
  destruct (evaluated_sets nn P d o g model dom xs ys es probs T) as (inp & o1 & E & Hi & Ho & K). unfold solve_with_points. rewrite E. cbn [bind].
  assert (S := stored_eq nn P d o g model dom' dome xs ys es probs T setter inp o1 Hi Ho). fold pr0 in S. fold em in S. destruct (define_output nn P setter pr0 (base inp o1)) as [d1|]; [|discriminate]. cbn [bind] in *. rewrite S. cbn [bind].
  pose proof T as (HP & M & NX & NY & NE & Lp & NP & N). assert (Fi : fits xs (@None (list Qc))) by (intros z [=]). assert (Fo : fits (map g xs) (@None (list Qc))) by (intros z [=]).
  pose proof (holds_count _ _ _ _ _ _ Hi Fi) as Ci. pose proof (holds_count _ _ _ _ _ _ Ho Fo) as Co. rewrite map_length in Co.
  pose proof (told_pr nn P d o g model dom' xs ys es probs T) as TP. set (pr := grown o ys (probability_set o dom' ys probs)) in *.
  unfold prob_with_points, assembled_disc. unfold check_nums at 1. cbn [d_out d_in need bind]. rewrite Ci, Co. cbn [bind]. rewrite (proj1 (proj2 Ho) Values), (proj1 (proj2 Hi) Values). cbn [expected]. rewrite Nat.eqb_refl. cbn [bind d_prob need]. fold pr.
  rewrite (valid_count P _ _ (proj1 TP)). cbn [bind].
  assert (X : exists pr1, localized P pr = Ok pr1 /\ told o ys probs pr1).
  { unfold localized. replace (loc pr Values) with (@None (list (arr cell))) by reflexivity. unfold global_to_local. rewrite (valid_count P _ _ (proj1 TP)). cbn [bind]. eexists. split; [reflexivity|]. exact TP. }
  destruct X as (pr1 & -> & TP1). cbn [bind d_ein need]. fold em. destruct (points_volumes inp Hi K) as (inp2 & E2 & C2 & LV & LW). rewrite E2. cbn [bind fst snd].
  unfold with_prob, with_in, with_ein. cbn [d_in d_out d_prob d_ein d_eout d_obs io ii oo io_loc ii_loc oo_loc].
  unfold prob_disc, check_nums. cbn [d_out d_in need bind d_prob io_loc]. rewrite Co, C2. cbn [bind].
  assert (E0 : match glob o1 Values with Some _ => match glob inp2 Values with Some _ => if length xs =? length xs then Ok (length xs) else Raise LengthNotMatching | None => Ok (length xs) end | None => Ok (length xs) end = Ok (length xs))
    by (rewrite Nat.eqb_refl; destruct (glob o1 Values); [destruct (glob inp2 Values)|]; reflexivity).
  rewrite E0. cbn [bind]. rewrite (valid_count P _ _ (proj1 TP1)). cbn [bind d_in need]. unfold localized. destruct (loc inp2 Values); [|contradiction]. cbn [bind subscript].
  unfold out_probs. destruct (Nat.eqb_spec (length ys) 0) as [Z|_]; [destruct ys; [contradiction|discriminate]|]. rewrite (proj1 (proj2 TP1)). cbn [subscript bind].
  cbn [vec_arr rows]. rewrite scalars_nums. cbn [bind]. rewrite LW. cbn [subscript bind]. rewrite scalar_blocks_vec.
  set (V := array_split fractions P). set (ptrs := array_split (map (fun x => nn ys (g x)) xs) P).
  assert (SV : same_lengths ptrs V) by (apply split_same_lengths; [exact HP|rewrite map_length, fractions_length; reflexivity]).
  destruct (prob_concat probs ptrs V SV) as (Q & EQ & SQ & CQ).
  assert (EQ' : prob probs ptrs (if existsb (qltb 0) probs then V else []) = Ok Q).
  { destruct (existsb (qltb 0) probs) eqn:Ex; [exact EQ|]. unfold prob in *. rewrite Ex in *. exact EQ. }
  replace (if existsb (qltb 0) probs then Ok V else Ok []) with (Ok (if existsb (qltb 0) probs then V else [])) by (destruct (existsb (qltb 0) probs); reflexivity).
  cbn [bind]. rewrite EQ'. cbn [bind global_probabilities with_in d_in set_loc set_glob glob]. rewrite upd_same. cbn [option_map rows vec_arr]. do 2 f_equal.
  rewrite CQ. unfold ptrs, V. rewrite !array_split_concat by exact HP. apply solution_share; [symmetry; apply fractions_length|exact NP|exact fractions_nonneg].
Qed.
Lemma points_agree setter : global_probabilities (solve_with_points nn P model setter (values_set d dom xs) pr0 em) =
  Some (map Num (moved nn xs es (solution (fun e => nn ys (nearest_output nn xs g e)) probs (combine es (repeat 1%Qc (length es)))))).
Proof.
  rewrite prob_points. pose proof T as (HP & M & NX & NY & NE & Lp & NP & N).
  destruct (volumes_run nn P d o g model dom' dome xs ys es probs T P true dom HP) as (q & E & L & H). fold fractions in E.
  destruct (solve_lemma nn P d o g model (Given fractions) true true dom dom' xs ys probs HP M NX NY Lp NP) as (E' & _); [intros v [= <-]; split; [apply fractions_length|apply fractions_nonneg]|discriminate|].
  cbn [volume_list] in E'. rewrite E' in E. rewrite E. do 2 f_equal. apply list_nth; [rewrite moved_length; exact L|].
  intros j Hj. destruct (nth_error q j) as [a|] eqn:Ea; [|apply nth_error_None in Ea; lia]. rewrite (H j a Ea). unfold moved. rewrite nth_error_map.
  rewrite (nth_error_nth' (seq 0 (length xs)) 0) by (rewrite seq_length; lia). rewrite seq_nth by lia. reflexivity.
Qed.
End Points.

(** ** A set that keeps local probabilities of its own *)
Lemma again_old nn P d zs ws q' new new1 last r : 0 < P -> ws <> [] -> target d ws last -> distributed d zs q' new -> loc new1 = loc new -> target d zs new1 ->
  glob new1 Probabilities = Some (vec_arr r) -> exists new2 last1, transfer_set nn P new1 last = Ok (new2, last1, moved nn ws zs q').
Proof.
  intros HP NW TL (B & Q & D1 & D2 & D3) EL T1 _. assert (C : carries d zs q' new1).
  { split; [exact (proj1 T1)|]. split; [exact (proj1 (proj2 (proj2 T1)))|]. left. exists B, Q. rewrite EL. split; [exact D1|]. split; [exact D2|exact D3]. }
  destruct (transfer_set_lemma nn P d HP zs q' ws new1 last NW C TL) as (a & b & E & _). exists a, b. exact E.
Qed.
Lemma again_none nn P d zs ws (new1 last : sset cell) : ws <> [] -> target d zs new1 -> target d ws last -> (exists bs, loc new1 Values = Some bs /\ forall b, In b bs -> tail_shape b = [d]) -> loc new1 Probabilities = None ->
  transfer_set nn P new1 last = Raise PyTypeError.
Proof.
  intros NW T1 TL (bs & LV & TB) LP. unfold transfer_set. rewrite (held_count P d new1 zs T1). cbn [bind]. rewrite (held_count P d last ws TL). cbn [bind].
  rewrite (proj1 (proj2 (proj2 T1))), (proj1 (proj2 (proj2 TL))), Nat.eqb_refl. cbn [negb]. unfold localized. rewrite LV. cbn [bind]. unfold loc_values. rewrite LV. cbn [bind].
  destruct (held_query nn P d last ws bs TL TB) as (s1 & -> & _). cbn [bind fst snd]. unfold cell_sums. destruct (Nat.eqb_spec (length ws) 0) as [Z|_]; [destruct ws; [contradiction|discriminate]|]. rewrite LP. reflexivity.
Qed.
