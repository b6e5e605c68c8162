From Coq Require Import List Arith Bool QArith Qcanon Lia.
From Verif Require Import Err Num NumPy Lists SampleSet_Model SampleSet_Spec SampleSet_Proofs Prob_Model Prob_Spec Prob_Proofs
  Disc_Model Disc_Spec Disc_Proofs Workflow_Model Workflow_Spec Workflow_Proofs DataUnif_Proofs Batches_Proofs Batches2_Proofs Restart_Model Restart_Spec.
Import ListNotations.
Local Open Scope nat_scope.
Local Open Scope err_scope.

(** ** The blocks after loading *)
Definition parts {A} (l : bool) (P w P' : nat) (xs : list A) : list (list A) :=
  if l then array_split xs P' else repeat (nth w (array_split xs P) []) P'.
Lemma rep_map {A B} (f : A -> B) x n : map f (repeat x n) = repeat (f x) n.
Proof. induction n as [|n IH]; [reflexivity|]. cbn. rewrite IH. reflexivity. Qed.
Lemma nth_map_nil {A B} (f : A -> B) (bs : list (list A)) r : nth r (map (map f) bs) [] = map f (nth r bs []).
Proof. revert r. induction bs as [|b bs IH]; intros [|r]; try reflexivity. cbn [map nth]. apply IH. Qed.
Lemma parts_map {A B} (f : A -> B) l P w P' xs : parts l P w P' (map f xs) = map (map f) (parts l P w P' xs).
Proof. unfold parts. destruct l; [apply array_split_map|]. rewrite array_split_map, nth_map_nil, rep_map. reflexivity. Qed.
Lemma parts_length {A} l P w P' (xs : list A) : 0 < P' -> length (parts l P w P' xs) = P'.
Proof. intros H. unfold parts. destruct l; [apply array_split_length; exact H|apply repeat_length]. Qed.
Lemma nth_repeat_in {A} (x d : A) n r : r < n -> nth r (repeat x n) d = x.
Proof. revert r. induction n as [|n IH]; intros [|r] H; try lia; [reflexivity|]. cbn [repeat nth]. apply IH. lia. Qed.
Lemma parts_sizes {A B} l P w P' (xs : list A) (v : list B) : 0 < P' -> w < P -> length xs = length v -> same_lengths (parts l P w P' xs) (parts l P w P' v).
Proof.
  intros H W L. apply same_lengths_nth; [rewrite !parts_length by exact H; reflexivity|]. intros r R. rewrite parts_length in R by exact H. unfold parts. destruct l.
  - rewrite !array_split_nth_length by exact R. rewrite L. reflexivity.
  - rewrite !nth_repeat_in by exact R. rewrite !array_split_nth_length by exact W. rewrite L. reflexivity.
Qed.
Lemma parts_in {A} l P w P' (xs : list A) b x : 0 < P' -> w < P -> In b (parts l P w P' xs) -> In x b -> In x xs.
Proof.
  intros H W Hb Hx. unfold parts in Hb. destruct l.
  - rewrite <- (array_split_concat xs P') by exact H. apply in_concat. exists b. split; assumption.
  - apply repeat_spec in Hb. subst b. rewrite <- (array_split_concat xs P) by lia. apply in_concat. eexists. split; [|exact Hx]. apply nth_In. rewrite array_split_length; lia.
Qed.

(** ** One sample set *)
Definition kept (l : bool) (P w P' d : nat) (xs : list cell) (ov : option (list Qc)) (s : sset cell) : Prop :=
  dim s = d /\ (forall a, glob s a = expected d xs ov a) /\
  forall a, loc s a = option_map (fun x => map (fun b => mk_arr b (tail_shape x)) (parts l P w P' (rows x))) (expected d xs ov a).
Definition fetched (w P' : nat) (l : bool) (s s' : sset cell) : Prop :=
  exists s1, local_to_global s = Ok s1 /\ if l then global_to_local P' (read_set w P' s1) = Ok s' else s' = read_set w P' s1.
Lemma count_glob P d xs ov s : dim s = d -> (forall a, glob s a = expected d xs ov a) -> fits xs ov -> check_num P s = Ok (length xs).
Proof.
  intros D G F. apply valid_count. split.
  - intros a x E. rewrite G in E. destruct a; try discriminate; cbn [expected] in E.
    + injection E as <-. reflexivity.
    + destruct ov as [v|]; [|discriminate]. injection E as <-. cbn [vec_arr rows]. rewrite map_length. apply F. reflexivity.
  - exists (mk_arr xs [d]). rewrite G, D. split; reflexivity.
Qed.
Lemma kept_set P w P' l d xs ov s : w < P -> 0 < P' -> fits xs ov -> holds P d xs ov true s -> exists s', fetched w P' l s s' /\ kept l P w P' d xs ov s'.
Proof.
  intros W HP' F H. assert (HP : 0 < P) by lia. destruct (holds_l2g P d xs ov s HP H) as (s1 & E & D & G & L). destruct l.
  - assert (C : check_num P' (read_set w P' s1) = Ok (length xs)) by (apply (count_glob P' d xs ov); [exact D|exact G|exact F]).
    eexists. split; [exists s1; split; [exact E|]; unfold global_to_local; rewrite C; cbn [bind]; reflexivity|].
    split; [exact D|]. split; [exact G|]. intros a. cbn [loc read_set glob]. rewrite G, L. destruct (expected d xs ov a) as [x|]; reflexivity.
  - exists (read_set w P' s1). split; [exists s1; split; [exact E|reflexivity]|]. split; [exact D|]. split; [exact G|]. intros a. cbn [loc read_set]. rewrite L. destruct (expected d xs ov a) as [x|]; [|reflexivity].
    cbn [option_map bind_opt]. unfold of_rank, split_arr, parts. rewrite nth_error_map, (nth_error_nth' _ []) by (rewrite array_split_length by exact HP; exact W). cbn [option_map]. rewrite rep_map. reflexivity.
Qed.
Definition told (o : nat) (ys : list cell) (probs : list Qc) (s : sset cell) : Prop :=
  valid_set s (length ys) /\ glob s Probabilities = Some (vec_arr probs) /\ kd s = Some (mk_arr ys [o]).
Lemma grown_told o ys probs s : gives o ys probs s -> told o ys probs (grown o ys s).
Proof.
  intros (D & V & Pr & _ & L). split; [|split; [cbn [grown glob]; rewrite upd_other by discriminate; exact Pr|reflexivity]]. split.
  - intros a x E. cbn [grown glob] in E. unfold upd in E. destruct (attr_eq_dec a KdtreeValues); [injection E as <-; reflexivity|]. eapply L. exact E.
  - exists (mk_arr ys [o]). cbn [grown glob dim]. rewrite upd_other by discriminate. rewrite V, D. split; reflexivity.
Qed.
Lemma told_set w P' l o dom ys probs : length probs = length ys -> exists s', fetched w P' l (grown o ys (probability_set o dom ys probs)) s' /\ told o ys probs s'.
Proof.
  intros Lp. set (s := grown o ys (probability_set o dom ys probs)). assert (N : forall a, loc s a = None) by (intros a; reflexivity).
  destruct (gather_attrs_total all_attrs s) as [s1 E]; [intros a bs _ La; rewrite N in La; discriminate|]. fold (local_to_global s) in E.
  destruct (local_to_global_spec _ _ E) as (D1 & D2 & _ & D4 & _ & _ & I).
  assert (T : told o ys probs (read_set w P' s1)).
  { assert (T0 : told o ys probs s) by (apply grown_told, probability_gives; exact Lp). destruct T0 as ((V1 & x & V2 & V3) & Pr & K).
    assert (G : forall a, glob s1 a = glob s a) by (intros a; specialize (I a); rewrite N in I; exact I).
    split; [|split; [cbn [read_set glob]; rewrite G; exact Pr|cbn [read_set kd]; rewrite D4; exact K]]. split.
    - intros a y. cbn [read_set glob]. rewrite G. apply V1.
    - exists x. cbn [read_set glob dim]. rewrite G, D1. split; assumption. }
  destruct l.
  - destruct T as (V & Pr & K). eexists. split; [exists s1; split; [exact E|]; unfold global_to_local; rewrite (valid_count P' _ _ V); cbn [bind]; reflexivity|].
    split; [exact V|]. split; [exact Pr|exact K].
  - exists (read_set w P' s1). split; [exists s1; split; [exact E|reflexivity]|exact T].
Qed.

(** ** The discretization *)
Lemma restart_base w P' l inp o1 inp' o1' : fetched w P' l inp inp' -> fetched w P' l o1 o1' -> restart w P' l (base inp o1) = Ok (base inp' o1').
Proof.
  intros (i1 & E1 & F1) (i2 & E2 & F2). unfold restart, disc_local_to_global, base. cbn [d_in d_out d_prob d_ein d_eout each]. rewrite E1, E2. cbn [bind].
  destruct l; [|subst; reflexivity]. unfold disc_global_to_local, read_disc. cbn [d_in d_out d_prob d_ein d_eout with_in with_out with_prob with_ein with_eout option_map each]. rewrite F1, F2. reflexivity.
Qed.
Lemma restart_ready w P' l inp o1 pr ptrs inp' o1' pr' b : fetched w P' l inp inp' -> fetched w P' l o1 o1' -> fetched w P' l pr pr' -> nth_error ptrs w = Some b ->
  restart w P' l (ready inp o1 pr ptrs) = Ok (ready inp' o1' pr' (repeat b P')).
Proof.
  intros (i1 & E1 & F1) (i2 & E2 & F2) (i3 & E3 & F3) N. unfold restart, disc_local_to_global, ready. cbn [d_in d_out d_prob d_ein d_eout each]. rewrite E1, E2, E3. cbn [bind].
  assert (X : of_rank w P' ptrs = Some (repeat b P')) by (unfold of_rank; rewrite N; reflexivity).
  destruct l.
  - unfold disc_global_to_local, read_disc. cbn [d_in d_out d_prob d_ein d_eout d_obs io ii oo io_loc ii_loc oo_loc with_in with_out with_prob with_ein with_eout option_map each bind_opt]. rewrite F1, F2, F3. cbn [bind]. rewrite X. reflexivity.
  - subst. unfold read_disc. cbn [d_in d_out d_prob d_ein d_eout d_obs io ii oo io_loc ii_loc oo_loc with_in with_out with_prob with_ein with_eout option_map bind_opt]. rewrite X. reflexivity.
Qed.
Lemma prob_told nn P o ys probs pr ptrs V inp o1 n : told o ys probs pr -> ys <> [] -> check_num P o1 = Ok n -> check_num P inp = Ok n -> loc inp Values <> None -> loc inp Volumes = Some (map vec_arr V) ->
  prob_disc nn P true (ready inp o1 pr ptrs) =
  do Q <- prob probs ptrs (if existsb (qltb 0) probs then V else []) ;
  Ok (ready (set_loc Probabilities (Some (map vec_arr Q)) (set_glob Probabilities (Some (vec_arr (concat Q))) inp)) o1 pr ptrs).
Proof.
  intros (VS & Pr & _) NE Co Ci Lv LV. unfold prob_disc, check_nums, ready. cbn [d_out d_in need bind d_prob io_loc]. rewrite Co, Ci. cbn [bind].
  assert (E0 : match glob o1 Values with Some _ => match glob inp Values with Some _ => if n =? n then Ok n else Raise LengthNotMatching | None => Ok n end | None => Ok n end = Ok n)
    by (rewrite Nat.eqb_refl; destruct (glob o1 Values); [destruct (glob inp Values)|]; reflexivity).
  rewrite E0. cbn [bind]. rewrite (valid_count P _ _ VS). cbn [bind d_in need]. unfold localized. destruct (loc inp Values); [|contradiction]. cbn [bind subscript].
  unfold out_probs. destruct (Nat.eqb_spec (length ys) 0) as [Z|_]; [destruct ys; [contradiction|discriminate]|]. rewrite Pr. cbn [subscript bind].
  cbn [vec_arr rows]. rewrite scalars_nums. cbn [bind]. rewrite LV. cbn [subscript bind]. rewrite scalar_blocks_vec.
  replace (if existsb (qltb 0) probs then Ok V else Ok []) with (Ok (if existsb (qltb 0) probs then V else [])) by (destruct (existsb (qltb 0) probs); reflexivity).
  cbn [bind]. destruct (prob probs ptrs _); reflexivity.
Qed.
Lemma repoint_told nn P o ys probs pr ptrs B inp o1 : told o ys probs pr -> loc o1 Values = Some (blocks_of o B) ->
  set_io_ptr nn P false (ready inp o1 pr ptrs) = Ok (ready inp o1 pr (map (map (nn ys)) B)).
Proof.
  intros (VS & _ & K) L. unfold set_io_ptr, ready. cbn [d_out need bind]. unfold localized. rewrite L. cbn [bind d_prob need]. unfold loc_values. rewrite L. cbn [bind].
  unfold query_blocks. rewrite K, (valid_count P _ _ VS). cbn [bind need]. rewrite K. cbn [need bind].
  assert (F : forallb (fun b => if shape_eq_dec (tail_shape b) (tail_shape (mk_arr ys [o])) then true else false) (blocks_of o B) = true).
  { apply forallb_forall. intros b Hb. apply in_map_iff in Hb. destruct Hb as (r & <- & _). cbn [tail_shape]. destruct (shape_eq_dec [o] [o]); [reflexivity|contradiction]. }
  rewrite F. cbn [bind fst snd rows]. unfold blocks_of. rewrite map_map. reflexivity.
Qed.

(** ** The continued calculation *)
Section Run.
Context (nn : list cell -> cell -> nat) (P w P' d o : nat) (g : cell -> cell) (model : arr cell -> arr cell) (vol : volumes_by) (before : bool) (dom dom' : option (list (Qc * Qc))) (xs ys : list cell) (probs : list Qc).
Context (T : interrupted P w P' d o g model vol before xs ys probs).
Let v := volume_list vol (length xs).
Lemma v_length : length v = length xs.
Proof. destruct T as (_ & _ & _ & _ & _ & _ & _ & W & _). apply volume_list_length. intros u Hu. apply (W u Hu). Qed.
Lemma v_nonneg : nonneg v.
Proof.
  destruct T as (_ & _ & _ & NX & _ & _ & _ & W & _). unfold v. destruct vol as [|u]; [|apply (W u eq_refl)]. intros y Hy. apply repeat_spec in Hy. subst y. apply qc_div_nonneg; [discriminate|]. apply qn_pos. destruct xs; [contradiction|cbn; lia].
Qed.
Lemma evaluated : exists inp o1, (do s1 <- (if before then define_volumes P vol (values_set d dom xs) else Ok (values_set d dom xs)) ; do e <- qoi model P true s1 ; if before then Ok e else define_input_volumes P vol e) = Ok (base inp o1) /\
  holds P d xs (Some v) true inp /\ holds P o (map g xs) None true o1.
Proof.
  destruct T as (WP & _ & M & NX & _ & _ & _ & W & B). assert (HP : 0 < P) by lia. pose proof v_length as Lv. unfold v in *. clear T. destruct before.
  - destruct (holds_define P vol d xs (values_set d dom xs) NX (fun u Hu => proj1 (W u Hu)) (values_holds P d dom xs)) as (l & s1 & -> & H1). cbn [bind].
    destruct (qoi_global P d o g model xs _ l s1 HP M H1) as (s2 & o1 & -> & H2 & H3); [intros ? [= <-]; exact Lv|]. exists s2, o1. auto.
  - cbn [bind]. destruct (qoi_global P d o g model xs None false _ HP M (values_holds P d dom xs)) as (s2 & o1 & -> & H2 & H3); [intros ? [=]|]. cbn [bind].
    unfold define_input_volumes. cbn [d_in need bind]. rewrite (B eq_refl). cbn [define_volumes].
    destruct (holds_mc P d xs None true s2 NX H2) as (s3 & -> & H4); [intros ? [=]|]. exists s3, o1. auto.
Qed.
Definition pointers (l : bool) (m : stopped) : list (list nat) :=
  match m with AfterOutput false => parts false P w P' (map (fun x => nn ys (g x)) xs) | _ => parts l P w P' (map (fun x => nn ys (g x)) xs) end.
Lemma map_mapped {A B C} (f : A -> B) (h : B -> C) (L : list (list A)) : map (map h) (map (map f) L) = map (map (fun x => h (f x))) L.
Proof. rewrite map_map. apply map_ext. intros l. apply map_map. Qed.
Lemma restarted_eq l m setter : exists inp o1 pr, glob inp Values = Some (mk_arr xs [d]) /\
  solve_restarted nn P w P' l m model vol before setter (values_set d dom xs) (probability_set o dom' ys probs) =
  do Q <- prob probs (pointers l m) (if existsb (qltb 0) probs then parts l P w P' v else []) ;
  Ok (ready (set_loc Probabilities (Some (map vec_arr Q)) (set_glob Probabilities (Some (vec_arr (concat Q))) inp)) o1 pr (pointers l m)).
Proof.
  destruct evaluated as (inp & o1 & E & Hi & Ho). destruct T as (WP & HP' & M & NX & NY & Lp & NP & W & B). assert (HP : 0 < P) by lia. pose proof v_length as Lv.
  assert (Fv : fits xs (Some v)) by (intros u [= <-]; exact Lv). assert (Fo : fits (map g xs) (@None (list Qc))) by (intros u [=]).
  destruct (kept_set P w P' l d xs (Some v) inp WP HP' Fv Hi) as (inp' & Fi & Ki & Gi & Li). destruct (kept_set P w P' l o (map g xs) None o1 WP HP' Fo Ho) as (o1' & Fo1 & Ko & Go & Lo).
  pose proof (probability_gives o dom' ys probs Lp) as GP.
  assert (Ci : check_num P' inp' = Ok (length xs)) by (apply (count_glob P' d xs (Some v)); assumption).
  assert (Co : check_num P' o1' = Ok (length xs)) by (rewrite (count_glob P' o (map g xs) None o1' Ko Go Fo), map_length; reflexivity).
  assert (LV : loc inp' Volumes = Some (map vec_arr (parts l P w P' v))).
  { rewrite Li. cbn [expected option_map]. unfold vec_arr. cbn [rows tail_shape]. rewrite parts_map, map_map. reflexivity. }
  assert (LN : loc inp' Values <> None) by (rewrite Li; discriminate).
  assert (LO : loc o1' Values = Some (blocks_of o (map (map g) (parts l P w P' xs)))).
  { rewrite Lo. cbn [expected option_map rows tail_shape]. rewrite parts_map. reflexivity. }
  assert (EQ : solve_restarted nn P w P' l m model vol before setter (values_set d dom xs) (probability_set o dom' ys probs) =
    bind (do s1 <- (if before then define_volumes P vol (values_set d dom xs) else Ok (values_set d dom xs)) ; do e <- qoi model P true s1 ; if before then Ok e else define_input_volumes P vol e)
      (fun d1 => match m with
        | AfterModel => do e <- restart w P' l d1 ; do d2 <- define_output nn P' setter (probability_set o dom' ys probs) e ; prob_disc nn P' true d2
        | AfterOutput rp => do d2 <- define_output nn P setter (probability_set o dom' ys probs) d1 ; do e <- restart w P' l d2 ; do f <- (if rp then set_io_ptr nn P' false e else Ok e) ; prob_disc nn P' true f end)).
  { unfold solve_restarted. destruct (if before then define_volumes P vol (values_set d dom xs) else Ok (values_set d dom xs)) as [s1|e1]; [|reflexivity]. cbn [bind]. destruct (qoi model P true s1); reflexivity. }
  rewrite EQ, E. cbn [bind].
  destruct m as [|rp].
  - rewrite (restart_base _ _ _ _ _ _ _ Fi Fo1). cbn [bind]. rewrite (define_blocks nn P' setter o ys probs _ _ inp' o1' GP LO Ko). cbn [bind].
    exists inp', o1', (grown o ys (probability_set o dom' ys probs)). split; [apply Gi|].
    rewrite (prob_told nn P' o ys probs _ _ (parts l P w P' v) inp' o1' (length xs) (grown_told _ _ _ _ GP) NY Co Ci LN LV). cbn [pointers]. rewrite map_mapped, <- parts_map. reflexivity.
  - assert (LB : loc o1 Values = Some (blocks_of o (array_split (map g xs) P))) by (rewrite (proj2 (proj2 Ho)); reflexivity).
    rewrite (define_blocks nn P setter o ys probs _ _ inp o1 GP LB (proj1 Ho)). cbn [bind]. destruct (told_set w P' l o dom' ys probs Lp) as (pr' & Fp & Tp).
    assert (N : nth_error (map (map (nn ys)) (array_split (map g xs) P)) w = Some (nth w (array_split (map (fun x => nn ys (g x)) xs) P) [])).
    { rewrite array_split_map, map_mapped, <- array_split_map. apply nth_error_nth'. rewrite array_split_length by exact HP. exact WP. }
    rewrite (restart_ready _ _ _ _ _ _ _ _ _ _ _ Fi Fo1 Fp N). cbn [bind]. destruct rp.
    + rewrite (repoint_told nn P' o ys probs pr' _ _ inp' o1' Tp LO). cbn [bind]. exists inp', o1', pr'. split; [apply Gi|].
      rewrite (prob_told nn P' o ys probs _ _ (parts l P w P' v) inp' o1' (length xs) Tp NY Co Ci LN LV). cbn [pointers]. rewrite map_mapped, <- parts_map. reflexivity.
    + cbn [bind]. exists inp', o1', pr'. split; [apply Gi|]. rewrite (prob_told nn P' o ys probs _ _ (parts l P w P' v) inp' o1' (length xs) Tp NY Co Ci LN LV). reflexivity.
Qed.
Lemma pointers_l l m : proper P P' l m \/ l = false -> pointers l m = map (map (fun x => nn ys (g x))) (parts l P w P' xs).
Proof.
  intros H. assert (W : w < P) by apply T. rewrite <- parts_map. unfold pointers. destruct m as [|[|]]; try reflexivity. destruct H as [[(E1 & E2)|(_ & N)]| ->]; [|contradiction|reflexivity].
  subst P P'. assert (w = 0) by lia. subst w. destruct l; [|reflexivity]. unfold parts. rewrite array_split_1. reflexivity.
Qed.
Lemma same_pointers l m : proper P P' l m \/ l = false -> same_lengths (pointers l m) (parts l P w P' v).
Proof.
  intros H. rewrite (pointers_l l m H), <- parts_map. destruct T as (WP & HP' & _). apply parts_sizes; [exact HP'|exact WP|]. rewrite map_length, v_length. reflexivity.
Qed.
Lemma answered l m : proper P P' l m \/ l = false -> exists Q, prob probs (pointers l m) (if existsb (qltb 0) probs then parts l P w P' v else []) = Ok Q /\ same_lengths Q (parts l P w P' xs) /\
  concat Q = solution (fun x => nn ys (g x)) probs (combine (concat (parts l P w P' xs)) (concat (parts l P w P' v))).
Proof.
  intros H. pose proof T as (WP & HP' & _ & _ & _ & _ & NP & _). destruct (prob_concat probs _ _ (same_pointers l m H)) as (Q & E & SQ & CQ). exists Q.
  split; [destruct (existsb (qltb 0) probs) eqn:X; [exact E|]; unfold prob in *; rewrite X in *; exact E|]. rewrite (pointers_l l m H) in SQ, CQ. split.
  - revert SQ. generalize (parts l P w P' xs) as L. clear. intros L. unfold same_lengths. revert L. induction Q as [|q Q IH]; intros [|b L] S; inversion S; subst; constructor; [rewrite map_length in *; assumption|apply IH; assumption].
  - rewrite CQ. rewrite <- concat_map. apply solution_share; [|exact NP|].
    + apply same_lengths_concat. apply parts_sizes; [exact HP'|exact WP|]. symmetry. exact v_length.
    + intros y Hy. apply in_concat in Hy. destruct Hy as (b & Hb & Hy). apply v_nonneg. exact (parts_in l P w P' v b y HP' WP Hb Hy).
Qed.
Lemma continued l m setter : proper P P' l m ->
  let r := solve_restarted nn P w P' l m model vol before setter (values_set d dom xs) (probability_set o dom' ys probs) in
  let q := solution (fun x => nn ys (g x)) probs (combine xs (volume_list vol (length xs))) in
  global_probabilities r = Some (map Num q) /\ sample_of r = Some xs /\
  (exists qs, local_probabilities r = Some (map (map Num) qs) /\ concat qs = q /\ same_lengths qs (array_split xs P')) /\
  forall P'' before' setter' dom'', 0 < P'' -> (before' = false -> vol = MonteCarlo) ->
    global_probabilities (solve nn P'' model vol before' setter' (values_set d dom'' xs) (probability_set o dom' ys probs)) = Some (map Num q).
Proof.
  intros H. cbv zeta. destruct (restarted_eq l m setter) as (inp & o1 & pr & G & ->). destruct (answered l m (or_introl H)) as (Q & -> & SQ & CQ). cbn [bind].
  assert (PE : forall A (z : list A), parts l P w P' z = array_split z P').
  { intros A z. unfold parts. destruct l; [reflexivity|]. destruct H as [(E1 & E2)|(E & _)]; [|discriminate]. pose proof (proj1 T) as WP. subst P P'. assert (w = 0) by lia. subst w. rewrite array_split_1. reflexivity. }
  rewrite !PE, !array_split_concat in CQ by apply T. rewrite PE in SQ. fold v.
  cbn [global_probabilities local_probabilities sample_of ready d_in set_loc set_glob glob loc]. rewrite !upd_same, upd_other by discriminate. rewrite G. cbn [option_map rows vec_arr]. rewrite CQ.
  split; [reflexivity|]. split; [reflexivity|]. split; [exists Q; split; [rewrite map_map; reflexivity|]; split; [exact CQ|exact SQ]|].
  intros P'' before' setter' dom'' HP'' HB. destruct T as (_ & _ & M & NX & NY & Lp & NP & W & _). apply solve_lemma; assumption.
Qed.
Lemma stale_pointers setter : (exists r, r < P' /\ held (length xs) P' r <> held (length xs) P w) -> (exists p, In p probs /\ (0 < p)%Qc) ->
  solve_restarted nn P w P' true (AfterOutput false) model vol before setter (values_set d dom xs) (probability_set o dom' ys probs) = Raise PyIndexError.
Proof.
  intros (r & R & D) (p & Hp & Pp). destruct (restarted_eq true (AfterOutput false) setter) as (inp & o1 & pr & _ & ->).
  assert (X : existsb (qltb 0) probs = true) by (apply existsb_exists; exists p; split; [exact Hp|]; destruct (qltb_spec 0%Qc p); [reflexivity|contradiction]).
  unfold prob. rewrite X. destruct (zip_blocks (pointers true (AfterOutput false)) (parts true P w P' v)) as [z|e] eqn:Z; [|rewrite (zip_raise _ _ _ Z); reflexivity].
  exfalso. apply D. apply zip_same in Z. assert (S := same_lengths_at _ _ Z r). unfold pointers, parts in S. rewrite nth_repeat_in in S by exact R. rewrite !array_split_nth_length in S by (exact R || apply T).
  rewrite map_length, v_length in S. unfold held. symmetry. exact S.
Qed.
Lemma combine_app {A B} (a1 a2 : list A) (b1 b2 : list B) : length a1 = length b1 -> combine (a1 ++ a2) (b1 ++ b2) = combine a1 b1 ++ combine a2 b2.
Proof. revert b1. induction a1 as [|x a1 IH]; intros [|y b1] L; try discriminate; [reflexivity|]. cbn [app combine]. rewrite IH by (injection L as L; exact L). reflexivity. Qed.
Lemma combine_copies {A B} (a : list A) (b : list B) n : length a = length b -> combine (concat (repeat a n)) (concat (repeat b n)) = concat (repeat (combine a b) n).
Proof. intros L. induction n as [|n IH]; [reflexivity|]. cbn [repeat concat]. rewrite combine_app, IH by exact L. reflexivity. Qed.
Lemma combine_firstn {A B} n (a : list A) (b : list B) : combine (firstn n a) (firstn n b) = firstn n (combine a b).
Proof. revert a b. induction n as [|n IH]; intros [|x a] [|y b]; try reflexivity. cbn [firstn combine]. rewrite IH. reflexivity. Qed.
Lemma combine_skipn {A B} n (a : list A) (b : list B) : combine (skipn n a) (skipn n b) = skipn n (combine a b).
Proof. revert a b. induction n as [|n IH]; intros [|x a] [|y b]; try reflexivity; cbn [skipn combine]; [destruct (skipn n a); reflexivity|apply IH]. Qed.
Lemma combine_block {A B} (a : list A) (b : list B) k r : r < k -> length a = length b -> combine (nth r (array_split a k) []) (nth r (array_split b k) []) = nth r (array_split (combine a b) k) [].
Proof. intros R L. rewrite !array_split_nth by exact R. rewrite combine_length, <- L, Nat.min_id. rewrite combine_firstn, combine_skipn. reflexivity. Qed.
Lemma stale_arrays m setter :
  let r := solve_restarted nn P w P' false m model vol before setter (values_set d dom xs) (probability_set o dom' ys probs) in
  exists q, global_probabilities r = Some (map Num q) /\ sample_of r = Some xs /\ length q = P' * held (length xs) P w /\
    q = solution (fun x => nn ys (g x)) probs (copies w P P' (combine xs (volume_list vol (length xs)))).
Proof.
  cbv zeta. destruct (restarted_eq false m setter) as (inp & o1 & pr & G & ->). destruct (answered false m (or_intror eq_refl)) as (Q & -> & SQ & CQ). cbn [bind]. exists (concat Q).
  cbn [global_probabilities sample_of ready d_in set_loc set_glob glob]. rewrite upd_same, upd_other by discriminate. rewrite G. split; [reflexivity|]. split; [reflexivity|].
  pose proof T as (WP & HP' & _). pose proof v_length as Lv. split.
  - rewrite (same_lengths_concat _ _ SQ). unfold parts. assert (E := array_split_nth_length xs P w WP). fold (held (length xs) P w) in E. rewrite <- E. clear. generalize (nth w (array_split xs P) []) as b. intros b. induction P' as [|k IH]; [reflexivity|]. cbn [repeat concat]. rewrite app_length, IH. reflexivity.
  - rewrite CQ. unfold parts, copies. fold v. rewrite combine_copies by (rewrite !array_split_nth_length by exact WP; rewrite Lv; reflexivity). rewrite combine_block by (try exact WP; symmetry; exact Lv). reflexivity.
Qed.
End Run.
