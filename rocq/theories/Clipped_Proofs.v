From Coq Require Import List Arith Bool QArith Qcanon Lia.
From Verif Require Import Err Num NumPy Lists SampleSet_Model SampleSet_Spec SampleSet_Proofs Prob_Model Prob_Spec Prob_Proofs
  Disc_Model Disc_Spec Disc_Proofs Workflow_Model Workflow_Spec Workflow_Proofs Stable_Spec Stable_Proofs DataUnif_Proofs Batches_Proofs Batches2_Proofs Restart_Model Restart_Spec Restart_Proofs Clipped_Model Clipped_Spec.
Import ListNotations.
Local Open Scope nat_scope.
Local Open Scope err_scope.

(** ** Equal volumes *)
Lemma even_shares c n a b p : (0 < a)%Qc -> (0 < b)%Qc -> shares c (repeat a n) p = shares c (repeat b n) p.
Proof.
  intros Ha Hb. assert (Na : (a <> 0)%Qc) by (intros ->; discriminate Ha). assert (Nb : (b <> 0)%Qc) by (intros ->; discriminate Hb).
  rewrite <- (shares_scaled c (repeat a n) (b / a)%Qc).
  - f_equal. unfold scaled. rewrite rep_map. f_equal. field. exact Na.
  - intros Z. apply Nb. replace b with (b / a * a)%Qc by (field; exact Na). rewrite Z. ring.
Qed.
(** ** One set *)
Lemma clip_set P c d (xs : list cell) (s : sset cell) n : valid_set s n -> dim s = d -> glob s Values = Some (mk_arr xs [d]) -> loc s Values <> None ->
  exists s', clip P c s = Ok s' /\ valid_set s' (Nat.min c n) /\ dim s' = d /\
    (forall a, a <> KdtreeValues -> glob s' a = option_map (clip_arr c) (glob s a)) /\
    (forall a x, glob s a = Some x -> loc s' a = Some (split_arr P (clip_arr c x))).
Proof.
  intros (VA & VB) D G L. assert (V : valid_set (clip_globals c s) (Nat.min c n)).
  { split.
    - intros a x E. cbn [clip_globals glob] in E. destruct (glob s a) as [y|] eqn:Y; [|discriminate]. injection E as <-. rewrite clip_arr_length, (VA a y Y). reflexivity.
    - exists (clip_arr c (mk_arr xs [d])). cbn [clip_globals glob dim]. rewrite G, D. split; reflexivity. }
  unfold clip. rewrite (valid_count P _ _ (conj VA VB)). cbn [bind]. rewrite G. cbn [bind clip_globals loc]. destruct (loc s Values) as [lv|]; [|contradiction].
  unfold global_to_local. fold (clip_globals c s). rewrite (valid_count P _ _ V). cbn [bind]. unfold set_kdtree. cbn [glob clip_globals]. rewrite G. cbn [option_map].
  eexists. split; [reflexivity|]. split; [|split; [exact D|split]].
  - destruct V as (V1 & y & V2 & V3). split.
    + intros a x. cbn [glob]. unfold upd. destruct (attr_eq_dec a KdtreeValues); [|apply V1]. intros [= <-]. rewrite clip_arr_length, (VA Values _ G). reflexivity.
    + exists y. cbn [glob dim]. rewrite upd_other by discriminate. split; assumption.
  - intros a N. cbn [glob]. rewrite upd_other by exact N. reflexivity.
  - intros a x E. cbn [loc clip_globals glob]. rewrite E. reflexivity.
Qed.
Lemma holds_valid P d xs ov s : holds P d xs ov true s -> fits xs ov -> valid_set s (length xs).
Proof.
  intros (D & G & _) F. split.
  - intros a x E. rewrite G in E. destruct a; try discriminate; cbn [expected] in E.
    + injection E as <-. reflexivity.
    + destruct ov as [v|]; [|discriminate]. injection E as <-. cbn [vec_arr rows]. rewrite map_length. apply F. reflexivity.
  - exists (mk_arr xs [d]). rewrite G, D. split; reflexivity.
Qed.

(** ** The discretization *)
Definition unset (inp o1 : sset cell) (pr : option (sset cell)) : disc cell := mk_disc (Some inp) (Some o1) pr None None None None None None None None None.
Lemma clip_eq P c inp o1 pr ptr ci co n : clip P c inp = Ok ci -> clip P c o1 = Ok co -> check_num P ci = Ok n -> check_num P co = Ok n ->
  clip_disc P c (mk_disc (Some inp) (Some o1) pr None None None None None None ptr None None) = Ok (unset ci co pr).
Proof.
  intros E1 E2 C1 C2. unfold clip_disc. cbn [d_in d_out need bind]. rewrite E1. cbn [bind]. rewrite E2. cbn [bind d_prob d_ein d_eout].
  unfold new_disc, check_nums. cbn [d_out d_in need bind]. rewrite C1, C2. cbn [bind].
  assert (E0 : match glob co Values with Some _ => match glob ci Values with Some _ => if n =? n then Ok n else Raise LengthNotMatching | None => Ok n end | None => Ok n end = Ok n)
    by (rewrite Nat.eqb_refl; destruct (glob co Values); [destruct (glob ci Values)|]; reflexivity).
  rewrite E0. reflexivity.
Qed.
Lemma prob_unset nn P o ys probs pr B inp o1 n : told o ys probs pr -> check_num P o1 = Ok n -> check_num P inp = Ok n -> loc o1 Values = Some (blocks_of o B) ->
  prob_disc nn P true (unset inp o1 (Some pr)) = prob_disc nn P true (ready inp o1 pr (map (map (nn ys)) B)).
Proof.
  intros TP Co Ci L. pose proof (repoint_told nn P o ys probs pr [] B inp o1 TP L) as E.
  assert (E' : set_io_ptr nn P false (unset inp o1 (Some pr)) = Ok (ready inp o1 pr (map (map (nn ys)) B))).
  { destruct TP as (VS & _ & K). clear E. unfold set_io_ptr, unset. cbn [d_out need bind]. unfold localized. rewrite L. cbn [bind d_prob need]. unfold loc_values. rewrite L. cbn [bind].
    unfold query_blocks. rewrite K, (valid_count P _ _ VS). cbn [bind need]. rewrite K. cbn [need bind].
    assert (F : forallb (fun b => if shape_eq_dec (tail_shape b) (tail_shape (mk_arr ys [o])) then true else false) (blocks_of o B) = true).
    { apply forallb_forall. intros b Hb. apply in_map_iff in Hb. destruct Hb as (r & <- & _). cbn [tail_shape]. destruct (shape_eq_dec [o] [o]); [reflexivity|contradiction]. }
    rewrite F. cbn [bind fst snd rows]. unfold blocks_of. rewrite map_map. reflexivity. }
  unfold prob_disc at 1. unfold check_nums. cbn [unset d_out d_in need bind d_prob io_loc]. fold (unset inp o1 (Some pr)). rewrite E'.
  unfold prob_disc, check_nums. cbn [ready d_out d_in need bind d_prob io_loc]. reflexivity.
Qed.

(** ** The clipped run *)
Section Run.
Context (nn : list cell -> cell -> nat) (P c d o : nat) (g : cell -> cell) (model : arr cell -> arr cell) (w : volumes_by) (before : bool) (dom dom' : option (list (Qc * Qc))) (xs ys : list cell) (probs : list Qc).
Context (T : clipped_run P c d o g model w before xs ys probs).
Let v := volume_list w (length xs).
Let zs := firstn c xs.
Let u := firstn c v.
Lemma as_interrupted : interrupted P 0 P d o g model w before xs ys probs.
Proof. destruct T as (HP & _ & M & NX & NY & Lp & NP & W & B). repeat (split; [assumption|]). exact B. Qed.
Lemma u_length : length u = length zs.
Proof. unfold u, zs. rewrite !firstn_length. unfold v. rewrite (v_length P 0 P d o g model w before xs ys probs as_interrupted). reflexivity. Qed.
Lemma u_nonneg : nonneg u.
Proof. intros y Hy. apply (v_nonneg P 0 P d o g model w before xs ys probs as_interrupted). rewrite <- (firstn_skipn c). apply in_or_app. left. exact Hy. Qed.
Definition clips (inp o1 : sset cell) : Prop := valid_set inp (length xs) /\ dim inp = d /\ glob inp Values = Some (mk_arr xs [d]) /\ loc inp Values <> None /\ glob inp Volumes = Some (vec_arr v) /\ holds P o (map g xs) None true o1.
Lemma clipped_disc inp o1 pr ptr : clips inp o1 -> exists ci co,
  clip_disc P c (mk_disc (Some inp) (Some o1) pr None None None None None None ptr None None) = Ok (unset ci co pr) /\
  check_num P ci = Ok (length zs) /\ check_num P co = Ok (length zs) /\ glob ci Values = Some (mk_arr zs [d]) /\ loc ci Values <> None /\ dim co = o /\
  loc ci Volumes = Some (map vec_arr (array_split u P)) /\ loc co Values = Some (blocks_of o (map (map g) (array_split zs P))) /\
  forall q, glob inp Probabilities = Some (vec_arr q) -> glob ci Probabilities = Some (vec_arr (firstn c q)).
Proof.
  intros (Vi & Di & Gi & Li & GV & Ho). assert (Fo : fits (map g xs) (@None (list Qc))) by (intros z [=]).
  assert (Lo : loc o1 Values <> None) by (rewrite (proj2 (proj2 Ho)); discriminate).
  destruct (clip_set P c d xs inp _ Vi Di Gi Li) as (ci & E1 & V1 & D1 & G1 & L1).
  destruct (clip_set P c o (map g xs) o1 _ (holds_valid _ _ _ _ _ Ho Fo) (proj1 Ho) (proj1 (proj2 Ho) Values) Lo) as (co & E2 & V2 & D2 & G2 & L2). rewrite map_length in V2.
  assert (N : Nat.min c (length xs) = length zs) by (unfold zs; rewrite firstn_length; reflexivity). rewrite N in *. exists ci, co.
  pose proof (valid_count P _ _ V1) as C1. pose proof (valid_count P _ _ V2) as C2.
  split; [exact (clip_eq P c inp o1 pr ptr ci co _ E1 E2 C1 C2)|]. split; [exact C1|]. split; [exact C2|]. split; [rewrite G1, Gi by discriminate; reflexivity|].
  split; [rewrite (L1 _ _ Gi); discriminate|]. split; [exact D2|]. split; [|split].
  - rewrite (L1 _ _ GV). unfold clip_arr, vec_arr. cbn [rows tail_shape]. rewrite firstn_map, split_rows, array_split_map, map_map. reflexivity.
  - rewrite (L2 _ _ (proj1 (proj2 Ho) Values)). unfold clip_arr. cbn [expected rows tail_shape]. rewrite firstn_map, split_rows, array_split_map. reflexivity.
  - intros q Gq. rewrite G1, Gq by discriminate. cbn [option_map]. unfold clip_arr, vec_arr. cbn [rows tail_shape]. rewrite firstn_map. reflexivity.
Qed.
Let ptrs := map (map (fun x => nn ys (g x))) (array_split zs P).
Lemma clipped_prob : exists Q, prob probs ptrs (if existsb (qltb 0) probs then array_split u P else []) = Ok Q /\ same_lengths Q (array_split zs P) /\ concat Q = solution (fun x => nn ys (g x)) probs (combine zs u).
Proof.
  destruct T as (HP & _ & _ & _ & _ & _ & NP & _).
  assert (S : same_lengths ptrs (array_split u P)).
  { unfold ptrs. rewrite <- array_split_map. apply same_lengths_nth; [rewrite !array_split_length by exact HP; reflexivity|]. intros r R. rewrite array_split_length in R by exact HP. rewrite !array_split_nth_length by exact R. rewrite map_length, u_length. reflexivity. }
  destruct (prob_concat probs _ _ S) as (Q & E & SQ & CQ). exists Q. split; [destruct (existsb (qltb 0) probs) eqn:X; [exact E|]; unfold prob in *; rewrite X in *; exact E|]. split.
  - unfold ptrs in SQ. revert SQ. generalize (array_split zs P) as L. clear. intros L. unfold same_lengths. revert L. induction Q as [|q Q IH]; intros [|b L] S; inversion S; subst; constructor; [rewrite map_length in *; assumption|apply IH; assumption].
  - rewrite CQ. unfold ptrs. rewrite <- concat_map, !array_split_concat by exact HP. apply solution_share; [symmetry; exact u_length|exact NP|exact u_nonneg].
Qed.
Lemma clipped_end pr ci co : told o ys probs pr -> check_num P ci = Ok (length zs) -> check_num P co = Ok (length zs) -> glob ci Values = Some (mk_arr zs [d]) -> loc ci Values <> None -> loc ci Volumes = Some (map vec_arr (array_split u P)) ->
  let r := prob_disc nn P true (ready ci co pr ptrs) in let q := solution (fun x => nn ys (g x)) probs (combine zs u) in
  global_probabilities r = Some (map Num q) /\ sample_of r = Some zs /\ exists qs, local_probabilities r = Some (map (map Num) qs) /\ concat qs = q /\ same_lengths qs (array_split zs P).
Proof.
  intros TP C1 C2 G L LV. cbv zeta. destruct T as (HP & _ & _ & _ & NY & _). rewrite (prob_told nn P o ys probs pr ptrs (array_split u P) ci co (length zs) TP NY C2 C1 L LV).
  destruct clipped_prob as (Q & -> & SQ & CQ). cbn [bind global_probabilities local_probabilities sample_of ready d_in set_loc set_glob glob loc]. rewrite !upd_same, upd_other by discriminate. rewrite G. cbn [option_map rows vec_arr]. rewrite CQ.
  split; [reflexivity|]. split; [reflexivity|]. exists Q. split; [rewrite map_map; reflexivity|]. split; [exact CQ|exact SQ].
Qed.
Lemma first_eval inp o1 : holds P d xs (Some v) true inp -> holds P o (map g xs) None true o1 -> clips inp o1.
Proof.
  intros Hi Ho. assert (F : fits xs (Some v)) by (intros z [= <-]; apply (v_length P 0 P d o g model w before xs ys probs as_interrupted)).
  split; [apply (holds_valid P d xs (Some v) inp Hi F)|]. split; [apply Hi|]. split; [apply (proj1 (proj2 Hi) Values)|]. split; [rewrite (proj2 (proj2 Hi)); discriminate|]. split; [apply (proj1 (proj2 Hi) Volumes)|exact Ho].
Qed.
Lemma clips_prob inp o1 q Q : clips inp o1 -> length q = length xs -> clips (set_loc Probabilities Q (set_glob Probabilities (Some (vec_arr q)) inp)) o1.
Proof.
  intros ((V1 & x & V2 & V3) & Di & Gi & Li & GV & Ho) L. split; [split|].
  - intros a y. cbn [set_loc set_glob glob]. unfold upd. destruct (attr_eq_dec a Probabilities); [|apply V1]. intros [= <-]. cbn [vec_arr rows]. rewrite map_length. exact L.
  - exists x. cbn [set_loc set_glob glob dim]. rewrite upd_other by discriminate. split; assumption.
  - split; [exact Di|]. cbn [set_loc set_glob glob loc]. rewrite !upd_other by discriminate. repeat (split; [assumption|]). exact Ho.
Qed.
Lemma clipped_lemma k setter :
  let r := solve_clipped nn P c k model w before setter (values_set d dom xs) (probability_set o dom' ys probs) in let q := solution (fun x => nn ys (g x)) probs (combine zs u) in
  global_probabilities r = Some (map Num q) /\ sample_of r = Some zs /\ exists qs, local_probabilities r = Some (map (map Num) qs) /\ concat qs = q /\ same_lengths qs (array_split zs P).
Proof.
  cbv zeta. destruct (evaluated P 0 P d o g model w before dom xs ys probs as_interrupted) as (inp & o1 & E & Hi & Ho). fold v in Hi. pose proof T as (HP & HC & M & NX & NY & Lp & NP & W & B).
  pose proof (probability_gives o dom' ys probs Lp) as GP. pose proof (grown_told _ _ _ _ GP) as TP. pose proof (first_eval inp o1 Hi Ho) as CL.
  assert (EQ : solve_clipped nn P c k model w before setter (values_set d dom xs) (probability_set o dom' ys probs) =
    bind (do s1 <- (if before then define_volumes P w (values_set d dom xs) else Ok (values_set d dom xs)) ; do e <- qoi model P true s1 ; if before then Ok e else define_input_volumes P w e)
      (fun d1 => match k with
        | ClipEvaluated => do e <- clip_disc P c d1 ; do d2 <- define_output nn P setter (probability_set o dom' ys probs) e ; prob_disc nn P true d2
        | ClipReady => do d2 <- define_output nn P setter (probability_set o dom' ys probs) d1 ; do e <- clip_disc P c d2 ; prob_disc nn P true e
        | ClipSolved => do d2 <- define_output nn P setter (probability_set o dom' ys probs) d1 ; do d3 <- prob_disc nn P true d2 ; do e <- clip_disc P c d3 ; prob_disc nn P true e end)).
  { unfold solve_clipped. destruct (if before then define_volumes P w (values_set d dom xs) else Ok (values_set d dom xs)) as [s1|e1]; [|reflexivity]. cbn [bind]. destruct (qoi model P true s1); reflexivity. }
  rewrite EQ, E. cbn [bind].
  assert (LB : loc o1 Values = Some (blocks_of o (array_split (map g xs) P))) by (rewrite (proj2 (proj2 Ho)); reflexivity).
  assert (PE : map (map (nn ys)) (map (map g) (array_split zs P)) = ptrs) by apply map_mapped.
  destruct k.
  - destruct (clipped_disc inp o1 None None CL) as (ci & co & EC & C1 & C2 & G & L & DO & LV & LO & _). unfold base. rewrite EC. cbn [bind].
    change (unset ci co None) with (base ci co). rewrite (define_blocks nn P setter o ys probs _ _ ci co GP LO DO). cbn [bind]. rewrite PE. exact (clipped_end _ ci co TP C1 C2 G L LV).
  - rewrite (define_blocks nn P setter o ys probs _ _ inp o1 GP LB (proj1 Ho)). cbn [bind].
    destruct (clipped_disc inp o1 (Some (grown o ys (probability_set o dom' ys probs))) (Some (map (map (nn ys)) (array_split (map g xs) P))) CL) as (ci & co & EC & C1 & C2 & G & L & DO & LV & LO & _).
    unfold ready. rewrite EC. cbn [bind]. rewrite (prob_unset nn P o ys probs _ _ ci co (length zs) TP C2 C1 LO), PE. exact (clipped_end _ ci co TP C1 C2 G L LV).
  - rewrite (define_blocks nn P setter o ys probs _ _ inp o1 GP LB (proj1 Ho)). cbn [bind].
    assert (Fv : fits xs (Some v)) by (intros z [= <-]; apply (v_length P 0 P d o g model w before xs ys probs as_interrupted)). assert (Fo : fits (map g xs) (@None (list Qc))) by (intros z [=]).
    pose proof (Fv v eq_refl) as Lv.
    assert (Ci : check_num P inp = Ok (length xs)) by exact (holds_count _ _ _ _ _ _ Hi Fv).
    assert (Co : check_num P o1 = Ok (length xs)) by (rewrite (holds_count _ _ _ _ _ _ Ho Fo), map_length; reflexivity).
    assert (LN : loc inp Values <> None) by (rewrite (proj2 (proj2 Hi)); discriminate).
    assert (LV0 : loc inp Volumes = Some (map vec_arr (array_split v P))) by (rewrite (proj2 (proj2 Hi)); cbn [expected option_map]; unfold vec_arr; rewrite split_rows, array_split_map, map_map; reflexivity).
    rewrite (prob_told nn P o ys probs _ (map (map (nn ys)) (array_split (map g xs) P)) (array_split v P) inp o1 (length xs) TP NY Co Ci LN LV0).
    assert (S : same_lengths (map (map (nn ys)) (array_split (map g xs) P)) (array_split v P)).
    { rewrite <- array_split_map. apply same_lengths_nth; [rewrite !array_split_length by exact HP; reflexivity|]. intros r R. rewrite array_split_length in R by exact HP. rewrite !array_split_nth_length by exact R. rewrite !map_length, Lv. reflexivity. }
    destruct (prob_concat probs _ _ S) as (Q & EP & SQ & _).
    assert (EP' : prob probs (map (map (nn ys)) (array_split (map g xs) P)) (if existsb (qltb 0) probs then array_split v P else []) = Ok Q) by (destruct (existsb (qltb 0) probs) eqn:X; [exact EP|]; unfold prob in *; rewrite X in *; exact EP).
    rewrite EP'. cbn [bind].
    assert (LQ : length (concat Q) = length xs) by (rewrite (same_lengths_concat _ _ SQ), <- concat_map, map_length, array_split_concat, map_length by exact HP; reflexivity).
    destruct (clipped_disc _ o1 (Some (grown o ys (probability_set o dom' ys probs))) (Some (map (map (nn ys)) (array_split (map g xs) P))) (clips_prob inp o1 (concat Q) (Some (map vec_arr Q)) CL LQ)) as (ci & co & EC & C1 & C2 & G & L & DO & LV & LO & _).
    unfold ready. rewrite EC. cbn [bind]. rewrite (prob_unset nn P o ys probs _ _ ci co (length zs) TP C2 C1 LO), PE. exact (clipped_end _ ci co TP C1 C2 G L LV).
Qed.
(** the same as the run with the first samples only *)
Lemma firstn_repeat {A} k n (x : A) : firstn k (repeat x n) = repeat x (Nat.min k n).
Proof. revert n. induction k as [|k IH]; intros [|n]; try reflexivity. cbn [firstn repeat Nat.min]. rewrite IH. reflexivity. Qed.
Lemma zs_some : zs <> [].
Proof. unfold zs. destruct T as (_ & HC & _ & NX & _). destruct c; [lia|]. destruct xs; [contradiction|discriminate]. Qed.
Lemma first_run P' before' setter' dom'' : 0 < P' -> (before' = false -> w = MonteCarlo) ->
  global_probabilities (solve nn P' model (first_volumes c w) before' setter' (values_set d dom'' zs) (probability_set o dom' ys probs)) = Some (map Num (solution (fun x => nn ys (g x)) probs (combine zs u))).
Proof.
  intros HP' HB. pose proof T as (HP & HC & M & NX & NY & Lp & NP & W & B). pose proof zs_some as NZ.
  destruct (solve_lemma nn P' d o g model (first_volumes c w) before' setter' dom'' dom' zs ys probs HP' M NZ NY Lp NP) as (-> & _).
  - intros x. pose proof u_length as A. pose proof u_nonneg as A'. unfold u, v in A, A'. revert A A'. destruct w as [|y]; [discriminate|]. intros A A' [= <-]. split; assumption.
  - intros H. rewrite (HB H). reflexivity.
  - f_equal. f_equal. unfold u, v. destruct w as [|y]; [|reflexivity]. cbn [first_volumes volume_list]. rewrite firstn_repeat.
    replace (Nat.min c (length xs)) with (length zs) by (unfold zs; rewrite firstn_length; reflexivity). rewrite !solution_shares.
    apply even_shares; apply qc_div_pos; try reflexivity; apply qn_pos; [destruct zs; [contradiction|cbn; lia]|destruct xs; [contradiction|cbn; lia]].
Qed.
(** the clip of a solution *)
Lemma solved_clip setter : let r := clip_solved nn P c model w before setter (values_set d dom xs) (probability_set o dom' ys probs) in
  global_probabilities r = Some (map Num (firstn c (solution (fun x => nn ys (g x)) probs (combine xs v)))) /\ sample_of r = Some zs.
Proof.
  cbv zeta. pose proof T as (HP & HC & M & NX & NY & Lp & NP & W & B).
  destruct (solve_state nn P d o g model w before setter dom dom' xs ys probs HP M NX NY Lp NP W B) as (inp & o1 & Q & E & Hi & Ho & CQ & SL). fold v in E, Hi, CQ.
  unfold clip_solved. rewrite E. cbn [bind].
  assert (LQ : length (solution (fun x => nn ys (g x)) probs (combine xs v)) = length xs) by (rewrite <- CQ, (same_lengths_concat _ _ SL), array_split_concat by exact HP; reflexivity).
  destruct (clipped_disc _ o1 (Some (with_tree o dom' ys probs)) (Some (array_split (map (nn ys) (map g xs)) P)) (clips_prob inp o1 _ (Some (map vec_arr Q)) (first_eval inp o1 Hi Ho) LQ)) as (ci & co & EC & _ & _ & G & _ & _ & _ & _ & Pr).
  rewrite EC. cbn [global_probabilities sample_of unset d_in]. rewrite G, (Pr _ (upd_same _ _ _)). split; reflexivity.
Qed.
End Run.
