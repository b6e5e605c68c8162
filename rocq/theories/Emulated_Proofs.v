From Coq Require Import List Arith Bool QArith Qcanon Lia.
From Verif Require Import Err Num NumPy Lists SampleSet_Model SampleSet_Spec SampleSet_Proofs Prob_Model Prob_Spec Prob_Proofs
  Disc_Model Disc_Spec Disc_Proofs Workflow_Model Workflow_Spec Workflow_Proofs Stable_Spec Stable_Proofs DataUnif_Proofs Batches_Proofs Batches2_Proofs Restart_Model Restart_Spec Restart_Proofs Clipped_Proofs Emulated_Model Emulated_Spec.
Import ListNotations.
Local Open Scope nat_scope.
Local Open Scope err_scope.

Lemma qoi_kd model P s e i : qoi model P true s = Ok e -> d_in e = Some i -> kd i = kd s.
Proof.
  unfold qoi. destruct (localized P s) as [s1|] eqn:L; cbn [bind]; [|discriminate].
  assert (K : kd s1 = kd s). { unfold localized in L. destruct (loc s Values); [injection L as <-; reflexivity|]. unfold global_to_local in L. destruct (check_num P s); [|discriminate]. injection L as <-. reflexivity. }
  destruct (loc_values s1) as [bs|]; cbn [bind]; [|discriminate]. destruct (map model bs) as [|b r]; [discriminate|]. destruct (forallb _ (b :: r)); [|discriminate].
  destruct (set_values_local (map two_d (b :: r)) (new_sset (output_dim b))) as [o|]; cbn [bind]; [|discriminate].
  destruct (local_to_global s1) as [s2|] eqn:E; cbn [bind]; [|discriminate]. destruct (local_to_global o) as [o2|]; cbn [bind]; [|discriminate].
  destruct (local_to_global_spec _ _ E) as (_ & _ & _ & K2 & _). unfold new_disc. destruct (check_nums P _); cbn [bind]; [|discriminate]. intros [= <-]. cbn [d_in]. intros [= <-]. congruence.
Qed.
Lemma gather_vecs (Q : list (list Qc)) : Q <> [] -> get_global_values (map vec_arr Q) = Ok (vec_arr (concat Q)).
Proof.
  intros N. rewrite (gather_same _ []).
  - rewrite map_map. cbn [rows vec_arr]. unfold vec_arr. f_equal. f_equal. rewrite concat_map. reflexivity.
  - intros E. apply map_eq_nil in E. contradiction.
  - intros b Hb. apply in_map_iff in Hb. destruct Hb as (q & <- & _). reflexivity.
Qed.
Lemma list_nth {A} (a b : list A) : length a = length b -> (forall j, j < length a -> nth_error a j = nth_error b j) -> a = b.
Proof.
  revert b. induction a as [|x a IH]; intros [|y b] L H; try discriminate; [reflexivity|]. f_equal.
  - specialize (H 0 ltac:(cbn; lia)). cbn in H. congruence.
  - apply IH; [injection L as L; exact L|]. intros j Hj. apply (H (S j)). cbn. lia.
Qed.

Section Run.
Context (nn : list cell -> cell -> nat) (P d o : nat) (g : cell -> cell) (model : arr cell -> arr cell) (dom dom' dome : option (list (Qc * Qc))) (xs ys es : list cell) (probs : list Qc).
Context (T : emulation nn P d o g model xs ys es probs).
Let em := values_set d dome es.
Let pr0 := probability_set o dom' ys probs.
Let pr := grown o ys pr0.
Let cells := map (fun x => nn ys (g x)) xs.
Let io_blocks := array_split cells P.
(** ready for prob_on_emulated_samples *)
Definition assembled_disc (inp o1 : sset cell) (gl : option (list nat)) : disc cell := mk_disc (Some inp) (Some o1) (Some pr) (Some em) None None gl None None (Some io_blocks) None None.
Lemma told_pr : told o ys probs pr.
Proof. apply grown_told, probability_gives. apply T. Qed.
Lemma concat_io : concat io_blocks = cells.
Proof. apply array_split_concat. apply T. Qed.
Lemma em_count : check_num P em = Ok (length es).
Proof. apply (count_glob P d es None); [reflexivity|intros a; destruct a; reflexivity|intros v [=]]. Qed.
Definition em_local : sset cell := mk_sset d (glob em) (fun a => match glob em a with Some x => Some (split_arr P x) | None => None end) (Some (array_split (seq 0 (length es)) P)) None dome None.
Lemma em_localized : localized P em = Ok em_local.
Proof. unfold localized. cbn [em values_set loc]. unfold global_to_local. fold em. rewrite em_count. reflexivity. Qed.
Lemma evaluated_sets : exists inp o1, qoi model P true (values_set d dom xs) = Ok (base inp o1) /\ holds P d xs None true inp /\ holds P o (map g xs) None true o1 /\ kd inp = None.
Proof.
  destruct T as (HP & M & _). destruct (qoi_global P d o g model xs None false _ HP M (values_holds P d dom xs)) as (inp & o1 & E & H1 & H2); [intros ? [=]|]. exists inp, o1.
  split; [exact E|]. split; [exact H1|]. split; [exact H2|]. exact (qoi_kd _ _ _ _ _ E eq_refl).
Qed.
Let target (e : cell) : nat := nn ys (nearest_output nn xs g e).
Lemma follow_cells : exists ptrs, follow cells (map (map (nn xs)) (array_split es P)) = Ok ptrs /\ same_lengths ptrs (array_split es P) /\ concat ptrs = map target es.
Proof.
  destruct T as (HP & _ & _ & _ & _ & _ & _ & N). destruct (follow_ok cells (map (map (nn xs)) (array_split es P))) as (ptrs & E & S & H).
  { intros k Hk. rewrite <- concat_map, array_split_concat in Hk by exact HP. apply in_map_iff in Hk. destruct Hk as (e & <- & He). unfold cells. rewrite map_length. apply N. exact He. }
  assert (S' : same_lengths ptrs (array_split es P)).
  { revert S. generalize (array_split es P) as L. clear. intros L. unfold same_lengths. revert L. induction ptrs as [|q Q IH]; intros [|b L] S; inversion S; subst; constructor; [rewrite map_length in *; assumption|apply IH; assumption]. }
  exists ptrs. split; [exact E|]. split; [exact S'|]. rewrite <- concat_map, array_split_concat in H by exact HP.
  assert (L : length (concat ptrs) = length es) by (rewrite (same_lengths_concat _ _ S'), array_split_concat by exact HP; reflexivity).
  apply list_nth; [rewrite map_length; exact L|]. intros j Hj. rewrite L in Hj. destruct (nth_error es j) as [e|] eqn:Ej; [|apply nth_error_None in Ej; lia].
  rewrite (H j (nn xs e)) by (rewrite nth_error_map, Ej; reflexivity). rewrite nth_error_map, Ej. cbn [option_map]. unfold cells. rewrite nth_error_map.
  rewrite (nth_error_nth' xs e) by (apply N; eapply nth_error_In; exact Ej). reflexivity.
Qed.
Lemma ones_repeat ptrs : concat (ones ptrs) = repeat 1%Qc (length (concat ptrs)).
Proof. unfold ones. rewrite <- concat_map. generalize (concat ptrs) as l. intros l. induction l as [|k l IH]; [reflexivity|]. cbn. rewrite IH. reflexivity. Qed.
(** The discretization after prob_on_emulated_samples *)
Definition points_solved (D : disc cell) (q : list Qc) : Prop := exists em3 inp1 o1 Q, d_ein D = Some em3 /\ d_in D = Some inp1 /\ d_out D = Some o1 /\ dim inp1 = d /\ check_num P inp1 = Ok (length xs) /\ check_num P o1 = Ok (length xs) /\
  valid_set em3 (length es) /\ dim em3 = d /\ loc em3 Values = Some (blocks_of d (array_split es P)) /\ loc em3 Probabilities = Some (map vec_arr Q) /\ concat Q = q /\ same_lengths Q (array_split es P).
Lemma emulated_end inp o1 : holds P d xs None true inp -> holds P o (map g xs) None true o1 -> kd inp = None ->
  exists D, emulated_disc nn P true (assembled_disc inp o1 (Some cells)) = Ok D /\ emulated_values_of (Ok D) = Some es /\
    emulated_probs_of (Ok D) = Some (map Num (solution target probs (combine es (repeat 1%Qc (length es))))) /\ points_solved D (solution target probs (combine es (repeat 1%Qc (length es)))).
Proof.
  intros Hi Ho K. pose proof T as (HP & M & NX & NY & NE & Lp & NP & N). assert (Fi : fits xs (@None (list Qc))) by (intros z [=]). assert (Fo : fits (map g xs) (@None (list Qc))) by (intros z [=]).
  pose proof (holds_count _ _ _ _ _ _ Hi Fi) as Ci. pose proof (holds_count _ _ _ _ _ _ Ho Fo) as Co. rewrite map_length in Co. pose proof told_pr as TP.
  unfold emulated_disc, check_nums, assembled_disc. cbn [d_out d_in need bind]. rewrite Ci, Co. cbn [bind]. rewrite (proj1 (proj2 Ho) Values), (proj1 (proj2 Hi) Values). cbn [expected]. rewrite Nat.eqb_refl. cbn [bind d_prob need].
  rewrite (valid_count P _ _ (proj1 TP)). cbn [bind d_ein need]. rewrite em_count. cbn [bind io_loc ii_loc].
  unfold set_ii_ptr at 1. cbn [d_ein need bind]. rewrite em_localized. cbn [bind d_in need]. unfold loc_values at 1. cbn [em_local loc em values_set glob bind].
  unfold query_blocks. rewrite K. unfold set_kdtree. rewrite (proj1 (proj2 Hi) Values). cbn [expected bind kd need].
  assert (F : forallb (fun b => if shape_eq_dec (tail_shape b) (tail_shape (mk_arr xs [d])) then true else false) (split_arr P (mk_arr es [d])) = true).
  { apply forallb_forall. intros b Hb. apply split_arr_tail in Hb. rewrite Hb. cbn [tail_shape]. destruct (shape_eq_dec [d] [d]); [reflexivity|contradiction]. }
  rewrite F. cbn [bind fst snd rows with_ii with_in with_ein d_ein need em_local loc em values_set glob io ii_loc subscript].
  rewrite split_rows, map_map. cbn [rows]. 
change (fun x : list cell => map (nn xs) x) with (map (nn xs)). destruct follow_cells as (ptrs & EF & SP & CP). rewrite EF. cbn [bind].
  unfold out_probs. destruct (Nat.eqb_spec (length ys) 0) as [Z|_]; [destruct ys; [contradiction|discriminate]|]. rewrite (proj1 (proj2 TP)). cbn [subscript bind vec_arr rows]. rewrite scalars_nums. cbn [bind].
  unfold emulated_probs. rewrite EF. cbn [bind]. rewrite map_map. cbn [rows].
  assert (SZ : map (length (A := nat)) ptrs = map (fun b : list cell => length b) (array_split es P)) by (clear -SP; unfold same_lengths in SP; induction SP as [|x y X Y H S IH]; [reflexivity|]; cbn [map]; rewrite H, IH; reflexivity).
  rewrite SZ. destruct (list_eq_dec Nat.eq_dec _ _) as [_|NN]; [|contradiction]. unfold prob_on_emulated_samples. rewrite EF. cbn [bind]. 
  destruct (prob_concat probs ptrs (ones ptrs) (ones_lengths ptrs)) as (Q & EQ & SQ & CQ). rewrite <- emulated_is_prob in EQ. injection EQ as EQ. rewrite EQ.
  assert (NQ : Q <> []).
  { intros ->. assert (A : length (@nil (list Qc)) = length ptrs) by (clear -SQ; unfold same_lengths in SQ; induction SQ; cbn; congruence).
    assert (B : length ptrs = length (array_split es P)) by (clear -SP; unfold same_lengths in SP; induction SP; cbn; congruence). rewrite array_split_length in B by exact HP. cbn in A. lia. }
  set (em2 := set_loc Probabilities (Some (map vec_arr Q)) _).
  destruct (gather_attrs_total all_attrs em2) as [em3 E3].
  { intros a bs _ La. unfold em2 in La. cbn [set_loc loc em_local] in La. unfold upd in La. destruct (attr_eq_dec a Probabilities).
    - injection La as <-. eexists. apply gather_vecs. exact NQ.
    - destruct a; try discriminate. injection La as <-. eexists. apply gather_split. exact HP. }
  fold (local_to_global em2) in E3. rewrite E3. cbn [bind]. eexists. split; [reflexivity|]. destruct (local_to_global_spec _ _ E3) as (I1 & I2 & _ & _ & _ & _ & I).
  cbn [emulated_values_of emulated_probs_of with_ein d_ein].
  assert (CS : concat Q = solution target probs (combine es (repeat 1%Qc (length es)))).
  { rewrite CQ, ones_repeat, CP, map_length. apply solution_share; [symmetry; apply repeat_length|exact NP|]. intros z Hz. apply repeat_spec in Hz. subst z. discriminate. }
  assert (GV : glob em3 Values = Some (mk_arr es [d])).
  { specialize (I Values). unfold em2 in I. cbn [set_loc loc em_local] in I. rewrite upd_other in I by discriminate. cbn [em values_set glob] in I. destruct I as (x & Gx & ->). rewrite gather_split in Gx by exact HP. injection Gx as <-. reflexivity. }
  assert (GP : glob em3 Probabilities = Some (vec_arr (concat Q))).
  { specialize (I Probabilities). unfold em2 in I. cbn [set_loc loc] in I. rewrite upd_same in I. destruct I as (x & Gx & ->). rewrite gather_vecs in Gx by exact NQ. injection Gx as <-. reflexivity. }
  assert (SE : same_lengths Q (array_split es P)).
  { clear -SQ SP. unfold same_lengths in *. revert SP. generalize (array_split es P). induction SQ as [|x y X Y H S IH]; intros L SP; inversion SP; subst; constructor; [congruence|apply IH; assumption]. }
  split; [rewrite GV; reflexivity|]. split; [rewrite GP; cbn [option_map rows vec_arr]; rewrite CS; reflexivity|].
  eexists. eexists. exists o1, Q. do 3 (split; [reflexivity|]). split; [exact (proj1 Hi)|]. split; [|split; [exact Co|]].
  { apply valid_count. split.
    - intros a x. cbn [glob]. unfold upd. destruct (attr_eq_dec a KdtreeValues); [intros [= <-]; reflexivity|]. apply (proj1 (Workflow_Proofs.holds_valid _ _ _ _ _ _ Hi Fi)).
    - exists (mk_arr xs [d]). cbn [glob dim]. rewrite upd_other by discriminate. rewrite (proj1 (proj2 Hi) Values), (proj1 Hi). split; reflexivity. }
  split.
  { split.
    - intros a x Gx. destruct (attr_eq_dec a Values) as [->|Na]; [rewrite GV in Gx; injection Gx as <-; reflexivity|]. destruct (attr_eq_dec a Probabilities) as [->|Nb].
      + rewrite GP in Gx. injection Gx as <-. cbn [rows vec_arr]. rewrite map_length, (same_lengths_concat _ _ SE), array_split_concat by exact HP. reflexivity.
      + specialize (I a). unfold em2 in I. cbn [set_loc loc em_local] in I. rewrite upd_other in I by exact Nb. destruct a; try contradiction; cbn [em values_set glob] in I; rewrite I in Gx; discriminate.
    - exists (mk_arr es [d]). rewrite GV, I1. split; reflexivity. }
  split; [exact I1|]. rewrite I2. unfold em2. cbn [set_loc loc em_local]. rewrite upd_same, upd_other by discriminate. cbn [em values_set glob]. split; [rewrite split_rows; reflexivity|]. split; [reflexivity|]. split; [exact CS|exact SE].
Qed.
Lemma stored_eq setter inp o1 : holds P d xs None true inp -> holds P o (map g xs) None true o1 ->
  (do d1 <- define_output nn P setter pr0 (base inp o1) ; done (set_emulated_input em d1)) = Ok (assembled_disc inp o1 None).
Proof.
  intros Hi Ho. assert (LB : loc o1 Values = Some (blocks_of o (array_split (map g xs) P))) by (rewrite (proj2 (proj2 Ho)); reflexivity).
  pose proof (probability_gives o dom' ys probs (proj1 (proj2 (proj2 (proj2 (proj2 (proj2 T))))))) as GP. fold pr0 in GP.
  rewrite (define_blocks nn P setter o ys probs _ _ inp o1 GP LB (proj1 Ho)). cbn [bind]. unfold set_emulated_input, same_dim, ready. cbn [d_in]. rewrite (proj1 Hi). cbn [em values_set dim]. rewrite Nat.eqb_refl. cbn [done snd fst with_ein d_in d_out d_prob].
  unfold assembled_disc, io_blocks, cells. rewrite <- array_split_map, map_map. reflexivity.
Qed.
Lemma new_pointers inp o1 gl : holds P o (map g xs) None true o1 ->
  set_io_ptr nn P true (assembled_disc inp o1 gl) = Ok (assembled_disc inp o1 (Some cells)).
Proof.
  intros Ho. assert (LB : loc o1 Values = Some (blocks_of o (array_split (map g xs) P))) by (rewrite (proj2 (proj2 Ho)); reflexivity).
  destruct told_pr as (VS & _ & K). unfold set_io_ptr, assembled_disc. cbn [d_out need bind]. unfold localized. rewrite LB. cbn [bind d_prob need]. unfold loc_values. rewrite LB. cbn [bind].
  unfold query_blocks. rewrite K, (valid_count P _ _ VS). cbn [bind need]. rewrite K. cbn [need bind].
  assert (F : forallb (fun b => if shape_eq_dec (tail_shape b) (tail_shape (mk_arr ys [o])) then true else false) (blocks_of o (array_split (map g xs) P)) = true).
  { apply forallb_forall. intros b Hb. apply in_map_iff in Hb. destruct Hb as (r & <- & _). cbn [tail_shape]. destruct (shape_eq_dec [o] [o]); [reflexivity|contradiction]. }
  rewrite F. cbn [bind fst snd rows]. unfold blocks_of. rewrite map_map. cbn [rows].
  assert (X : map (fun x => map (nn ys) x) (array_split (map g xs) P) = io_blocks) by (unfold io_blocks, cells; rewrite <- array_split_map, map_map; reflexivity).
  change (fun x : list cell => map (nn ys) x) with (map (nn ys)) in *. rewrite X, concat_io. reflexivity.
Qed.
Lemma constructed_pointers inp o1 : holds P o (map g xs) None true o1 ->
  set_io_ptr nn P true (mk_disc (Some inp) (Some o1) (Some pr0) (Some em) None None None None None None None None) = Ok (assembled_disc inp o1 (Some cells)).
Proof.
  intros Ho. assert (LB : loc o1 Values = Some (blocks_of o (array_split (map g xs) P))) by (rewrite (proj2 (proj2 Ho)); reflexivity).
  unfold set_io_ptr. cbn [d_out need bind]. unfold localized. rewrite LB. cbn [bind d_prob need]. unfold loc_values. rewrite LB. cbn [bind].
  unfold query_blocks. replace (kd pr0) with (@None (arr cell)) by reflexivity. unfold set_kdtree. replace (glob pr0 Values) with (Some (mk_arr ys [o])) by reflexivity. cbn [bind kd need].
  assert (F : forallb (fun b => if shape_eq_dec (tail_shape b) (tail_shape (mk_arr ys [o])) then true else false) (blocks_of o (array_split (map g xs) P)) = true).
  { apply forallb_forall. intros b Hb. apply in_map_iff in Hb. destruct Hb as (r & <- & _). cbn [tail_shape]. destruct (shape_eq_dec [o] [o]); [reflexivity|contradiction]. }
  rewrite F. cbn [bind fst snd rows]. unfold blocks_of. rewrite map_map. cbn [rows].
  assert (X : map (fun x => map (nn ys) x) (array_split (map g xs) P) = io_blocks) by (unfold io_blocks, cells; rewrite <- array_split_map, map_map; reflexivity).
  change (fun x : list cell => map (nn ys) x) with (map (nn ys)) in *. rewrite X, concat_io. reflexivity.
Qed.
Lemma pr0_valid : valid_set pr0 (length ys).
Proof.
  split; [|exists (mk_arr ys [o]); split; reflexivity]. intros a x. destruct a; try discriminate; intros [= <-]; cbn [rows vec_arr]; [reflexivity|]. rewrite map_length. apply T.
Qed.
Lemma constructed_run inp o1 : holds P d xs None true inp -> holds P o (map g xs) None true o1 ->
  (do e <- new_disc P (Some inp) (Some o1) (Some pr0) (Some em) None None ; emulated_disc nn P true e) = emulated_disc nn P true (assembled_disc inp o1 (Some cells)).
Proof.
  intros Hi Ho. assert (Fi : fits xs (@None (list Qc))) by (intros z [=]). assert (Fo : fits (map g xs) (@None (list Qc))) by (intros z [=]).
  pose proof (holds_count _ _ _ _ _ _ Hi Fi) as Ci. pose proof (holds_count _ _ _ _ _ _ Ho Fo) as Co. rewrite map_length in Co.
  unfold new_disc. assert (CK : forall x y z t u v a b c e, check_nums P (mk_disc (Some inp) (Some o1) x y z t u v a b c e) = Ok (length xs)).
  { intros. unfold check_nums. cbn [d_out d_in need bind]. rewrite Ci, Co. cbn [bind]. rewrite (proj1 (proj2 Ho) Values), (proj1 (proj2 Hi) Values). cbn [expected]. rewrite Nat.eqb_refl. reflexivity. }
  rewrite CK. cbn [bind]. unfold emulated_disc. unfold assembled_disc at 1. rewrite !CK. cbn [bind d_prob need assembled_disc].
  rewrite (valid_count P _ _ (proj1 told_pr)). replace (check_num P pr0) with (Ok (length ys)) by (symmetry; apply valid_count; exact pr0_valid).
  cbn [bind d_ein need]. rewrite em_count. cbn [bind io_loc]. rewrite (constructed_pointers inp o1 Ho). cbn [bind]. unfold out_probs. replace (glob pr0 Probabilities) with (glob pr Probabilities) by reflexivity.
  replace (d_ein (assembled_disc inp o1 (Some cells))) with (Some em) by reflexivity. cbn [need bind]. rewrite em_count. reflexivity.
Qed.
Lemma emulated_run k : repaired k -> let r := solve_emulated nn P model k (values_set d dom xs) pr0 em in
  emulated_values_of r = Some es /\ emulated_probs_of r = Some (map Num (solution target probs (combine es (repeat 1%Qc (length es))))) /\
  exists D, r = Ok D /\ points_solved D (solution target probs (combine es (repeat 1%Qc (length es)))).
Proof.
  intros R. cbv zeta. destruct evaluated_sets as (inp & o1 & E & Hi & Ho & K). destruct (emulated_end inp o1 Hi Ho K) as (D & ED & V & Q & PS). unfold solve_emulated. rewrite E. cbn [bind]. destruct k as [|setter rp].
  - cbn [base d_in d_out]. rewrite (constructed_run inp o1 Hi Ho), ED. split; [exact V|]; split; [exact Q|]; exists D; split; [reflexivity|exact PS].
  - assert (S := stored_eq setter inp o1 Hi Ho). destruct (define_output nn P setter pr0 (base inp o1)) as [d1|]; [|discriminate]. cbn [bind] in *. rewrite S. cbn [bind]. destruct rp; [contradiction| |].
    + rewrite (new_pointers inp o1 None Ho). cbn [bind]. rewrite ED. split; [exact V|]; split; [exact Q|]; exists D; split; [reflexivity|exact PS].
    + cbn [bind]. replace (globalize_ptrs (assembled_disc inp o1 None)) with (assembled_disc inp o1 (Some cells)); [rewrite ED; split; [exact V|]; split; [exact Q|]; exists D; split; [reflexivity|exact PS]|].
      unfold globalize_ptrs, assembled_disc, fill. cbn [with_ii with_oo with_io io ii oo io_loc ii_loc oo_loc d_in d_out d_prob d_ein d_eout d_obs]. rewrite concat_io. reflexivity.
Qed.
Lemma unrepaired_run setter : solve_emulated nn P model (Stored setter Nothing) (values_set d dom xs) pr0 em = Raise PyTypeError.
Proof.
  destruct evaluated_sets as (inp & o1 & E & Hi & Ho & K). unfold solve_emulated. rewrite E. cbn [bind]. assert (S := stored_eq setter inp o1 Hi Ho). destruct (define_output nn P setter pr0 (base inp o1)) as [d1|]; [|discriminate]. cbn [bind] in *. rewrite S. cbn [bind].
  assert (Fi : fits xs (@None (list Qc))) by (intros z [=]). assert (Fo : fits (map g xs) (@None (list Qc))) by (intros z [=]).
  pose proof (holds_count _ _ _ _ _ _ Hi Fi) as Ci. pose proof (holds_count _ _ _ _ _ _ Ho Fo) as Co. rewrite map_length in Co. pose proof told_pr as TP.
  unfold emulated_disc, check_nums, assembled_disc. cbn [d_out d_in need bind]. rewrite Ci, Co. cbn [bind]. rewrite (proj1 (proj2 Ho) Values), (proj1 (proj2 Hi) Values). cbn [expected]. rewrite Nat.eqb_refl. cbn [bind d_prob need].
  rewrite (valid_count P _ _ (proj1 TP)). cbn [bind d_ein need]. rewrite em_count. cbn [bind io_loc ii_loc].
  unfold set_ii_ptr at 1. cbn [d_ein need bind]. rewrite em_localized. cbn [bind d_in need]. unfold loc_values at 1. cbn [em_local loc em values_set glob bind].
  unfold query_blocks. rewrite K. unfold set_kdtree. rewrite (proj1 (proj2 Hi) Values). cbn [expected bind kd need].
  assert (F : forallb (fun b => if shape_eq_dec (tail_shape b) (tail_shape (mk_arr xs [d])) then true else false) (split_arr P (mk_arr es [d])) = true).
  { apply forallb_forall. intros b Hb. apply split_arr_tail in Hb. rewrite Hb. cbn [tail_shape]. destruct (shape_eq_dec [d] [d]); [reflexivity|contradiction]. }
  rewrite F. reflexivity.
Qed.

(** ** The other calculations *)
Lemma surrogate_run P' model' before setter dom'' : 0 < P' -> row_model d o (nearest_output nn xs g) model' ->
  global_probabilities (solve nn P' model' MonteCarlo before setter (values_set d dom'' es) (probability_set o dom' ys probs)) = Some (map Num (solution target probs (combine es (repeat 1%Qc (length es))))).
Proof.
  intros HP' M'. destruct T as (HP & M & NX & NY & NE & Lp & NP & N).
  destruct (solve_lemma nn P' d o (nearest_output nn xs g) model' MonteCarlo before setter dom'' dom' es ys probs HP' M' NE NY Lp NP) as (-> & _); [discriminate|reflexivity|].
  do 2 f_equal. cbn [volume_list]. rewrite !solution_shares. apply even_shares; [|reflexivity]. apply qc_div_pos; [reflexivity|]. apply qn_pos. destruct es; [contradiction|cbn; lia].
Qed.
Let fractions := map (fraction_in nn xs es) (seq 0 (length xs)).
Lemma n_es : (0 < qn (length es))%Qc.
Proof. apply qn_pos. destruct T as (_ & _ & _ & _ & NE & _). destruct es; [contradiction|cbn; lia]. Qed.
Lemma parts_even (f : cell -> nat) (l : list cell) a j : parts_of (map f l) (repeat a (length l)) j = (a * qn (length (filter (fun e => (f e =? j)%nat) l)))%Qc.
Proof.
  unfold parts_of, total_in. induction l as [|e l IH]; [cbn; change (qn 0) with 0%Qc; ring|]. cbn [map length repeat combine filter fst]. destruct (f e =? j); cbn [map snd qsum length]; rewrite IH; [rewrite qn_S; ring|reflexivity].
Qed.
Lemma parts_weights (f : cell -> nat) (l : list cell) q j : length q = length l -> parts_of (map f l) q j = qsum (map snd (filter (fun eq => (f (fst eq) =? j)%nat) (combine l q))).
Proof.
  unfold parts_of, total_in. revert q. induction l as [|e l IH]; intros [|a q] L; try discriminate; [reflexivity|]. cbn [map combine filter fst]. injection L as L. destruct (f e =? j); cbn [map snd qsum]; rewrite IH by exact L; reflexivity.
Qed.
Lemma volumes_run P' setter dom'' : 0 < P' -> exists q, 
  global_probabilities (solve nn P' model (Given fractions) true setter (values_set d dom'' xs) (probability_set o dom' ys probs)) = Some (map Num q) /\ length q = length xs /\
  forall j a, nth_error q j = Some a -> a = probability_in nn xs es (solution target probs (combine es (repeat 1%Qc (length es)))) j.
Proof.
  intros HP'. destruct T as (HP & M & NX & NY & NE & Lp & NP & N). assert (LF : length fractions = length xs) by (unfold fractions; rewrite map_length, seq_length; reflexivity).
  assert (NF : nonneg fractions).
  { intros y Hy. apply in_map_iff in Hy. destruct Hy as (j & <- & _). apply qc_div_nonneg; [apply qn_nonneg|exact n_es]. }
  destruct (solve_lemma nn P' d o g model (Given fractions) true setter dom'' dom' xs ys probs HP' M NX NY Lp NP) as (-> & _); [intros v [= <-]; split; assumption|discriminate|].
  eexists. split; [reflexivity|]. cbn [volume_list]. rewrite !solution_shares. split; [unfold shares; rewrite map_length, combine_length, map_length; lia|]. intros j a Ha.
  set (u := repeat (1 / qn (length es))%Qc (length es)).
  assert (E : shares (map target es) (repeat 1%Qc (length es)) probs = shares (map target es) u probs) by (apply even_shares; [reflexivity|apply qc_div_pos; [reflexivity|exact n_es]]).
  rewrite E. assert (LS : length (shares (map target es) u probs) = length es) by (unfold shares, u; rewrite map_length, combine_length, map_length, repeat_length; lia).
  unfold probability_in. rewrite <- (parts_weights (nn xs) es _ j LS). symmetry. refine (shares_parts _ fractions probs (map (nn xs) es) _ u j a _ _ _ _ _ Ha).
  - rewrite map_length. symmetry. exact LF.
  - unfold u. rewrite map_length, repeat_length. reflexivity.
  - unfold u. rewrite map_length, repeat_length. reflexivity.
  - intros k i Hk. rewrite nth_error_map in Hk. destruct (nth_error es k) as [e|] eqn:Ek; [|discriminate]. injection Hk as <-. assert (Le : nn xs e < length xs) by (apply N; eapply nth_error_In; exact Ek).
    rewrite map_length. split; [|exact Le]. rewrite !nth_error_map, Ek. rewrite (nth_error_nth' xs e Le). reflexivity.
  - intros i Li. rewrite map_length in Li. unfold u. rewrite parts_even. unfold fractions. rewrite nth_error_map. rewrite (nth_error_nth' (seq 0 (length xs)) 0) by (rewrite seq_length; exact Li). rewrite seq_nth by exact Li. cbn [option_map plus]. f_equal. unfold fraction_in, Qcdiv. ring.
Qed.
End Run.
