From Coq Require Import List Arith Bool QArith Qcanon Lia Permutation.
From Verif Require Import Err Num NumPy Lists SampleSet_Model SampleSet_Spec SampleSet_Proofs Prob_Model Prob_Spec Prob_Proofs
  Disc_Model Disc_Spec Disc_Proofs Workflow_Model Workflow_Spec.
Import ListNotations.
Local Open Scope nat_scope.
Local Open Scope err_scope.

(** ** Blocks *)
Lemma split_rows {A} P (l : list A) t : split_arr P (mk_arr l t) = map (fun b => mk_arr b t) (array_split l P).
Proof. reflexivity. Qed.
Lemma model_blocks d o g model P xs : row_model d o g model -> map model (split_arr P (mk_arr xs [d])) = split_arr P (mk_arr (map g xs) [o]).
Proof. intros M. rewrite !split_rows, array_split_map, !map_map. apply map_ext. intros b. apply M. Qed.
Lemma split_vec P l : scalar_blocks (split_arr P (vec_arr l)) = Ok (array_split l P).
Proof.
  unfold vec_arr. rewrite split_rows, array_split_map, map_map. induction (array_split l P) as [|b bs IH]; [reflexivity|]. cbn [map scalar_blocks rows].
  assert (E : forall b, scalars (map Num b) = Ok b) by (intros c; induction c as [|q c IHc]; [reflexivity|]; cbn [map scalars scalar bind]; rewrite IHc; reflexivity).
  rewrite E. cbn [bind]. rewrite IH. reflexivity.
Qed.

(** ** States of a sample set with values and perhaps volumes *)
Definition expected (d : nat) (xs : list cell) (ov : option (list Qc)) (a : attr) : option (arr cell) :=
  match a with Values => Some (mk_arr xs [d]) | Volumes => option_map vec_arr ov | _ => None end.
Definition holds (P d : nat) (xs : list cell) (ov : option (list Qc)) (localised : bool) (s : sset cell) : Prop :=
  dim s = d /\ (forall a, glob s a = expected d xs ov a) /\
  forall a, loc s a = if localised then option_map (split_arr P) (expected d xs ov a) else None.
Definition fits {A} (xs : list cell) (ov : option (list A)) : Prop := forall v, ov = Some v -> length v = length xs.
Lemma holds_valid P d xs ov l s : holds P d xs ov l s -> fits xs ov -> valid_set s (length xs).
Proof.
  intros (D & G & L) F. split.
  - intros a x E. rewrite G in E. destruct a; try discriminate; cbn [expected] in E; [injection E as <-; reflexivity|].
    destruct ov as [v|]; [|discriminate]. injection E as <-. cbn [vec_arr rows]. rewrite map_length. apply F. reflexivity.
  - exists (mk_arr xs [d]). rewrite G, D. split; reflexivity.
Qed.
Lemma holds_count P d xs ov l s : holds P d xs ov l s -> fits xs ov -> check_num P s = Ok (length xs).
Proof. intros H F. apply valid_count. eapply holds_valid; eassumption. Qed.
Lemma holds_g2l P d xs ov l s : holds P d xs ov l s -> fits xs ov -> exists s1, global_to_local P s = Ok s1 /\ holds P d xs ov true s1.
Proof.
  intros H F. unfold global_to_local. rewrite (holds_count _ _ _ _ _ _ H F). cbn [bind]. eexists. split; [reflexivity|]. destruct H as (D & G & L).
  split; [exact D|]. split; [exact G|]. intros a. cbn [loc]. rewrite G, L. destruct (expected d xs ov a); [reflexivity|]. destruct l; reflexivity.
Qed.
Lemma holds_l2g P d xs ov s : 0 < P -> holds P d xs ov true s -> exists s1, local_to_global s = Ok s1 /\ holds P d xs ov true s1.
Proof.
  intros HP (D & G & L). destruct (gather_attrs_total all_attrs s) as [s1 E].
  - intros a bs _ La. rewrite L in La. destruct (expected d xs ov a) as [x|]; [|discriminate]. injection La as <-. exists x. apply gather_split. exact HP.
  - exists s1. split; [exact E|]. destruct (local_to_global_spec _ _ E) as (D1 & D2 & _ & _ & _ & _ & I). split; [congruence|]. split.
    + intros a. specialize (I a). rewrite L in I. destruct (expected d xs ov a) as [x|] eqn:X; cbn [option_map] in I.
      * destruct I as (g & Hg & ->). rewrite gather_split in Hg by exact HP. injection Hg as <-. reflexivity.
      * rewrite I, G, X. reflexivity.
    + intros a. rewrite D2. apply L.
Qed.
Lemma holds_volumes P d xs ov l s v : holds P d xs ov l s -> l = false -> holds P d xs (Some v) false (set_glob Volumes (Some (vec_arr v)) s).
Proof.
  intros (D & G & L) ->. split; [exact D|]. split; [|exact L]. intros a. cbn [set_glob glob]. unfold upd. destruct (attr_eq_dec a Volumes) as [->|N]; [reflexivity|].
  rewrite G. destruct a; try reflexivity. contradiction.
Qed.
(** Monte Carlo volumes at any time *)
Lemma holds_mc P d xs ov l s : xs <> [] -> holds P d xs ov l s -> fits xs ov -> exists s1, estimate_mc P true s = Ok s1 /\ holds P d xs (Some (volume_list MonteCarlo (length xs))) true s1.
Proof.
  intros NE H F. unfold estimate_mc. rewrite (holds_count _ _ _ _ _ _ H F). cbn [bind]. destruct (Nat.eqb_spec (length xs) 0) as [E|_]; [destruct xs; [contradiction|discriminate]|].
  unfold global_to_local. set (s0 := set_glob Volumes _ s). set (v := repeat (1 / qn (length xs))%Qc (length xs)) in *.
  assert (V : valid_set s0 (length xs)).
  { destruct H as (D & G & L). split.
    - intros a x E. cbn [s0 set_glob glob] in E. unfold upd in E. destruct (attr_eq_dec a Volumes) as [->|N].
      + injection E as <-. unfold vec_arr. cbn [rows]. rewrite map_length. apply repeat_length.
      + rewrite G in E. destruct a; try discriminate; [injection E as <-; reflexivity|contradiction].
    - exists (mk_arr xs [d]). split; [cbn [s0 set_glob glob]; rewrite upd_other by discriminate; apply G|cbn [s0 set_glob dim]; rewrite D; reflexivity]. }
  rewrite (valid_count _ _ _ V). cbn [bind]. eexists. split; [reflexivity|]. destruct H as (D & G & L). split; [exact D|].
  assert (G' : forall a, glob s0 a = expected d xs (Some v) a).
  { intros a. cbn [s0 set_glob glob]. unfold upd. destruct (attr_eq_dec a Volumes) as [->|N]; [reflexivity|]. rewrite G. destruct a; try reflexivity. contradiction. }
  split; [exact G'|]. intros a. cbn [loc volume_list]. rewrite G'. fold v. destruct (expected d xs (Some v) a) eqn:X; [reflexivity|].
  cbn [s0 set_glob loc]. rewrite L. destruct l; [|reflexivity]. destruct a; try reflexivity; discriminate.
Qed.
Lemma holds_define P w d xs s : xs <> [] -> (forall v, w = Given v -> length v = length xs) -> holds P d xs None false s ->
  exists l s1, define_volumes P w s = Ok s1 /\ holds P d xs (Some (volume_list w (length xs))) l s1.
Proof.
  intros NE F H. destruct w as [|v]; cbn [define_volumes].
  - exists true. apply (holds_mc P d xs None false s NE H). intros ? [=].
  - eexists false, _. split; [reflexivity|]. eapply holds_volumes; [exact H|reflexivity].
Qed.
Lemma volume_list_length w n : (forall v, w = Given v -> length v = n) -> length (volume_list w n) = n.
Proof. destruct w as [|v]; intros F; [apply repeat_length|apply F; reflexivity]. Qed.
Lemma values_holds P d dom xs : holds P d xs None false (values_set d dom xs).
Proof. split; [reflexivity|]. split; [|reflexivity]. intros a. destruct a; reflexivity. Qed.

(** ** Evaluation of the model *)
Lemma localized_holds P d xs ov l s : holds P d xs ov l s -> fits xs ov -> exists s1, localized P s = Ok s1 /\ holds P d xs ov true s1.
Proof.
  intros H F. unfold localized. destruct (loc s Values) as [bs|] eqn:E; [|eapply holds_g2l; eassumption].
  exists s. split; [reflexivity|]. destruct H as (D & G & L). destruct l; [exact (conj D (conj G L))|]. rewrite L in E. discriminate.
Qed.
Lemma split_nonempty {A} P (x : arr A) : 0 < P -> exists b bs, split_arr P x = b :: bs.
Proof. intros HP. pose proof (split_arr_length P x HP) as L. destruct (split_arr P x) as [|b bs]; [cbn in L; lia|]. eauto. Qed.
Lemma two_d_same o bs : (forall b, In b bs -> tail_shape b = [o]) -> map two_d bs = bs.
Proof. intros H. rewrite <- (map_id bs) at 2. apply map_ext_in. intros b Hb. unfold two_d. rewrite (H b Hb). reflexivity. Qed.
Lemma qoi_global P d o g model xs ov l s : 0 < P -> row_model d o g model -> holds P d xs ov l s -> fits xs ov ->
  exists s1 o1, qoi model P true s = Ok (mk_disc (Some s1) (Some o1) None None None None None None None None None None) /\
    holds P d xs ov true s1 /\ holds P o (map g xs) None true o1.
Proof.
  intros HP M H F. unfold qoi. destruct (localized_holds _ _ _ _ _ _ H F) as (s1 & -> & H1). cbn [bind].
  unfold loc_values. rewrite (proj2 (proj2 H1) Values). cbn [expected option_map bind]. rewrite (model_blocks d o g model P xs M).
  destruct (split_nonempty P (mk_arr (map g xs) [o]) HP) as (b & bs & E). rewrite E. cbv zeta iota. rewrite <- E.
  assert (Tb : forall c, In c (split_arr P (mk_arr (map g xs) [o])) -> tail_shape c = [o]) by (intros c Hc; apply split_arr_tail in Hc; exact Hc).
  assert (Ob : output_dim b = o) by (unfold output_dim; rewrite (Tb b) by (rewrite E; left; reflexivity); reflexivity). rewrite Ob.
  assert (A1 : forallb (fun c => output_dim c =? o) (split_arr P (mk_arr (map g xs) [o])) = true).
  { apply forallb_forall. intros c Hc. unfold output_dim. rewrite (Tb c Hc). apply Nat.eqb_refl. }
  rewrite A1, (two_d_same o _ Tb). unfold set_values_local.
  assert (A2 : forallb (fun c => if shape_eq_dec (tail_shape c) [dim (new_sset (R := cell) o)] then true else false) (split_arr P (mk_arr (map g xs) [o])) = true).
  { apply forallb_forall. intros c Hc. rewrite (Tb c Hc). cbn [new_sset dim]. destruct (shape_eq_dec [o] [o]); [reflexivity|contradiction]. }
  rewrite A2. cbn [bind]. destruct (holds_l2g _ _ _ _ _ HP H1) as (s2 & -> & H2). cbn [bind].
  set (o0 := set_loc Values (Some (split_arr P (mk_arr (map g xs) [o]))) (new_sset o)).
  destruct (gather_attrs_total all_attrs o0) as [o1 E1].
  { intros a bs' _ La. cbn [o0 set_loc loc] in La. unfold upd in La. destruct (attr_eq_dec a Values); [|discriminate]. injection La as <-. eexists. apply gather_split. exact HP. }
  fold (local_to_global o0) in E1. rewrite E1. cbn [bind].
  assert (H3 : holds P o (map g xs) None true o1).
  { destruct (local_to_global_spec _ _ E1) as (D1 & D2 & _ & _ & _ & _ & I). split; [exact D1|]. split.
    - intros a. specialize (I a). cbn [o0 set_loc loc] in I. unfold upd in I. destruct (attr_eq_dec a Values) as [->|N].
      + destruct I as (y & Hy & ->). rewrite gather_split in Hy by exact HP. injection Hy as <-. reflexivity.
      + rewrite I. destruct a; try reflexivity. contradiction.
    - intros a. rewrite D2. cbn [o0 set_loc loc]. unfold upd. destruct (attr_eq_dec a Values) as [->|N]; [reflexivity|]. destruct a; try reflexivity. contradiction. }
  exists s2, o1. split; [|split; assumption]. unfold new_disc, check_nums. cbn [d_out d_in need bind].
  rewrite (holds_count _ _ _ _ _ _ H3) by (intros ? [=]). rewrite (holds_count _ _ _ _ _ _ H2 F). cbn [bind].
  rewrite (proj1 (proj2 H3)), (proj1 (proj2 H2)). cbn [expected]. rewrite map_length, Nat.eqb_refl. reflexivity.
Qed.

(** ** The output probability set *)
Definition with_tree (d : nat) (dom : option (list (Qc * Qc))) (ys : list cell) (probs : list Qc) : sset cell :=
  mk_sset d (upd (glob (probability_set d dom ys probs)) KdtreeValues (Some (mk_arr ys [d]))) (fun _ => None) None (Some (mk_arr ys [d])) dom None.
Lemma with_tree_count P d dom ys probs : length probs = length ys -> check_num P (with_tree d dom ys probs) = Ok (length ys).
Proof.
  intros L. apply valid_count. split.
  - intros a x E. cbn [with_tree glob] in E. unfold upd in E. destruct (attr_eq_dec a KdtreeValues); [injection E as <-; reflexivity|].
    destruct a; try discriminate; injection E as <-; cbn [rows vec_arr]; rewrite ?map_length; auto.
  - exists (mk_arr ys [d]). split; reflexivity.
Qed.
Lemma blocks_ptrs (nn : list cell -> cell -> nat) P o (ys zs : list cell) : map (fun b => map (nn ys) (rows b)) (split_arr P (mk_arr zs [o])) = array_split (map (nn ys) zs) P.
Proof. rewrite split_rows, map_map. cbn [rows]. symmetry. apply array_split_map. Qed.
Lemma define_output_lemma nn P setter o dom ys probs zs inp o1 : loc o1 Values = Some (split_arr P (mk_arr zs [o])) -> dim o1 = o ->
  define_output nn P setter (probability_set o dom ys probs) (mk_disc (Some inp) (Some o1) None None None None None None None None None None) =
  Ok (mk_disc (Some inp) (Some o1) (Some (with_tree o dom ys probs)) None None None None None None (Some (array_split (map (nn ys) zs) P)) None None).
Proof.
  intros L D. assert (Q : set_io_ptr nn P false (with_prob (Some (probability_set o dom ys probs)) (mk_disc (Some inp) (Some o1) None None None None None None None None None None)) =
    Ok (mk_disc (Some inp) (Some o1) (Some (with_tree o dom ys probs)) None None None None None None (Some (array_split (map (nn ys) zs) P)) None None)).
  { unfold set_io_ptr. cbn [with_prob d_out need bind]. unfold localized. rewrite L. cbn [bind d_prob with_prob need]. unfold loc_values. rewrite L. cbn [bind].
    unfold query_blocks. cbn [probability_set kd set_kdtree glob bind need].
    assert (F : forallb (fun b => if shape_eq_dec (tail_shape b) (tail_shape (mk_arr ys [o])) then true else false) (split_arr P (mk_arr zs [o])) = true).
    { apply forallb_forall. intros b Hb. apply split_arr_tail in Hb. rewrite Hb. cbn [tail_shape]. destruct (shape_eq_dec [o] [o]); [reflexivity|contradiction]. }
    rewrite F. cbn [bind fst snd]. cbn [rows]. rewrite blocks_ptrs. reflexivity. }
  unfold define_output. destruct setter; [|exact Q]. unfold set_probability, same_dim. cbn [d_out d_eout probability_set dim]. rewrite D, Nat.eqb_refl. cbn [andb].
  rewrite L. cbn [glob]. unfold done. fold (probability_set o dom ys probs). rewrite Q. reflexivity.
Qed.

(** ** prob *)
Lemma scalars_nums l : scalars (map Num l) = Ok l.
Proof. induction l as [|q l IH]; [reflexivity|]. cbn [map scalars scalar bind]. rewrite IH. reflexivity. Qed.
Lemma split_same_lengths {A B} (a : list A) (b : list B) P : 0 < P -> length a = length b -> same_lengths (array_split a P) (array_split b P).
Proof.
  intros HP L. pose proof (array_split_lengths a P HP) as La. pose proof (array_split_lengths b P HP) as Lb. rewrite L, <- Lb in La.
  unfold same_lengths. clear -La. revert La. generalize (array_split a P) (array_split b P). induction l as [|x l IH]; intros [|y m] E; try discriminate; [constructor|].
  cbn [map] in E. injection E as E1 E2. constructor; [exact E1|apply IH; exact E2].
Qed.
Lemma prob_state nn P o dom ys probs zs inp o1 d xs v n : 0 < P -> length probs = length ys -> ys <> [] ->
  holds P o zs None true o1 -> holds P d xs (Some v) true inp -> length xs = n -> length zs = n -> length v = n ->
  exists Q, prob_disc nn P true (mk_disc (Some inp) (Some o1) (Some (with_tree o dom ys probs)) None None None None None None (Some (array_split (map (nn ys) zs) P)) None None) =
    Ok (mk_disc (Some (set_loc Probabilities (Some (map vec_arr Q)) (set_glob Probabilities (Some (vec_arr (concat Q))) inp))) (Some o1) (Some (with_tree o dom ys probs)) None None None None None None (Some (array_split (map (nn ys) zs) P)) None None) /\
    same_lengths Q (array_split zs P) /\ concat Q = map (share probs (combine (map (nn ys) zs) v)) (combine (map (nn ys) zs) v).
Proof.
  intros HP Lp NE Ho Hi Lx Lz Lv. destruct (prob_concat probs (array_split (map (nn ys) zs) P) (array_split v P)) as (Q & E & SL & CQ).
  { apply split_same_lengths; [exact HP|]. rewrite map_length. congruence. }
  rewrite !array_split_concat in CQ by exact HP.
  unfold prob_disc, check_nums. cbn [d_out d_in need bind d_prob io_loc]. rewrite (holds_count _ _ _ _ _ _ Ho) by (intros ? [=]).
  rewrite (holds_count _ _ _ _ _ _ Hi) by (intros w [= <-]; congruence). cbn [bind]. rewrite (proj1 (proj2 Ho)), (proj1 (proj2 Hi)). cbn [expected]. rewrite Lz, Lx, Nat.eqb_refl. cbn [bind].
  rewrite (with_tree_count P o dom ys probs Lp). cbn [bind d_in need]. unfold localized. rewrite (proj2 (proj2 Hi)). cbn [expected option_map bind subscript].
  unfold out_probs. destruct (Nat.eqb_spec (length ys) 0) as [Z|_]; [destruct ys; [contradiction|discriminate]|]. cbn [with_tree glob]. rewrite upd_other by discriminate. cbn [probability_set glob subscript bind].
  cbn [vec_arr rows]. rewrite scalars_nums. cbn [bind]. rewrite (proj2 (proj2 Hi)). cbn [expected option_map subscript bind]. rewrite split_vec.
  assert (E' : (if existsb (qltb 0) probs then Ok (array_split v P) else Ok []) = Ok (array_split v P) \/ existsb (qltb 0) probs = false) by (destruct (existsb (qltb 0) probs); auto).
  assert (PE : prob probs (array_split (map (nn ys) zs) P) (if existsb (qltb 0) probs then array_split v P else []) = Ok Q).
  { destruct (existsb (qltb 0) probs) eqn:X; [exact E|]. unfold prob in *. rewrite X in *. exact E. }
  replace (if existsb (qltb 0) probs then Ok (array_split v P) else Ok []) with (Ok (if existsb (qltb 0) probs then array_split v P else [])) by (destruct (existsb (qltb 0) probs); reflexivity).
  cbn [bind]. rewrite PE. cbn [bind]. exists Q. split; [reflexivity|]. split; [|exact CQ].
  unfold same_lengths in *. rewrite array_split_map in SL. clear -SL. revert SL. generalize (array_split zs P). induction Q as [|q Q IH]; intros [|z zs'] SL; inversion SL; subst; constructor; [rewrite map_length in *; assumption|apply IH; assumption].
Qed.
Lemma prob_lemma nn P o dom ys probs zs inp o1 d xs v n : 0 < P -> length probs = length ys -> ys <> [] ->
  holds P o zs None true o1 -> holds P d xs (Some v) true inp -> length xs = n -> length zs = n -> length v = n ->
  exists inp2 Q, prob_disc nn P true (mk_disc (Some inp) (Some o1) (Some (with_tree o dom ys probs)) None None None None None None (Some (array_split (map (nn ys) zs) P)) None None) =
    Ok (mk_disc (Some inp2) (Some o1) (Some (with_tree o dom ys probs)) None None None None None None (Some (array_split (map (nn ys) zs) P)) None None) /\
    glob inp2 Probabilities = Some (vec_arr (concat Q)) /\ loc inp2 Probabilities = Some (map vec_arr Q) /\ glob inp2 Values = Some (mk_arr xs [d]) /\
    same_lengths Q (array_split zs P) /\ concat Q = map (share probs (combine (map (nn ys) zs) v)) (combine (map (nn ys) zs) v).
Proof.
  intros HP Lp NE Ho Hi Lx Lz Lv. destruct (prob_state nn P o dom ys probs zs inp o1 d xs v n HP Lp NE Ho Hi Lx Lz Lv) as (Q & E & SL & CQ).
  eexists _, Q. split; [exact E|]. cbn [set_loc set_glob glob loc].
  split; [apply upd_same|]. split; [apply upd_same|]. split; [rewrite upd_other by discriminate; apply (proj1 (proj2 Hi))|]. split; [exact SL|exact CQ].
Qed.

(** ** The closed form *)
Lemma member_total_zero s i e : (forall x, In x s -> (0 <= snd x)%Qc) -> In e s -> fst e = i -> (total_in s i <= 0)%Qc -> snd e = 0%Qc.
Proof.
  intros N. induction s as [|a s IH]; intros He Hi T; [destruct He|]. unfold total_in in T. cbn [filter] in T.
  assert (Tn : (0 <= total_in s i)%Qc) by (apply total_in_nonneg; intros; apply N; right; assumption).
  destruct (Nat.eqb_spec (fst a) i) as [Ea|Ea]; cbn [map] in T.
  - change (qsum (snd a :: map snd (filter (fun x => fst x =? i) s))) with (snd a + total_in s i)%Qc in T. pose proof (N a (or_introl eq_refl)) as Na.
    destruct He as [<-|He]; [apply Qcle_antisym; [qc_lra|exact Na]|]. apply IH; [intros; apply N; right; assumption|exact He|exact Hi|qc_lra].
  - destruct He as [<-|He]; [contradiction|]. apply IH; [intros; apply N; right; assumption|exact He|exact Hi|exact T].
Qed.
Lemma share_formula probs s e : (forall x, In x s -> (0 <= snd x)%Qc) -> nonneg probs -> In e s -> share probs s e = (snd e * (nth (fst e) probs 0 / total_in s (fst e)))%Qc.
Proof.
  intros N NP He. unfold share. destruct (nth_error probs (fst e)) as [p|] eqn:E.
  - rewrite (nth_error_nth _ _ _ E). destruct (qltb_spec 0%Qc p) as [Pp|Pp]; cbn [andb].
    + destruct (qltb_spec 0%Qc (total_in s (fst e))) as [T|T]; [unfold Qcdiv; ring|]. rewrite (member_total_zero s (fst e) e N He eq_refl); [ring|]. apply Qcnot_lt_le. exact T.
    + assert (p = 0%Qc) as -> by (apply Qcle_antisym; [apply Qcnot_lt_le; exact Pp|apply NP; eapply nth_error_In; exact E]). unfold Qcdiv. ring.
  - apply nth_error_None in E. rewrite nth_overflow by exact E. unfold Qcdiv. ring.
Qed.
Lemma solution_share c probs (xs : list cell) v : length xs = length v -> nonneg probs -> nonneg v ->
  map (share probs (combine (map c xs) v)) (combine (map c xs) v) = solution c probs (combine xs v).
Proof.
  intros L NP NV. assert (E : combine (map c xs) v = map (fun xv => (c (fst xv), snd xv)) (combine xs v)).
  { clear. revert v. induction xs as [|x xs IH]; intros [|w v]; try reflexivity. cbn [map combine fst snd]. f_equal. apply IH. }
  unfold solution. rewrite E. rewrite map_map. apply map_ext_in. intros xv Hx. rewrite share_formula; [reflexivity| |exact NP|apply (in_map (fun xv => (c (fst xv), snd xv))); exact Hx].
  intros y Hy. apply in_map_iff in Hy. destruct Hy as ((z, w) & <- & Hz). cbn [snd]. apply NV. eapply in_combine_r. exact Hz.
Qed.
Lemma solve_state nn P d o g model w before setter dom dom' xs ys probs : 0 < P -> row_model d o g model -> xs <> [] -> ys <> [] -> length probs = length ys -> nonneg probs ->
  (forall v, w = Given v -> length v = length xs /\ nonneg v) -> (before = false -> w = MonteCarlo) ->
  let q := solution (fun x => nn ys (g x)) probs (combine xs (volume_list w (length xs))) in
  exists inp o1 Q, solve nn P model w before setter (values_set d dom xs) (probability_set o dom' ys probs) =
    Ok (mk_disc (Some (set_loc Probabilities (Some (map vec_arr Q)) (set_glob Probabilities (Some (vec_arr q)) inp))) (Some o1) (Some (with_tree o dom' ys probs)) None None None None None None
          (Some (array_split (map (nn ys) (map g xs)) P)) None None) /\
  holds P d xs (Some (volume_list w (length xs))) true inp /\ holds P o (map g xs) None true o1 /\ concat Q = q /\ same_lengths Q (array_split xs P).
Proof.
  intros HP M NX NY Lp NP W B. cbv zeta. set (v := volume_list w (length xs)).
  assert (Lv : length v = length xs) by (apply volume_list_length; intros u Hu; apply (W u Hu)).
  assert (NV : nonneg v).
  { unfold v. destruct w as [|u]; [|apply (W u eq_refl)]. intros y Hy. apply repeat_spec in Hy. subst y. apply qc_div_nonneg; [discriminate|]. apply qn_pos. destruct xs; [contradiction|cbn; lia]. }
  assert (S1 : exists inp o1, (do s1 <- (if before then define_volumes P w (values_set d dom xs) else Ok (values_set d dom xs)) ; do e <- qoi model P true s1 ; if before then Ok e else define_input_volumes P w e) =
      Ok (mk_disc (Some inp) (Some o1) None None None None None None None None None None) /\ holds P d xs (Some v) true inp /\ holds P o (map g xs) None true o1).
  { destruct before.
    - destruct (holds_define P w d xs (values_set d dom xs) NX (fun u Hu => proj1 (W u Hu)) (values_holds P d dom xs)) as (l & s1 & -> & H1). cbn [bind].
      destruct (qoi_global P d o g model xs (Some v) l s1 HP M H1) as (s2 & o1 & -> & H2 & H3); [intros ? [= <-]; exact Lv|]. exists s2, o1. auto.
    - cbn [bind]. destruct (qoi_global P d o g model xs None false _ HP M (values_holds P d dom xs)) as (s2 & o1 & -> & H2 & H3); [intros ? [=]|]. cbn [bind].
      unfold define_input_volumes. cbn [d_in need bind]. unfold v. rewrite (B eq_refl). cbn [define_volumes].
      destruct (holds_mc P d xs None true s2 NX H2) as (s3 & -> & H4); [intros ? [=]|]. exists s3, o1. auto. }
  destruct S1 as (inp & o1 & S1 & Hi & Ho).
  assert (EQ : solve nn P model w before setter (values_set d dom xs) (probability_set o dom' ys probs) =
    bind (do s1 <- (if before then define_volumes P w (values_set d dom xs) else Ok (values_set d dom xs)) ; do e <- qoi model P true s1 ; if before then Ok e else define_input_volumes P w e)
      (fun d1 => bind (define_output nn P setter (probability_set o dom' ys probs) d1) (prob_disc nn P true))).
  { unfold solve. destruct (if before then define_volumes P w (values_set d dom xs) else Ok (values_set d dom xs)) as [s1|e1]; [|reflexivity]. cbn [bind]. destruct (qoi model P true s1); reflexivity. }
  rewrite EQ, S1. cbn [bind]. rewrite (define_output_lemma nn P setter o dom' ys probs (map g xs) inp o1); [|rewrite (proj2 (proj2 Ho)); reflexivity|exact (proj1 Ho)]. cbn [bind].
  destruct (prob_state nn P o dom' ys probs (map g xs) inp o1 d xs v (length xs) HP Lp NY Ho Hi eq_refl (map_length _ _) Lv) as (Q & -> & SL & CQ).
  rewrite map_map in CQ. rewrite solution_share in CQ by (try assumption; congruence).
  exists inp, o1, Q. rewrite CQ. split; [reflexivity|]. split; [exact Hi|]. split; [exact Ho|]. split; [reflexivity|].
  unfold same_lengths in *. rewrite array_split_map in SL. clear -SL. revert SL. generalize (array_split xs P). induction Q as [|q Q IH]; intros [|z zs'] SL; inversion SL; subst; constructor; [rewrite map_length in *; assumption|apply IH; assumption].
Qed.
Lemma solve_lemma nn P d o g model w before setter dom dom' xs ys probs : 0 < P -> row_model d o g model -> xs <> [] -> ys <> [] -> length probs = length ys -> nonneg probs ->
  (forall v, w = Given v -> length v = length xs /\ nonneg v) -> (before = false -> w = MonteCarlo) ->
  let r := solve nn P model w before setter (values_set d dom xs) (probability_set o dom' ys probs) in
  let q := solution (fun x => nn ys (g x)) probs (combine xs (volume_list w (length xs))) in
  global_probabilities r = Some (map Num q) /\ sample_of r = Some xs /\
  exists qs, local_probabilities r = Some (map (map Num) qs) /\ concat qs = q /\ same_lengths qs (array_split xs P).
Proof.
  intros HP M NX NY Lp NP W B. cbv zeta. destruct (solve_state nn P d o g model w before setter dom dom' xs ys probs HP M NX NY Lp NP W B) as (inp & o1 & Q & -> & Hi & Ho & CQ & SL).
  cbn [global_probabilities local_probabilities sample_of d_in set_loc set_glob glob loc]. rewrite !upd_same, upd_other by discriminate. rewrite (proj1 (proj2 Hi)). cbn [expected option_map rows vec_arr].
  split; [reflexivity|]. split; [reflexivity|]. exists Q. split; [rewrite map_map; reflexivity|]. split; [exact CQ|exact SL].
Qed.

(** ** Volumes set after the evaluation *)
Lemma solve_late_lemma nn P d o g model v setter dom dom' xs ys probs : 0 < P -> row_model d o g model -> xs <> [] -> ys <> [] -> length probs = length ys -> length v = length xs ->
  (exists p, In p probs /\ (0 < p)%Qc) ->
  solve nn P model (Given v) false setter (values_set d dom xs) (probability_set o dom' ys probs) = Raise PyTypeError.
Proof.
  intros HP M NX NY Lp Lv (p & Hp & Pp). unfold solve. cbn [bind].
  destruct (qoi_global P d o g model xs None false _ HP M (values_holds P d dom xs)) as (s2 & o1 & -> & H2 & Ho); [intros ? [=]|]. cbn [bind].
  unfold define_input_volumes. cbn [d_in need bind define_volumes]. unfold with_in. cbn [d_out d_prob d_ein d_eout d_obs io ii oo io_loc ii_loc oo_loc]. set (inp := set_glob Volumes _ s2).
  rewrite (define_output_lemma nn P setter o dom' ys probs (map g xs) inp o1); [|rewrite (proj2 (proj2 Ho)); reflexivity|exact (proj1 Ho)]. cbn [bind].
  destruct H2 as (D & G & L). unfold prob_disc, check_nums. cbn [d_out d_in need bind d_prob io_loc]. rewrite (holds_count _ _ _ _ _ _ Ho) by (intros ? [=]). cbn [bind].
  assert (V : valid_set inp (length xs)).
  { split.
    - intros a x E. cbn [inp set_glob glob] in E. unfold upd in E. destruct (attr_eq_dec a Volumes) as [->|N].
      + injection E as <-. unfold vec_arr. cbn [rows]. rewrite map_length. exact Lv.
      + rewrite G in E. destruct a; try discriminate. injection E as <-. reflexivity.
    - exists (mk_arr xs [d]). split; [cbn [inp set_glob glob]; rewrite upd_other by discriminate; apply G|cbn [inp set_glob dim]; rewrite D; reflexivity]. }
  rewrite (valid_count _ _ _ V). cbn [bind]. rewrite (proj1 (proj2 Ho)). cbn [expected inp set_glob glob]. rewrite upd_other by discriminate. rewrite G. cbn [expected]. rewrite map_length, Nat.eqb_refl. cbn [bind].
  rewrite (with_tree_count P o dom' ys probs Lp). cbn [bind d_in need]. unfold localized. cbn [inp set_glob loc]. rewrite L. cbn [expected option_map bind subscript].
  unfold out_probs. destruct (Nat.eqb_spec (length ys) 0) as [Z|_]; [destruct ys; [contradiction|discriminate]|]. cbn [with_tree glob]. rewrite upd_other by discriminate. cbn [probability_set glob subscript bind].
  cbn [vec_arr rows]. rewrite scalars_nums. cbn [bind].
  assert (X : existsb (qltb 0) probs = true) by (apply existsb_exists; exists p; split; [exact Hp|apply qltb_true; exact Pp]). rewrite X. unfold inp. cbn [set_glob loc]. rewrite L. reflexivity.
Qed.

(** ** Renumbering *)
Lemma total_in_perm s s' i : Permutation s s' -> total_in s i = total_in s' i.
Proof.
  intros H. unfold total_in. induction H as [|x s s' H IH|x y s|s1 s2 s3 H1 IH1 H2 IH2]; cbn [filter].
  - reflexivity.
  - destruct (fst x =? i); [|exact IH]. cbn [map]. change (qsum (?a :: ?l)) with (a + qsum l)%Qc. rewrite IH. reflexivity.
  - destruct (fst x =? i), (fst y =? i); try reflexivity. cbn [map]. change (qsum (?a :: ?b :: ?l)) with (a + (b + qsum l))%Qc. ring.
  - rewrite IH1. exact IH2.
Qed.
Lemma combine_map_fst {A B C} (f : A * B -> C) l : combine (map fst l) (map f l) = map (fun e => (fst e, f e)) l.
Proof. induction l as [|a l IH]; [reflexivity|]. cbn [map combine]. f_equal. exact IH. Qed.
Lemma combine_fst' {A B} (l : list A) (m : list B) : length l = length m -> map fst (combine l m) = l.
Proof. apply combine_fst. Qed.
Lemma solution_perm c probs xs v xs' v' : length xs = length v -> length xs' = length v' -> Permutation (combine xs v) (combine xs' v') ->
  Permutation (combine xs (solution c probs (combine xs v))) (combine xs' (solution c probs (combine xs' v'))).
Proof.
  intros L L' H. rewrite <- (combine_fst' xs v L) at 1. rewrite <- (combine_fst' xs' v' L') at 1. unfold solution. rewrite !combine_map_fst.
  assert (T : forall i, total_in (map (fun yw => (c (fst yw), snd yw)) (combine xs v)) i = total_in (map (fun yw => (c (fst yw), snd yw)) (combine xs' v')) i).
  { intros i. apply total_in_perm. apply Permutation_map. exact H. }
  erewrite map_ext; [apply Permutation_map; exact H|]. intros e. cbn beta. rewrite T. reflexivity.
Qed.
Lemma perm_same {A B} (xs xs' : list A) (b : B) : Permutation xs xs' -> Permutation (combine xs (repeat b (length xs))) (combine xs' (repeat b (length xs'))).
Proof.
  intros H. assert (E : forall l : list A, combine l (repeat b (length l)) = map (fun x => (x, b)) l) by (induction l as [|y l IH]; [reflexivity|]; cbn [length repeat combine map]; f_equal; exact IH).
  rewrite !E. apply Permutation_map. exact H.
Qed.

(** ** The output probabilities of the solution *)
Lemma solution_length c probs s : length (solution c probs s) = length s.
Proof. apply map_length. Qed.
Lemma solution_total c probs xs v j p : length xs = length v -> nonneg probs -> nonneg v -> nth_error probs j = Some p ->
  total_in (combine (map c xs) (solution c probs (combine xs v))) j = if qltb 0 (total_in (combine (map c xs) v) j) then p else 0%Qc.
Proof.
  intros L NP NV Hp. rewrite <- (solution_share c probs xs v L NP NV). set (s := combine (map c xs) v).
  assert (E : combine (map c xs) (map (share probs s) s) = map (fun e => (fst e, share probs s e)) s).
  { rewrite <- combine_map_fst. f_equal. unfold s. rewrite combine_fst; [reflexivity|rewrite map_length; exact L]. }
  rewrite E, (share_total probs s j p Hp). destruct (qltb_spec 0%Qc p) as [Pp|Pp]; [reflexivity|]. cbn [andb].
  assert (p = 0%Qc) as -> by (apply Qcle_antisym; [apply Qcnot_lt_le; exact Pp|apply NP; eapply nth_error_In; exact Hp]). destruct (qltb _ _); reflexivity.
Qed.

(** ** Without global arrays *)
Definition holds_loc (P d : nat) (xs : list cell) (ov : option (list Qc)) (s : sset cell) : Prop :=
  dim s = d /\ (forall a, glob s a = None) /\ forall a, loc s a = option_map (split_arr P) (expected d xs ov a).
Lemma nth_split {A B} (xs : list A) (v : list B) P r b c : 0 < P -> length xs = length v -> nth_error (array_split xs P) r = Some b -> nth_error (array_split v P) r = Some c -> length b = length c.
Proof.
  intros HP L Hb Hc. pose proof (split_same_lengths xs v P HP L) as S0. unfold same_lengths in S0. clear -S0 Hb Hc. revert r Hb Hc.
  induction S0 as [|x y l m E S0 IH]; intros [|r] Hb Hc; cbn [nth_error] in *; try discriminate; [congruence|eapply IH; eassumption].
Qed.
Lemma loc_rows P d xs ov s r : 0 < P -> holds_loc P d xs ov s -> fits xs ov -> r < P -> local_rows s r (length (nth r (array_split xs P) [])).
Proof.
  intros HP (D & G & L) F R. assert (B : nth_error (array_split xs P) r = Some (nth r (array_split xs P) [])) by (apply nth_error_nth'; rewrite array_split_length by exact HP; exact R). split.
  - exists Values, (split_arr P (mk_arr xs [d])), (mk_arr (nth r (array_split xs P) []) [d]). rewrite L. split; [reflexivity|]. rewrite split_rows, nth_error_map, B. reflexivity.
  - intros a bs b La Hb. rewrite L in La. destruct a; try discriminate; cbn [expected option_map] in La.
    + injection La as <-. rewrite split_rows, nth_error_map, B in Hb. injection Hb as <-. reflexivity.
    + destruct ov as [v|]; [|discriminate]. injection La as <-. unfold vec_arr in Hb. rewrite split_rows, array_split_map, !nth_error_map in Hb.
      destruct (nth_error (array_split v P) r) as [c|] eqn:C; [|discriminate]. injection Hb as <-. cbn [rows]. rewrite map_length. symmetry. eapply nth_split; [exact HP| |exact B|exact C]. symmetry. apply F. reflexivity.
Qed.
Lemma nth_all {A} (l : list A) dflt : map (fun r => nth r l dflt) (seq 0 (length l)) = l.
Proof.
  apply nth_error_ext. intros i. rewrite nth_error_map, nth_error_seq. destruct (Nat.ltb_spec i (length l)) as [H|H]; cbn [option_map].
  - symmetry. apply nth_error_nth'. exact H.
  - symmetry. apply nth_error_None. exact H.
Qed.
Lemma split_sum {A} (xs : list A) P : 0 < P -> list_sum (map (fun r => length (nth r (array_split xs P) [])) (seq 0 P)) = length xs.
Proof.
  intros HP. replace (seq 0 P) with (seq 0 (length (array_split xs P))) by (rewrite array_split_length by exact HP; reflexivity). rewrite <- (map_map (fun r => nth r (array_split xs P) []) (@length A)). rewrite nth_all.
  rewrite <- (array_split_concat xs P HP) at 2. generalize (array_split xs P). induction l as [|b l IH]; [reflexivity|]. cbn [map list_sum fold_right concat]. rewrite app_length. f_equal. exact IH.
Qed.
Lemma loc_count P d xs ov s : 0 < P -> holds_loc P d xs ov s -> fits xs ov -> check_num P s = Ok (length xs).
Proof.
  intros HP H F. rewrite (check_num_locals_only P s (fun r => length (nth r (array_split xs P) []))); [rewrite split_sum by exact HP; reflexivity|apply H|].
  intros r R. eapply loc_rows; eassumption.
Qed.
Lemma qoi_local P d o g model xs s : 0 < P -> row_model d o g model -> holds P d xs None false s ->
  exists s1 o1, qoi model P false s = Ok (mk_disc (Some s1) (Some o1) None None None None None None None None None None) /\
    holds_loc P d xs None s1 /\ holds_loc P o (map g xs) None o1.
Proof.
  intros HP M H. unfold qoi. destruct (localized_holds _ _ _ _ _ _ H) as (s1 & -> & H1); [intros ? [=]|]. cbn [bind].
  unfold loc_values. rewrite (proj2 (proj2 H1) Values). cbn [expected option_map bind]. rewrite (model_blocks d o g model P xs M).
  destruct (split_nonempty P (mk_arr (map g xs) [o]) HP) as (b & bs & E). rewrite E. cbv zeta iota. rewrite <- E.
  assert (Tb : forall c, In c (split_arr P (mk_arr (map g xs) [o])) -> tail_shape c = [o]) by (intros c Hc; apply split_arr_tail in Hc; exact Hc).
  assert (Ob : output_dim b = o) by (unfold output_dim; rewrite (Tb b) by (rewrite E; left; reflexivity); reflexivity). rewrite Ob.
  assert (A1 : forallb (fun c => output_dim c =? o) (split_arr P (mk_arr (map g xs) [o])) = true).
  { apply forallb_forall. intros c Hc. unfold output_dim. rewrite (Tb c Hc). apply Nat.eqb_refl. }
  rewrite A1, (two_d_same o _ Tb). unfold set_values_local.
  assert (A2 : forallb (fun c => if shape_eq_dec (tail_shape c) [dim (new_sset (R := cell) o)] then true else false) (split_arr P (mk_arr (map g xs) [o])) = true).
  { apply forallb_forall. intros c Hc. rewrite (Tb c Hc). cbn [new_sset dim]. destruct (shape_eq_dec [o] [o]); [reflexivity|contradiction]. }
  rewrite A2. cbn [bind]. set (o1 := set_loc Values (Some (split_arr P (mk_arr (map g xs) [o]))) (new_sset o)). set (s2 := set_glob Values None s1).
  assert (H2 : holds_loc P d xs None s2).
  { destruct H1 as (D & G & L). split; [exact D|]. split; [|exact L]. intros a. cbn [s2 set_glob glob]. unfold upd. destruct (attr_eq_dec a Values); [reflexivity|]. rewrite G. destruct a; try reflexivity. contradiction. }
  assert (H3 : holds_loc P o (map g xs) None o1).
  { split; [reflexivity|]. split; [reflexivity|]. intros a. cbn [o1 set_loc loc]. unfold upd. destruct (attr_eq_dec a Values) as [->|N]; [reflexivity|]. destruct a; try reflexivity. contradiction. }
  exists s2, o1. split; [|split; assumption]. unfold new_disc, check_nums. cbn [d_out d_in need bind].
  rewrite (loc_count _ _ _ _ _ HP H3) by (intros ? [=]). rewrite (loc_count _ _ _ _ _ HP H2) by (intros ? [=]). cbn [bind].
  rewrite (proj1 (proj2 H3)). reflexivity.
Qed.
Lemma each_rank_map {A} (f : nat -> result A) h rs : (forall r, In r rs -> f r = Ok (h r)) -> each_rank f rs = Ok (map h rs).
Proof. induction rs as [|r rs IH]; intros H; [reflexivity|]. cbn [each_rank map]. rewrite (H r (or_introl eq_refl)), IH by (intros; apply H; right; assumption). reflexivity. Qed.
Lemma mc_local_lemma P d xs s : 0 < P -> xs <> [] -> holds_loc P d xs None s -> exists s1, estimate_mc P false s = Ok s1 /\ holds_loc P d xs (Some (repeat (1 / qn (length xs))%Qc (length xs))) s1.
Proof.
  intros HP NE H. unfold estimate_mc. rewrite (loc_count _ _ _ _ _ HP H) by (intros ? [=]). cbn [bind].
  rewrite (each_rank_map _ (fun r => vec_arr (repeat (1 / qn (length xs))%Qc (length (nth r (array_split xs P) []))))).
  - cbn [bind]. eexists. split; [reflexivity|]. destruct H as (D & G & L). split; [exact D|]. split; [exact G|]. intros a. cbn [set_loc loc]. unfold upd. destruct (attr_eq_dec a Volumes) as [->|N].
    + cbn [expected option_map]. f_equal. unfold vec_arr. rewrite split_rows. set (c := (1 / qn (length xs))%Qc). rewrite array_split_map.
      assert (E : forall (l : list cell), repeat c (length l) = map (fun _ => c) l) by (intros l; induction l as [|y l IH]; [reflexivity|]; cbn [length repeat map]; f_equal; exact IH).
      rewrite (E xs), array_split_map, !map_map. replace (seq 0 P) with (seq 0 (length (array_split xs P))) by (rewrite array_split_length by exact HP; reflexivity). generalize (array_split xs P). intros l. transitivity (map (fun b => vec_arr (repeat c (length b))) (map (fun r => nth r l []) (seq 0 (length l)))); [rewrite map_map; reflexivity|]. rewrite nth_all. apply map_ext. intros b. rewrite E. reflexivity.
    + rewrite L. destruct a; try reflexivity. contradiction.
  - intros r R. apply in_seq in R. unfold mc_block. rewrite (check_num_local_ok s r _ (proj1 (proj2 H) Values) (loc_rows P d xs None s r HP H ltac:(intros ? [=]) ltac:(lia))). cbn [bind].
    destruct (Nat.eqb_spec (length xs) 0) as [Z|_]; [destruct xs; [contradiction|discriminate]|]. reflexivity.
Qed.
Lemma solve_local_lemma nn P d o g model setter dom dom' xs ys probs : 0 < P -> row_model d o g model -> xs <> [] -> ys <> [] -> length probs = length ys -> nonneg probs ->
  global_probabilities (solve_local nn P model setter (values_set d dom xs) (probability_set o dom' ys probs)) = None /\
  exists qs, local_probabilities (solve_local nn P model setter (values_set d dom xs) (probability_set o dom' ys probs)) = Some (map (map Num) qs) /\
  concat qs = solution (fun x => nn ys (g x)) probs (combine xs (repeat (1 / qn (length xs))%Qc (length xs))) /\ same_lengths qs (array_split xs P).
Proof.
  intros HP M NX NY Lp NP. unfold solve_local. destruct (qoi_local P d o g model xs _ HP M (values_holds P d dom xs)) as (s1 & o1 & -> & H1 & Ho). cbn [bind d_in need].
  destruct (mc_local_lemma P d xs s1 HP NX H1) as (inp & -> & Hi). cbn [bind]. unfold with_in. cbn [d_out d_prob d_ein d_eout d_obs io ii oo io_loc ii_loc oo_loc].
  set (v := repeat (1 / qn (length xs))%Qc (length xs)) in *. assert (Lv : length v = length xs) by apply repeat_length.
  rewrite (define_output_lemma nn P setter o dom' ys probs (map g xs) inp o1); [|rewrite (proj2 (proj2 Ho)); reflexivity|exact (proj1 Ho)]. cbn [bind].
  destruct (prob_concat probs (array_split (map (nn ys) (map g xs)) P) (array_split v P)) as (Q & E & SL & CQ).
  { apply split_same_lengths; [exact HP|]. rewrite !map_length. congruence. }
  rewrite !array_split_concat in CQ by exact HP.
  unfold prob_disc, check_nums. cbn [d_out d_in need bind d_prob io_loc]. rewrite (loc_count _ _ _ _ _ HP Ho) by (intros ? [=]).
  rewrite (loc_count _ _ _ _ _ HP Hi) by (intros w [= <-]; exact Lv). cbn [bind]. rewrite (proj1 (proj2 Ho)). cbn [bind].
  rewrite (with_tree_count P o dom' ys probs Lp). cbn [bind d_in need]. unfold localized. rewrite (proj2 (proj2 Hi)). cbn [expected option_map bind subscript].
  unfold out_probs. destruct (Nat.eqb_spec (length ys) 0) as [Z|_]; [destruct ys; [contradiction|discriminate]|]. cbn [with_tree glob]. rewrite upd_other by discriminate. cbn [probability_set glob subscript bind].
  cbn [vec_arr rows]. rewrite scalars_nums. cbn [bind]. rewrite (proj2 (proj2 Hi)). cbn [expected option_map subscript bind]. rewrite split_vec.
  assert (PE : prob probs (array_split (map (nn ys) (map g xs)) P) (if existsb (qltb 0) probs then array_split v P else []) = Ok Q).
  { destruct (existsb (qltb 0) probs) eqn:X; [exact E|]. unfold prob in *. rewrite X in *. exact E. }
  replace (if existsb (qltb 0) probs then Ok (array_split v P) else Ok []) with (Ok (if existsb (qltb 0) probs then array_split v P else [])) by (destruct (existsb (qltb 0) probs); reflexivity).
  cbn [bind]. rewrite PE. cbn [bind local_probabilities global_probabilities with_in d_in set_loc loc glob]. rewrite upd_same, (proj1 (proj2 Hi)). cbn [option_map]. split; [reflexivity|]. exists Q. split; [rewrite map_map; reflexivity|].
  rewrite map_map in CQ. rewrite solution_share in CQ; [|congruence|exact NP|intros y Hy; apply repeat_spec in Hy; subst y; apply qc_div_nonneg; [discriminate|apply qn_pos; destruct xs; [contradiction|cbn; lia]]].
  split; [exact CQ|]. unfold same_lengths in *. rewrite map_map, array_split_map in SL. clear -SL. revert SL. generalize (array_split xs P). induction Q as [|q Q IH]; intros [|z zs'] SL; inversion SL; subst; constructor; [rewrite map_length in *; assumption|apply IH; assumption].
Qed.

(** ** Consequences *)
Lemma mc_nonneg {A} (xs : list A) : xs <> [] -> nonneg (repeat (1 / qn (length xs))%Qc (length xs)).
Proof. intros NE y Hy. apply repeat_spec in Hy. subst y. apply qc_div_nonneg; [discriminate|]. apply qn_pos. destruct xs; [contradiction|cbn; lia]. Qed.
Lemma volume_list_nonneg w (xs : list cell) : xs <> [] -> (forall v, w = Given v -> length v = length xs /\ nonneg v) -> nonneg (volume_list w (length xs)).
Proof. intros NE W. destruct w as [|v]; [apply mc_nonneg; exact NE|]. apply (W v eq_refl). Qed.
Lemma solve_mc_same nn P P' d o g model before before' setter setter' dom dom1 dom' dom1' xs ys probs : 0 < P -> 0 < P' -> row_model d o g model -> xs <> [] -> ys <> [] -> length probs = length ys -> nonneg probs ->
  global_probabilities (solve nn P model MonteCarlo before setter (values_set d dom xs) (probability_set o dom' ys probs)) =
  global_probabilities (solve nn P' model MonteCarlo before' setter' (values_set d dom1 xs) (probability_set o dom1' ys probs)).
Proof.
  intros HP HP' M NX NY Lp NP.
  rewrite (proj1 (solve_lemma nn P d o g model MonteCarlo before setter dom dom' xs ys probs HP M NX NY Lp NP ltac:(intros ? [=]) ltac:(reflexivity))).
  rewrite (proj1 (solve_lemma nn P' d o g model MonteCarlo before' setter' dom1 dom1' xs ys probs HP' M NX NY Lp NP ltac:(intros ? [=]) ltac:(reflexivity))).
  reflexivity.
Qed.
Lemma combine_map_r {A B C} (f : B -> C) (l : list A) m : combine l (map f m) = map (fun e => (fst e, f (snd e))) (combine l m).
Proof. revert m. induction l as [|a l IH]; intros [|b m]; try reflexivity. cbn [map combine]. f_equal. apply IH. Qed.
Lemma solve_perm_lemma nn P d o g model w w' before setter dom dom' xs xs' ys probs : 0 < P -> row_model d o g model -> xs <> [] -> ys <> [] -> length probs = length ys -> nonneg probs ->
  (forall v, w = Given v -> length v = length xs /\ nonneg v) -> (forall v, w' = Given v -> length v = length xs' /\ nonneg v) -> (before = false -> w = MonteCarlo /\ w' = MonteCarlo) ->
  Permutation (combine xs (volume_list w (length xs))) (combine xs' (volume_list w' (length xs'))) ->
  exists q q', global_probabilities (solve nn P model w before setter (values_set d dom xs) (probability_set o dom' ys probs)) = Some q /\
    global_probabilities (solve nn P model w' before setter (values_set d dom xs') (probability_set o dom' ys probs)) = Some q' /\
    Permutation (combine xs q) (combine xs' q').
Proof.
  intros HP M NX NY Lp NP W W' B H.
  assert (Lv : length (volume_list w (length xs)) = length xs) by (apply volume_list_length; intros u Hu; apply (W u Hu)).
  assert (Lv' : length (volume_list w' (length xs')) = length xs') by (apply volume_list_length; intros u Hu; apply (W' u Hu)).
  assert (NX' : xs' <> []). { intros ->. apply Permutation_length in H. cbn [combine length] in H. rewrite combine_length, Lv, Nat.min_id in H. destruct xs; [contradiction|discriminate]. }
  pose proof (proj1 (solve_lemma nn P d o g model w before setter dom dom' xs ys probs HP M NX NY Lp NP W ltac:(intros X; apply (B X)))) as E.
  pose proof (proj1 (solve_lemma nn P d o g model w' before setter dom dom' xs' ys probs HP M NX' NY Lp NP W' ltac:(intros X; apply (B X)))) as E'.
  eexists. eexists. split; [exact E|]. split; [exact E'|]. rewrite !combine_map_r. apply Permutation_map. apply solution_perm; [congruence|congruence|exact H].
Qed.
Lemma combine_map_l {A B C} (f : A -> C) (l : list A) (m : list B) : combine (map f l) m = map (fun e => (f (fst e), snd e)) (combine l m).
Proof. revert m. induction l as [|a l IH]; intros [|b m]; try reflexivity. cbn [map combine]. f_equal. apply IH. Qed.
Lemma solve_push_lemma nn P d o g model w before setter dom dom' xs ys probs : 0 < P -> row_model d o g model -> xs <> [] -> ys <> [] -> length probs = length ys -> nonneg probs ->
  (forall v, w = Given v -> length v = length xs /\ nonneg v) -> (before = false -> w = MonteCarlo) -> (forall y, nn ys y < length ys) ->
  let cells := map (fun x => nn ys (g x)) xs in
  let volume := total_in (combine cells (volume_list w (length xs))) in
  exists q, global_probabilities (solve nn P model w before setter (values_set d dom xs) (probability_set o dom' ys probs)) = Some (map Num q) /\
    length q = length xs /\ nonneg q /\
    (forall j p, nth_error probs j = Some p -> (0 < volume j)%Qc -> total_in (combine cells q) j = p) /\
    (forall j, volume j = 0%Qc -> total_in (combine cells q) j = 0%Qc) /\
    (qsum q <= qsum probs)%Qc /\
    (qsum q = qsum probs <-> forall j p, nth_error probs j = Some p -> (0 < p)%Qc -> (0 < volume j)%Qc).
Proof.
  intros HP M NX NY Lp NP W B NN. cbv zeta. set (c := fun x => nn ys (g x)). set (v := volume_list w (length xs)).
  assert (Lv : length v = length xs) by (apply volume_list_length; intros u Hu; apply (W u Hu)).
  assert (NV : nonneg v) by (apply volume_list_nonneg; assumption).
  exists (solution c probs (combine xs v)). split; [exact (proj1 (solve_lemma nn P d o g model w before setter dom dom' xs ys probs HP M NX NY Lp NP W B))|].
  split; [rewrite solution_length, combine_length; lia|].
  assert (SS : solution c probs (combine xs v) = map (share probs (combine (map c xs) v)) (combine (map c xs) v)) by (symmetry; apply solution_share; [congruence|exact NP|exact NV]).
  assert (NS : forall x, In x (combine (map c xs) v) -> (0 <= snd x)%Qc). { intros [i u] Hx. apply in_combine_r in Hx. apply NV. exact Hx. }
  split. { rewrite SS. intros y Hy. apply in_map_iff in Hy. destruct Hy as (e & <- & He). apply share_nonneg; assumption. }
  split. { intros j p Hj Pv. rewrite (solution_total c probs xs v j p) by (try assumption; congruence). destruct (qltb_spec 0%Qc (total_in (combine (map c xs) v) j)); [reflexivity|contradiction]. }
  split.
  { intros j Z. destruct (nth_error probs j) as [p|] eqn:Hj.
    - rewrite (solution_total c probs xs v j p) by (try assumption; congruence). rewrite Z. reflexivity.
    - unfold total_in. assert (E : filter (fun s => fst s =? j) (combine (map c xs) (solution c probs (combine xs v))) = []).
      { apply nth_error_None in Hj. assert (A : forall e, In e (combine (map c xs) (solution c probs (combine xs v))) -> fst e < length ys).
        { intros [i u] He. apply in_combine_l in He. apply in_map_iff in He. destruct He as (x & <- & _). apply NN. }
        revert A. induction (combine (map c xs) (solution c probs (combine xs v))) as [|e l IH]; intros A; [reflexivity|]. cbn [filter]. destruct (Nat.eqb_spec (fst e) j) as [X|_].
        - specialize (A e (or_introl eq_refl)). lia.
        - apply IH. intros e' He'. apply A. right. exact He'. }
      rewrite E. reflexivity. }
  destruct (prob_concat probs [map c xs] [v]) as (Q & E & SL & CQ); [constructor; [rewrite map_length; congruence|constructor]|].
  cbn [concat] in CQ. rewrite !app_nil_r, <- SS in CQ. rewrite <- CQ.
  destruct (prob_total_iff_lemma probs [map c xs] [v] Q) as (T1 & T2); [constructor; [rewrite map_length; congruence|constructor]|exact NP| |exact E|].
  { intros i Hi. cbn [concat] in Hi. rewrite app_nil_r in Hi. apply in_map_iff in Hi. destruct Hi as (x & <- & _). rewrite Lp. apply NN. }
  split; [exact T1|]. cbn [concat] in T2. rewrite !app_nil_r in T2. exact T2.
Qed.

(** ** Models that return one-dimensional arrays *)
Lemma column_outputs (model model' : arr cell -> arr cell) bs : (forall x, column_of (model x) (model' x)) ->
  map two_d (map model bs) = map two_d (map model' bs) /\ map output_dim (map model bs) = map output_dim (map model' bs).
Proof.
  intros H. rewrite !map_map. split; apply map_ext; intros x; destruct (H x) as (A & B & C).
  - unfold two_d. rewrite A, B. destruct (model' x) as [r t]. cbn in B, C. subst. reflexivity.
  - unfold output_dim. rewrite A, B. reflexivity.
Qed.
Lemma forallb_map {A B} (f : A -> B) (p : B -> bool) l : forallb p (map f l) = forallb (fun x => p (f x)) l.
Proof. induction l as [|x l IH]; [reflexivity|]. cbn. rewrite IH. reflexivity. Qed.
Lemma qoi_column model model' P g s : (forall x, column_of (model x) (model' x)) -> qoi model P g s = qoi model' P g s.
Proof.
  intros H. unfold qoi. destruct (localized P s) as [s1|]; [|reflexivity]. cbn [bind]. destruct (loc_values s1) as [bs|]; [|reflexivity]. cbn [bind]. cbv zeta.
  destruct (column_outputs model model' bs H) as (T & D). destruct bs as [|b bs]; [reflexivity|].
  assert (D0 : output_dim (model b) = output_dim (model' b)) by (cbn [map] in D; congruence).
  assert (F : forallb (fun c => output_dim c =? output_dim (model b)) (map model (b :: bs)) = forallb (fun c => output_dim c =? output_dim (model' b)) (map model' (b :: bs))).
  { rewrite <- D0, <- !(forallb_map output_dim (fun n => n =? output_dim (model b))), D. reflexivity. }
  cbn [map] in F, T |- *. rewrite F, D0, T. reflexivity.
Qed.
Lemma flat_lemma nn P model model' w before setter (s pr : sset cell) : (forall x, column_of (model x) (model' x)) ->
  solve nn P model w before setter s pr = solve nn P model' w before setter s pr /\
  solve_local nn P model setter s pr = solve_local nn P model' setter s pr.
Proof.
  intros H. split.
  - unfold solve. destruct (if before then define_volumes P w s else Ok s) as [s1|]; [|reflexivity]. cbn [bind]. rewrite (qoi_column model model' P true s1 H). reflexivity.
  - unfold solve_local. rewrite (qoi_column model model' P false s H). reflexivity.
Qed.
