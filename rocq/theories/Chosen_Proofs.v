From Coq Require Import List Arith Bool QArith Qcanon Lia.
From Verif Require Import Err Num NumPy Lists SampleSet_Model SampleSet_Spec SampleSet_Proofs Prob_Model Prob_Spec Prob_Proofs
  Disc_Model Disc_Spec Disc_Proofs Workflow_Model Workflow_Spec Workflow_Proofs Batches_Proofs Chosen_Model Chosen_Spec.
Import ListNotations.
Local Open Scope nat_scope.
Local Open Scope err_scope.

Lemma take_only {A} (l : list A) idx z : (forall i, In i idx -> i < length l) -> take_idx l idx = Some (map (fun i => nth i l z) idx).
Proof.
  induction idx as [|i idx IH]; intros H; [reflexivity|]. cbn [take_idx map]. rewrite (nth_error_nth' l z) by (apply H; left; reflexivity). rewrite IH by (intros; apply H; right; assumption). reflexivity.
Qed.
Lemma pick_only idx n c : row_of n c -> (forall i, In i idx -> i < n) -> pick_cell idx c = Ok (only idx c).
Proof. intros (l & -> & L) H. cbn [pick_cell only]. rewrite (take_only l idx (Num 0%Qc)) by (rewrite L; exact H). reflexivity. Qed.
Lemma each_only idx n l : (forall c, In c l -> row_of n c) -> (forall i, In i idx -> i < n) -> each_cell (pick_cell idx) l = Ok (map (only idx) l).
Proof.
  intros R H. induction l as [|c l IH]; [reflexivity|]. cbn [each_cell map]. rewrite (pick_only idx n c) by (try exact H; apply R; left; reflexivity). cbn [bind].
  rewrite IH by (intros; apply R; right; assumption). reflexivity.
Qed.
Lemma columns_only idx n l : (forall c, In c l -> row_of n c) -> (forall i, In i idx -> i < n) -> pick_columns idx (mk_arr l [n]) = Ok (mk_arr (map (only idx) l) [length idx]).
Proof.
  intros R H. unfold pick_columns. cbn [tail_shape rows]. rewrite (proj2 (forallb_forall _ _)) by (intros i Hi; apply Nat.ltb_lt, H, Hi). rewrite (each_only idx n l R H). reflexivity.
Qed.
Lemma blocks_only idx n B : (forall c, In c (concat B) -> row_of n c) -> (forall i, In i idx -> i < n) ->
  pick_blocks (pick_columns idx) (map (fun b => mk_arr b [n]) B) = Ok (map (fun b => mk_arr (map (only idx) b) [length idx]) B).
Proof.
  intros R H. induction B as [|b B IH]; [reflexivity|]. cbn [map pick_blocks]. rewrite (columns_only idx n b) by (try exact H; intros c Hc; apply R; cbn [concat]; apply in_or_app; left; exact Hc). cbn [bind].
  rewrite IH by (intros c Hc; apply R; cbn [concat]; apply in_or_app; right; exact Hc). reflexivity.
Qed.
Lemma side_only P n l ov idx jac s : 0 < P -> holds P n l ov true s -> (forall c, In c l -> row_of n c) -> (forall i, In i idx -> i < n) -> (forall r, domain s = Some r -> length r = n) ->
  exists s1, pick_side (N := unit) idx jac (mk_rset s None tt) = Ok (mk_rset s1 None tt) /\ holds P (length idx) (map (only idx) l) None true s1.
Proof.
  intros HP (D & G & L) R H Dm. unfold pick_side. cbn [Disc_Model.base reference p_norm opt bind].
  assert (Ed : exists dm, opt (pick_list idx) (domain s) = Ok dm).
  { destruct (domain s) as [r|] eqn:E; [|exists None; reflexivity]. cbn [opt]. unfold pick_list. rewrite (take_only r idx (0%Qc, 0%Qc)) by (rewrite (Dm r eq_refl); exact H). cbn [bind]. eexists. reflexivity. }
  destruct Ed as (dm & ->). cbn [bind]. rewrite !G, !L. cbn [expected option_map opt]. rewrite (columns_only idx n l R H). cbn [bind]. rewrite split_rows.
  rewrite (blocks_only idx n) by (try exact H; rewrite array_split_concat by exact HP; exact R). cbn [bind].
  eexists. split; [destruct jac; reflexivity|]. split; [reflexivity|]. split.
  - intros a. cbn [glob set_glob set_loc]. unfold upd. destruct a; reflexivity.
  - intros a. cbn [loc set_glob set_loc]. unfold upd. destruct a; try reflexivity. cbn. f_equal. rewrite split_rows, array_split_map, map_map. reflexivity.
Qed.
Definition bare (inp o1 : sset cell) : disc cell := mk_disc (Some inp) (Some o1) None None None None None None None None None None.
Lemma choose_lemma P d o xs zs ov ins outs inp out : 0 < P -> holds P d xs ov true inp -> holds P o zs None true out -> length xs = length zs ->
  (forall c, In c xs -> row_of d c) -> (forall c, In c zs -> row_of o c) -> (forall i, In i ins -> i < d) -> (forall i, In i outs -> i < o) -> (forall r, domain inp = Some r -> length r = d) -> domain out = None ->
  exists i1 o1, choose_disc P ins outs (bare inp out) = Ok (bare i1 o1) /\ holds P (length ins) (map (only ins) xs) None true i1 /\ holds P (length outs) (map (only outs) zs) None true o1.
Proof.
  intros HP Hi Ho L Rx Rz I O Dm Do. unfold choose_disc, bare. cbn [d_in d_out need bind]. unfold choose_inputs_outputs. cbn [subscript bind].
  destruct (side_only P d xs ov ins (Some (pick_jacobian ins outs)) inp HP Hi Rx I Dm) as (i1 & -> & Hi1). cbn [bind].
  destruct (side_only P o zs None outs None out HP Ho Rz O) as (o1 & -> & Ho1); [intros r E; rewrite Do in E; discriminate|]. cbn [bind Disc_Model.base fst snd].
  assert (N : new_disc P (Some i1) (Some o1) None None None None = Ok (bare i1 o1)).
  { unfold new_disc, check_nums. cbn [d_out d_in need bind]. rewrite (holds_count _ _ _ _ _ _ Ho1) by (intros ? [=]). rewrite (holds_count _ _ _ _ _ _ Hi1) by (intros ? [=]). cbn [bind].
    rewrite (proj1 (proj2 Ho1)), (proj1 (proj2 Hi1)). cbn [expected]. rewrite !map_length, L, Nat.eqb_refl. reflexivity. }
  rewrite N. cbn [bind fst snd Disc_Model.base]. rewrite N. exists i1, o1. split; [reflexivity|]. split; assumption.
Qed.
Lemma holds_mc_domain P s s1 b : estimate_mc P b s = Ok s1 -> domain s1 = domain s.
Proof.
  unfold estimate_mc. destruct (check_num P s) as [n|]; [cbn [bind]|discriminate]. destruct b.
  - destruct (n =? 0); [discriminate|]. intros E. destruct (g2l_inv _ _ _ E) as (m & _ & _ & _ & _ & D & _). exact D.
  - destruct (each_rank _ _); [cbn [bind]|discriminate]. intros [= <-]. reflexivity.
Qed.
Lemma define_domain P w s s1 : define_volumes P w s = Ok s1 -> domain s1 = domain s.
Proof. destruct w; cbn [define_volumes]; [apply holds_mc_domain|intros [= <-]; reflexivity]. Qed.

Section Run.
Context (nn : list cell -> cell -> nat) (P d o : nat) (g : cell -> cell) (model : arr cell -> arr cell) (dom dom' : option (list (Qc * Qc))) (ins outs : list nat) (xs ys : list cell) (probs : list Qc)
  (T : choice P d o g model dom ins outs xs ys probs).
Lemma chosen_state v : (forall w u, v = VBefore w -> w = Given u -> length u = length xs) ->
  exists i1 o1, (do s1 <- (match v with VBefore w => define_volumes P w (values_set d dom xs) | _ => Ok (values_set d dom xs) end) ;
    do e <- qoi model P true s1 ; do d1 <- (match v with VBetween => define_input_volumes P MonteCarlo e | _ => Ok e end) ; choose_disc P ins outs d1) = Ok (bare i1 o1) /\
    holds P (length ins) (map (only ins) xs) None true i1 /\ holds P (length outs) (map (fun x => only outs (g x)) xs) None true o1.
Proof.
  intros W. destruct T as (HP & M & NX & R & Dm & I & O & _). assert (Rz : forall c, In c (map g xs) -> row_of o c) by (intros c Hc; apply in_map_iff in Hc; destruct Hc as (x & <- & Hx); apply R; exact Hx).
  assert (Lz : length xs = length (map g xs)) by (rewrite map_length; reflexivity).
  destruct v as [w| |].
  - destruct (holds_define P w d xs (values_set d dom xs) NX (fun u Hu => W w u eq_refl Hu) (values_holds P d dom xs)) as (l & s1 & E & H1). rewrite E. cbn [bind].
    destruct (qoi_global P d o g model xs _ l s1 HP M H1) as (s2 & o1 & Eq & H2 & H3); [intros u [= <-]; apply volume_list_length; intros u Hu; apply (W w u eq_refl Hu)|].
    rewrite Eq. cbn [bind]. destruct (qoi_domains _ _ _ _ _ _ Eq eq_refl eq_refl) as (D1 & D2).
    destruct (choose_lemma P d o xs (map g xs) _ ins outs s2 o1 HP H2 H3 Lz (fun c Hc => proj1 (R c Hc)) Rz I O) as (i1 & o2 & E2 & A & B); [|exact D2|].
    { intros r Er. apply Dm. rewrite D1, (define_domain _ _ _ _ E) in Er. exact Er. }
    rewrite map_map in B. exists i1, o2. split; [exact E2|]. split; assumption.
  - cbn [bind]. destruct (qoi_global P d o g model xs None false _ HP M (values_holds P d dom xs)) as (s2 & o1 & Eq & H2 & H3); [intros ? [=]|].
    rewrite Eq. destruct (qoi_domains _ _ _ _ _ _ Eq eq_refl eq_refl) as (D1 & D2). cbn [bind]. unfold define_input_volumes. cbn [d_in need bind define_volumes].
    destruct (holds_mc P d xs None true s2 NX H2) as (s3 & E3 & H4); [intros ? [=]|]. rewrite E3. cbn [bind].
    destruct (choose_lemma P d o xs (map g xs) _ ins outs s3 o1 HP H4 H3 Lz (fun c Hc => proj1 (R c Hc)) Rz I O) as (i1 & o2 & E & A & B); [|exact D2|].
    { intros r Er. apply Dm. rewrite (holds_mc_domain _ _ _ _ E3), D1 in Er. exact Er. }
    rewrite map_map in B. exists i1, o2. split; [exact E|]. split; assumption.
  - cbn [bind]. destruct (qoi_global P d o g model xs None false _ HP M (values_holds P d dom xs)) as (s2 & o1 & Eq & H2 & H3); [intros ? [=]|].
    rewrite Eq. destruct (qoi_domains _ _ _ _ _ _ Eq eq_refl eq_refl) as (D1 & D2). cbn [bind].
    destruct (choose_lemma P d o xs (map g xs) _ ins outs s2 o1 HP H2 H3 Lz (fun c Hc => proj1 (R c Hc)) Rz I O) as (i1 & o2 & E & A & B); [|exact D2|].
    { intros r Er. apply Dm. rewrite D1 in Er. exact Er. }
    rewrite map_map in B. exists i1, o2. split; [exact E|]. split; assumption.
Qed.
Lemma chosen_eq v setter pr : solve_chosen nn P model v setter ins outs (values_set d dom xs) pr =
  bind (do s1 <- (match v with VBefore w => define_volumes P w (values_set d dom xs) | _ => Ok (values_set d dom xs) end) ;
    do e <- qoi model P true s1 ; do d1 <- (match v with VBetween => define_input_volumes P MonteCarlo e | _ => Ok e end) ; choose_disc P ins outs d1)
  (fun d2 => do d3 <- (match v with VAfter => define_input_volumes P MonteCarlo d2 | _ => Ok d2 end) ; do d4 <- define_output nn P setter pr d3 ; prob_disc nn P true d4).
Proof.
  unfold solve_chosen. destruct (match v with VBefore w => define_volumes P w (values_set d dom xs) | _ => Ok (values_set d dom xs) end) as [a|]; [cbn [bind]|reflexivity].
  destruct (qoi model P true a) as [a0|]; [cbn [bind]|reflexivity]. destruct (match v with VBetween => define_input_volumes P MonteCarlo a0 | _ => Ok a0 end); reflexivity.
Qed.
Lemma chosen_solution setter P' model' before setter' dom'' : 0 < P' -> row_model d (length outs) (fun x => only outs (g x)) model' ->
  exists q, global_probabilities (solve_chosen nn P model VAfter setter ins outs (values_set d dom xs) (probability_set (length outs) dom' ys probs)) = Some (map Num q) /\
    sample_of (solve_chosen nn P model VAfter setter ins outs (values_set d dom xs) (probability_set (length outs) dom' ys probs)) = Some (map (only ins) xs) /\
    q = solution (fun x => nn ys (only outs (g x))) probs (combine xs (volume_list MonteCarlo (length xs))) /\
    global_probabilities (solve nn P' model' MonteCarlo before setter' (values_set d dom'' xs) (probability_set (length outs) dom' ys probs)) = Some (map Num q).
Proof.
  intros HP' M'. destruct (chosen_state VAfter) as (i1 & o1 & E & Hi & Ho); [discriminate|]. destruct T as (HP & M & NX & R & Dm & I & O & _ & _ & NY & Lp & NP).
  destruct (solve_lemma nn P' d (length outs) _ model' MonteCarlo before setter' dom'' dom' xs ys probs HP' M' NX NY Lp NP) as (E' & _); [discriminate|reflexivity|].
  exists (solution (fun x => nn ys (only outs (g x))) probs (combine xs (volume_list MonteCarlo (length xs)))).
  rewrite chosen_eq, E. cbn [bind]. unfold define_input_volumes, bare. cbn [d_in need bind define_volumes].
  assert (NX' : map (only ins) xs <> []) by (destruct xs; [contradiction|discriminate]).
  destruct (holds_mc P (length ins) (map (only ins) xs) None true i1 NX' Hi) as (i2 & -> & H2); [intros ? [=]|]. cbn [bind].
  change (with_in (Some i2) _) with (bare i2 o1). unfold bare.
  rewrite (define_output_lemma nn P setter (length outs) dom' ys probs (map (fun x => only outs (g x)) xs) i2 o1); [|rewrite (proj2 (proj2 Ho)); reflexivity|exact (proj1 Ho)]. cbn [bind].
  rewrite map_length in H2. destruct (prob_lemma nn P (length outs) dom' ys probs (map (fun x => only outs (g x)) xs) i2 o1 (length ins) (map (only ins) xs) _ (length xs) HP Lp NY Ho H2 (map_length _ _) (map_length _ _)) as (i3 & Q & -> & Gp & _ & Gv & _ & CQ).
  { apply volume_list_length. discriminate. }
  rewrite map_map in CQ. rewrite solution_share in CQ; [|rewrite volume_list_length by discriminate; reflexivity|exact NP|].
  2: { intros y Hy. apply repeat_spec in Hy. subst y. apply qc_div_nonneg; [discriminate|]. apply qn_pos. destruct xs; [contradiction|cbn; lia]. }
  cbn [global_probabilities sample_of d_in]. rewrite Gp, Gv. cbn [option_map rows vec_arr]. rewrite CQ. split; [reflexivity|]. split; [reflexivity|]. split; [reflexivity|exact E'].
Qed.
Lemma chosen_lost v setter : v <> VAfter -> (forall w u, v = VBefore w -> w = Given u -> length u = length xs) -> (exists p, In p probs /\ (0 < p)%Qc) ->
  solve_chosen nn P model v setter ins outs (values_set d dom xs) (probability_set (length outs) dom' ys probs) = Raise PyTypeError.
Proof.
  intros NA W (p & Hp & Pp). destruct (chosen_state v W) as (i1 & o1 & E & Hi & Ho). destruct T as (HP & M & NX & R & Dm & I & O & _ & _ & NY & Lp & NP).
  rewrite chosen_eq, E. cbn [bind]. assert (Ev : (match v with VAfter => define_input_volumes P MonteCarlo (bare i1 o1) | _ => Ok (bare i1 o1) end) = Ok (bare i1 o1)) by (destruct v; [reflexivity|reflexivity|contradiction]).
  rewrite Ev. cbn [bind]. unfold bare. rewrite (define_output_lemma nn P setter (length outs) dom' ys probs (map (fun x => only outs (g x)) xs) i1 o1); [|rewrite (proj2 (proj2 Ho)); reflexivity|exact (proj1 Ho)]. cbn [bind].
  assert (X : existsb (qltb 0) probs = true) by (apply existsb_exists; exists p; split; [exact Hp|]; destruct (qltb_spec 0%Qc p); [reflexivity|contradiction]).
  unfold prob_disc, check_nums. cbn [d_out d_in need bind d_prob io_loc]. rewrite (holds_count _ _ _ _ _ _ Ho) by (intros ? [=]).
  rewrite (holds_count _ _ _ _ _ _ Hi) by (intros ? [=]). cbn [bind]. rewrite (proj1 (proj2 Ho)), (proj1 (proj2 Hi)). cbn [expected]. rewrite !map_length, Nat.eqb_refl. cbn [bind].
  rewrite (with_tree_count P (length outs) dom' ys probs Lp). cbn [bind d_in need]. unfold localized. rewrite (proj2 (proj2 Hi)). cbn [expected option_map bind subscript].
  unfold out_probs. destruct (Nat.eqb_spec (length ys) 0) as [Z|_]; [destruct ys; [contradiction|discriminate]|]. cbn [with_tree glob]. rewrite upd_other by discriminate. cbn [probability_set glob subscript bind].
  cbn [vec_arr rows]. rewrite scalars_nums. cbn [bind]. rewrite X. rewrite (proj2 (proj2 Hi)). reflexivity.
Qed.
End Run.
