From Coq Require Import List Arith Bool QArith Qcanon Lia.
From Verif Require Import Err Num NumPy Lists SampleSet_Model SampleSet_Spec Prob_Spec Prob_Proofs Disc_Model Workflow_Model Workflow_Spec Workflow_Proofs Stable_Spec Stable_Proofs.
Import ListNotations.
Local Open Scope nat_scope.

Lemma posed_run nn P d o g model w before setter dom dom' xs ys p : posed nn P d o g model w before xs ys -> on_cells ys p ->
  global_probabilities (solve nn P model w before setter (values_set d dom xs) (probability_set o dom' ys p)) = Some (map Num (shares (cells_of nn g ys xs) (volume_list w (length xs)) p)).
Proof.
  intros (HP & M & NX & NY & NN & W & B) (Lp & Np). rewrite (proj1 (solve_lemma nn P d o g model w before setter dom dom' xs ys p HP M NX NY Lp Np W B)). do 2 f_equal. apply solution_shares.
Qed.
Lemma posed_volumes nn P d o g model w before xs ys : posed nn P d o g model w before xs ys -> nonneg (volume_list w (length xs)) /\ length (cells_of nn g ys xs) = length (volume_list w (length xs)) /\ (forall i, In i (cells_of nn g ys xs) -> i < length ys).
Proof.
  intros (HP & M & NX & NY & NN & W & B). split; [apply volume_list_nonneg; assumption|]. split; [unfold cells_of; rewrite map_length; symmetry; apply volume_list_length; intros v Hv; apply (W v Hv)|].
  intros i Hi. apply in_map_iff in Hi. destruct Hi as (x & <- & _). apply NN.
Qed.

Lemma stable_lemma nn P d o g model w before setter dom dom' xs ys p p' : posed nn P d o g model w before xs ys -> on_cells ys p -> on_cells ys p' ->
  exists q q', global_probabilities (solve nn P model w before setter (values_set d dom xs) (probability_set o dom' ys p)) = Some (map Num q) /\
    global_probabilities (solve nn P model w before setter (values_set d dom xs) (probability_set o dom' ys p')) = Some (map Num q') /\
    (apart q q' <= apart p p')%Qc /\
    ((forall i a b, nth_error p i = Some a -> nth_error p' i = Some b -> a <> b -> has_volume (cells_of nn g ys xs) (volume_list w (length xs)) i) -> apart q q' = apart p p') /\
    (below p p' -> below q q').
Proof.
  intros Q Hp Hp'. destruct (posed_volumes _ _ _ _ _ _ _ _ _ _ Q) as (NV & L & B). assert (LL : length p = length p') by (destruct Hp, Hp'; congruence). rewrite <- (proj1 Hp) in B.
  eexists. eexists. split; [apply (posed_run _ _ _ _ g); assumption|]. split; [apply (posed_run _ _ _ _ g); assumption|].
  destruct (shares_apart _ _ NV p p' LL B L) as [S1 S2]. split; [exact S1|]. split; [exact S2|]. intros H. apply shares_below; assumption.
Qed.
Lemma combined_cells ys a b p p' : (0 <= a)%Qc -> (0 <= b)%Qc -> on_cells ys p -> on_cells ys p' -> on_cells ys (combined a b p p').
Proof.
  intros Ha Hb (L & N) (L' & N'). split; [unfold combined; rewrite map_length, combine_length; lia|]. intros x Hx. apply in_map_iff in Hx. destruct Hx as ([u v] & <- & H). cbn [fst snd].
  pose proof (qc_mul_nonneg a u Ha (N u (in_combine_l _ _ _ _ H))). pose proof (qc_mul_nonneg b v Hb (N' v (in_combine_r _ _ _ _ H))). qc_lra.
Qed.
Lemma linear_lemma nn P d o g model w before setter dom dom' xs ys p p' a b : posed nn P d o g model w before xs ys -> on_cells ys p -> on_cells ys p' -> (0 <= a)%Qc -> (0 <= b)%Qc ->
  exists q q', global_probabilities (solve nn P model w before setter (values_set d dom xs) (probability_set o dom' ys p)) = Some (map Num q) /\
    global_probabilities (solve nn P model w before setter (values_set d dom xs) (probability_set o dom' ys p')) = Some (map Num q') /\
    global_probabilities (solve nn P model w before setter (values_set d dom xs) (probability_set o dom' ys (combined a b p p'))) = Some (map Num (combined a b q q')).
Proof.
  intros Q Hp Hp' Ha Hb. assert (LL : length p = length p') by (destruct Hp, Hp'; congruence). eexists. eexists. split; [apply (posed_run _ _ _ _ g); assumption|]. split; [apply (posed_run _ _ _ _ g); assumption|].
  rewrite (posed_run nn P d o g) by (try assumption; apply combined_cells; assumption). do 2 f_equal. apply shares_linear; assumption.
Qed.
Lemma scaled_lemma nn P d o g model v setter dom dom' xs ys p s : posed nn P d o g model (Given v) true xs ys -> on_cells ys p -> (0 < s)%Qc ->
  global_probabilities (solve nn P model (Given (scaled s v)) true setter (values_set d dom xs) (probability_set o dom' ys p)) =
  global_probabilities (solve nn P model (Given v) true setter (values_set d dom xs) (probability_set o dom' ys p)).
Proof.
  intros Q Hp Hs. rewrite (posed_run nn P d o g model (Given v)) by assumption. rewrite (posed_run nn P d o g).
  - cbn [volume_list]. do 2 f_equal. apply shares_scaled. intros ->. discriminate Hs.
  - destruct Q as (HP & M & NX & NY & NN & W & B). do 5 (split; [assumption|]). split; [|discriminate]. intros u [= <-]. destruct (W v eq_refl) as [L N]. split; [unfold scaled; rewrite map_length; exact L|]. intros x Hx. apply in_map_iff in Hx. destruct Hx as (y & <- & Hy). apply qc_mul_nonneg; [apply Qclt_le_weak; exact Hs|apply N; exact Hy].
  - exact Hp.
Qed.
Lemma map_all_same {A B} (f : A -> B) a n : map f (repeat a n) = repeat (f a) n.
Proof. induction n as [|n IH]; [reflexivity|]. cbn. rewrite IH. reflexivity. Qed.
Lemma even_lemma nn P d o g model before setter setter' dom dom' xs ys p a : posed nn P d o g model MonteCarlo before xs ys -> on_cells ys p -> (0 < a)%Qc ->
  global_probabilities (solve nn P model (Given (repeat a (length xs))) true setter (values_set d dom xs) (probability_set o dom' ys p)) =
  global_probabilities (solve nn P model MonteCarlo before setter' (values_set d dom xs) (probability_set o dom' ys p)).
Proof.
  intros Q Hp Ha. rewrite (posed_run nn P d o g model MonteCarlo) by assumption. destruct Q as (HP & M & NX & NY & NN & W & B). rewrite (posed_run nn P d o g).
  - cbn [volume_list]. do 2 f_equal. assert (Hn : (0 < qn (length xs))%Qc) by (apply qn_pos; destruct xs; [congruence|cbn; lia]). assert (Hn' : (qn (length xs) <> 0)%Qc) by (intros Z; rewrite Z in Hn; discriminate).
    rewrite <- (shares_scaled _ (repeat (1 / qn (length xs))%Qc (length xs)) (a * qn (length xs))%Qc).
    + f_equal. unfold scaled. rewrite map_all_same. f_equal. field. exact Hn'.
    + intros Z. destruct (Qcmult_integral _ _ Z) as [Z'|Z']; [rewrite Z' in Ha; discriminate|contradiction].
  - do 5 (split; [assumption|]). split; [|discriminate]. intros u [= <-]. rewrite repeat_length. split; [reflexivity|]. intros x Hx. apply repeat_spec in Hx. subst x. apply Qclt_le_weak. exact Ha.
  - exact Hp.
Qed.
Lemma finer_lemma nn P P' d o g model w w' before before' setter setter' dom dom' xs xs' ys p part : posed nn P d o g model w before xs ys -> posed nn P' d o g model w' before' xs' ys -> on_cells ys p ->
  length part = length xs' ->
  (forall j i, nth_error part j = Some i -> exists c, nth_error (cells_of nn g ys xs') j = Some c /\ nth_error (cells_of nn g ys xs) i = Some c) ->
  (forall i v, nth_error (volume_list w (length xs)) i = Some v -> v = parts_of part (volume_list w' (length xs')) i) ->
  exists q q', global_probabilities (solve nn P model w before setter (values_set d dom xs) (probability_set o dom' ys p)) = Some (map Num q) /\
    global_probabilities (solve nn P' model w' before' setter' (values_set d dom xs') (probability_set o dom' ys p)) = Some (map Num q') /\
    length q = length xs /\ (forall i a, nth_error q i = Some a -> a = parts_of part q' i).
Proof.
  intros Q Q' Hp L C V. destruct (posed_volumes _ _ _ _ _ _ _ _ _ _ Q) as (NV & LV & B). destruct (posed_volumes _ _ _ _ _ _ _ _ _ _ Q') as (NV' & LV' & B').
  assert (LC : length (cells_of nn g ys xs) = length xs) by apply map_length. assert (LC' : length (cells_of nn g ys xs') = length xs') by apply map_length.
  eexists. eexists. split; [apply (posed_run _ _ _ _ g); assumption|]. split; [apply (posed_run _ _ _ _ g); assumption|].
  split; [unfold shares; rewrite map_length, combine_length; lia|]. intros i a Ha. symmetry.
  refine (shares_parts _ _ p part _ _ i a LV _ LV' _ _ Ha).
  - congruence.
  - intros j k Hj. destruct (C j k Hj) as (c & E1 & E2). split; [congruence|]. apply nth_error_Some. congruence.
  - intros k Hk. destruct (nth_error (volume_list w (length xs)) k) as [v|] eqn:E; [f_equal; apply V; exact E|]. apply nth_error_None in E. lia.
Qed.
