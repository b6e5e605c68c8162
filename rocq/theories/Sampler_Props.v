From Coq Require Import List Arith QArith Qcanon.
From Verif Require Import Err Num NumPy SampleSet_Model Prob_Model Disc_Model Disc_Examples Workflow_Model Workflow_Spec Refs_Model Refs_Spec Sampling_Spec Sampler_Model Sampler_Spec Sampler_Proofs SamplerFill_Proofs SamplerRun_Proofs SamplerDisc_Proofs SamplerAgain_Proofs SamplerNew_Proofs Sampler_Examples.
Import ListNotations.
Local Open Scope nat_scope.

(** C144: sampling leaves nothing of earlier samples in the set. *)
Theorem random_new_set : forall P n g draw interval ob d w, 0 < P -> new_dim ob = Some d ->
  exists s, s_random P n g draw interval ob w = (mk_swork (w_sets w ++ [s]) (w_discs w) (Some (length (w_sets w))) (s_disc w), Ok (length (w_sets w))) /\
    only_samples d (drawn P n draw d) g nothing s /\ domain s = Some (map interval (seq 0 d)) /\
    (full_draws draw -> length (concat (map rows (drawn P n draw d))) = n).
Proof. exact random_new_lemma. Qed.
Print Assumptions random_new_set.
Theorem lhs_new_set : forall P n g H ob d w, 0 < P -> new_dim ob = Some d ->
  exists s bs extra xs, s_lhs P n g H ob w = (mk_swork (w_sets w ++ [s]) (w_discs w) (Some (length (w_sets w))) (s_disc w), Ok (length (w_sets w))) /\
    only_samples d bs g extra s /\ length bs = P /\ (forall x, ~ In x [Left_; Right_; Width_] -> extra x = None) /\
    domain s = Some (box_of ob) /\ extra Left_ = all_rows n d (map fst (box_of ob)) /\ extra Right_ = all_rows n d (map snd (box_of ob)) /\
    extra Width_ = all_rows n d (map (fun ab => (snd ab - fst ab)%Qc) (box_of ob)) /\
    ((forall r, length (H r) = n) -> length (concat (map rows bs)) = n) /\
    concat (map rows bs) = map row xs /\
    ((forall ab, In ab (box_of ob) -> (fst ab < snd ab)%Qc) -> (forall r, r < P -> H r = H 0) -> (forall h, In h (H 0) -> length h = d) ->
      latin (unit_cube d) n (H 0) -> latin (box_of ob) n xs).
Proof. exact lhs_new_lemma. Qed.
Print Assumptions lhs_new_set.
Theorem regular_new_set : forall P ns ob d w, 0 < P -> new_dim ob = Some d ->
  exists s bs, s_regular P ns ob w = (mk_swork (w_sets w ++ [s]) (w_discs w) (Some (length (w_sets w))) (s_disc w), Ok (length (w_sets w))) /\
    only_samples d bs true nothing s /\ length bs = P /\ domain s = Some (box_of ob) /\
    (length ns = d -> (forall k, In k ns -> 0 < k) -> concat (map rows bs) = map row (grid (box_of ob) ns)).
Proof. exact regular_new_lemma. Qed.
Print Assumptions regular_new_set.
Theorem random_keeps_old_refuted : forall P n g draw interval a w w1 s, 0 < P -> nth_error (w_sets w) a = Some s -> s_random P n g draw interval (SetAt a) w = (w1, Ok a) ->
  exists s1, nth_error (w_sets w1) a = Some s1 /\ loc s1 Values = Some (drawn P n draw (dim s)) /\
    (forall x, x <> Values -> loc s1 x = loc s x /\ (loc s x = None -> glob s1 x = glob s x)) /\ kd s1 = kd s /\ weights s1 = weights s.
Proof. exact resample_lemma. Qed.
Print Assumptions random_keeps_old_refuted.
Theorem lhs_keeps_old_refuted : forall P n g H a w w1 s, nth_error (w_sets w) a = Some s -> s_lhs P n g H (SetAt a) w = (w1, Ok a) ->
  exists s1, nth_error (w_sets w1) a = Some s1 /\
    (forall x, x <> Values -> loc s1 x = loc s x) /\ (forall x, ~ In x [Values; Left_; Right_; Width_] -> loc s x = None -> glob s1 x = glob s x) /\
    kd s1 = kd s /\ weights s1 = weights s.
Proof. exact resample_lhs_lemma. Qed.
Print Assumptions lhs_keeps_old_refuted.
Theorem regular_keeps_old_refuted : forall P ns a w w1 b s, nth_error (w_sets w) a = Some s -> s_regular P ns (SetAt a) w = (w1, Ok b) ->
  exists s1, w_sets w1 = w_sets w ++ [s1] /\ b = length (w_sets w) /\ (forall x, x <> Values -> glob s1 x = glob s x) /\ kd s1 = kd s /\ weights s1 = weights s.
Proof. exact resample_regular_lemma. Qed.
Print Assumptions regular_keeps_old_refuted.
Theorem random_length_refuted : forall P n g draw interval a w s x vs v r, 0 < P -> full_draws draw -> nth_error (w_sets w) a = Some s ->
  (forall y, glob s Values = Some y -> tail_shape y = [dim s]) ->
  x <> Values -> loc s x = Some vs -> nth_error vs r = Some v -> r < P -> length (rows v) <> length (nth r (array_split (repeat tt n) P) []) ->
  exists w1 s1, s_random P n g draw interval (SetAt a) w = (w1, Raise LengthNotMatching) /\ s_in w1 = s_in w /\
    nth_error (w_sets w1) a = Some s1 /\ loc s1 Values = Some (drawn P n draw (dim s)) /\ glob s1 Values = glob s Values /\ loc s1 x = Some vs.
Proof. exact mismatch_lemma. Qed.
Print Assumptions random_length_refuted.
Theorem lhs_then_random_refuted : forall model P n1 n2 g1 g2 H draw interval ob d o f w, 0 < P -> new_dim ob = Some d -> row_model d o f model ->
  full_draws draw -> (forall r, length (H r) = n1) -> n1 <> n2 ->
  exists w1 w2 w3 a, s_lhs P n1 g1 H ob w = (w1, Ok a) /\ s_random P n2 g2 draw interval (SetAt a) w1 = (w2, Ok a) /\
    s_compute model P (Some a) true w2 = (w3, Raise LengthNotMatching).
Proof. exact lhs_random_lemma. Qed.
Print Assumptions lhs_then_random_refuted.
Example stale_case : exists w1, s_random 1 2 true (draw_at 10) unit_interval (SetAt 0) old_work = (w1, Ok 0) /\
  shown_attr Values old_work 0 = Some [0; 1]%Q /\ shown_attr Volumes old_work 0 = Some [1 # 4; 3 # 4]%Q /\
  shown_attr Values w1 0 = Some [10; 11]%Q /\ shown_attr Volumes w1 0 = Some [1 # 4; 3 # 4]%Q.
Proof. exact stale_witness. Qed.
Example sampler_case : full_draws (draw_at 0) /\ row_model 1 1 (fun x => x) same_model /\ (forall r, length (cube 5 r) = 5) /\ new_dim (Box [(0, 1)%Qc]) = Some 1.
Proof. exact (conj (draw_at_full 0) (conj same_model_rows (conj (cube_length 5) eq_refl))). Qed.

(** C145: a discretization keeps its samples when the sampler is used again. *)
Theorem discretization_kept_partial : forall nn model P cs w j d v, nth_error (w_discs w) j = Some d -> sees (w_sets w) d v ->
  out_of_reach (fun a => In a (refs d)) (eq j) w cs ->
  let '(w1, _) := scall_run nn model P cs w in nth_error (w_discs w1) j = Some d /\ sees (w_sets w1) d v.
Proof. exact kept_lemma. Qed.
Print Assumptions discretization_kept_partial.
Theorem input_resampled_refuted : forall P n draw interval w w1 j d a o t, s_random P n true draw interval (SetAt a) w = (w1, Ok a) -> 0 < P ->
  nth_error (w_discs w) j = Some d -> r_in d = Some a -> r_out d = Some o -> nth_error (w_sets w) o = Some t -> a <> o ->
  nth_error (w_discs w1) j = Some d /\ nth_error (w_sets w1) o = Some t /\
  exists s, nth_error (w_sets w1) a = Some s /\ loc s Values = Some (drawn P n draw (dim s)) /\
    glob s Values = Some (mk_arr (concat (map rows (drawn P n draw (dim s)))) [dim s]).
Proof. exact again_lemma. Qed.
Print Assumptions input_resampled_refuted.
Example unpaired_case : exists w1 d, s_create_random same_model 2 (Some 3) true (draw_at 0) unit_interval (Dim 1) start = (made, Ok 0) /\
  s_random 2 3 true (draw_at 10) unit_interval (SetAt 0) made = (w1, Ok 0) /\
  nth_error (w_discs made) 0 = Some d /\ nth_error (w_discs w1) 0 = Some d /\ r_in d = Some 0 /\ r_out d = Some 1 /\
  shown_attr Values made 0 = shown_attr Values made 1 /\ shown_attr Values w1 1 = Some [0; 1; 1]%Q /\ shown_attr Values w1 0 = Some [10; 11; 11]%Q.
Proof. exact unpaired_witness. Qed.
Example kept_case : exists v, nth_error (w_discs made_twice) 0 = Some (pair_disc 0 1) /\ sees (w_sets made_twice) (pair_disc 0 1) v /\
  out_of_reach (fun a => In a (refs (pair_disc 0 1))) (eq 0) made_twice later_calls /\
  forallb is_ok (snd (scall_run near same_model 2 later_calls made_twice)) = true /\ length (w_discs (work_of (scall_run near same_model 2 later_calls made_twice))) = 4.
Proof. exact later_example. Qed.

(** C146: a discretization made by a sampler pairs every sample with its output,
    and globalizing later gives the same as globalizing at once. *)
Theorem create_random_pairs : forall model P n g draw interval ob d o f w, 0 < P -> new_dim ob = Some d -> row_model d o f model ->
  exists s t, s_create_random model P (Some n) g draw interval ob w =
    (mk_swork (w_sets w ++ [s; t]) (w_discs w ++ [pair_disc (length (w_sets w)) (S (length (w_sets w)))]) (Some (length (w_sets w))) (Some (length (w_discs w))), Ok (length (w_discs w))) /\
    only_samples d (drawn P n draw d) g nothing s /\ only_samples o (outputs o f (drawn P n draw d)) g nothing t /\ domain s = Some (map interval (seq 0 d)).
Proof. exact create_lemma. Qed.
Print Assumptions create_random_pairs.
Theorem outputs_in_order : forall o f bs, concat (map rows (outputs o f bs)) = map f (concat (map rows bs)).
Proof. exact outputs_rows. Qed.
Print Assumptions outputs_in_order.
Theorem compute_flat_outputs : forall model model' P inp g w, (forall x, column_of (model x) (model' x)) -> s_compute model P inp g w = s_compute model' P inp g w.
Proof. exact compute_column_lemma. Qed.
Print Assumptions compute_flat_outputs.
Example compute_flat_case : forall x, column_of (mk_arr (rows x) []) (mk_arr (map (fun c => Vec [c]) (rows x)) [1]).
Proof. intros x. repeat split. Qed.
Theorem globalize_later : forall model P inp w w1 w2 j1 j2, s_compute model P inp true w = (w1, Ok j1) -> s_compute model P inp false w = (w2, Ok j2) ->
  j1 = j2 /\ exists w3, s_local_to_global w2 = (w3, Ok tt) /\ same_work w3 w1.
Proof. exact later_lemma. Qed.
Print Assumptions globalize_later.
Theorem create_without_number_refuted : forall model P g draw interval ob w, s_create_random model P None g draw interval ob w = (w, Raise PyAttributeError).
Proof. exact create_none_lemma. Qed.
Print Assumptions create_without_number_refuted.
Example globalize_later_case : exists w w1 w2, s_random 2 3 false (draw_at 0) unit_interval (Dim 1) start = (w, Ok 0) /\
  s_compute same_model 2 None true w = (w1, Ok 0) /\ s_compute same_model 2 None false w = (w2, Ok 0) /\
  shown_attr Values w1 1 = Some [0; 1; 1]%Q /\ shown_attr Values w2 1 = None.
Proof. exact later_case_example. Qed.

(** C147: a copy of a sampler. *)
Theorem sampler_copy_same : forall w w1 i j, (forall a, s_in w = Some a -> a < length (w_sets w)) ->
  (forall k, s_disc w = Some k -> exists d v, nth_error (w_discs w) k = Some d /\ sees (w_sets w) d v) ->
  s_copy w = (w1, Ok (i, j)) ->
  (exists ext, w_sets w1 = w_sets w ++ ext) /\ s_in w1 = s_in w /\ s_disc w1 = s_disc w /\
  match s_in w with
  | None => i = None
  | Some a => exists b, i = Some b /\ length (w_sets w) <= b < length (w_sets w1) /\ nth_error (w_sets w1) b = nth_error (w_sets w) a
  end /\
  match s_disc w with
  | None => j = None /\ w_discs w1 = w_discs w
  | Some k => exists d v e, j = Some (length (w_discs w)) /\ nth_error (w_discs w) k = Some d /\ sees (w_sets w) d v /\
      w_discs w1 = w_discs w ++ [e] /\ sees (w_sets w1) e v /\
      (forall b, In b (refs e) -> length (w_sets w) <= b < length (w_sets w1)) /\
      (forall f a, In f [r_in; r_out; r_prob; r_ein; r_eout; r_obs] -> s_in w = Some a -> (f d = Some a <-> exists b, i = Some b /\ f e = Some b))
  end.
Proof. exact copy_lemma. Qed.
Print Assumptions sampler_copy_same.
Theorem sampler_copy_apart : forall nn model P w w1 i j cs, (forall a, s_in w = Some a -> a < length (w_sets w)) ->
  (forall k, s_disc w = Some k -> exists d v, nth_error (w_discs w) k = Some d /\ sees (w_sets w) d v) ->
  s_copy w = (w1, Ok (i, j)) ->
  (forall c a, In c cs -> In a (given c) -> length (w_sets w) <= a) -> (forall c k, In c cs -> works_on c = Some k -> length (w_discs w) <= k) ->
  let '(w2, _) := scall_run nn model P cs (mk_swork (w_sets w1) (w_discs w1) i j) in
  (forall a, a < length (w_sets w) -> nth_error (w_sets w2) a = nth_error (w_sets w) a) /\
  (forall k, k < length (w_discs w) -> nth_error (w_discs w2) k = nth_error (w_discs w) k).
Proof. exact copy_apart_lemma. Qed.
Print Assumptions sampler_copy_apart.
Example sampler_copy_case : exists d v, s_copy made_twice = (copied, Ok (Some 4, Some 2)) /\ s_in made_twice = Some 2 /\ s_disc made_twice = Some 1 /\
  nth_error (w_discs made_twice) 1 = Some d /\ sees (w_sets made_twice) d v /\ nth_error (w_discs copied) 2 = Some (pair_disc 4 5) /\
  shown_attr Values copied 4 = shown_attr Values made_twice 2 /\ shown_attr Values copied 5 = shown_attr Values made_twice 3 /\
  (forall c a, In c copy_calls -> In a (given c) -> length (w_sets made_twice) <= a) /\
  (forall c k, In c copy_calls -> works_on c = Some k -> length (w_discs made_twice) <= k).
Proof. exact copy_example. Qed.
