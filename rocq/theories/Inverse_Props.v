From Coq Require Import ZArith List Arith QArith Qcanon.
From Verif Require Import Err Num Ext Show Inverse_Model Inverse_Spec Inverse_Proofs Inverse2_Proofs Inverse3_Proofs Inverse_Examples.
Import ListNotations.
Local Open Scope nat_scope.

(** C37 *)
Theorem weighted_mean_bounds : forall dim x w, length x = length w -> all_nonneg w -> (exists a, In a w /\ a <> 0%Qc) ->
  exists m c, weighted_mean_and_cov dim x w = Some (m, c) /\ length m = dim /\ square dim c /\
  forall i lo hi, i < dim -> (forall row, In row x -> (lo <= nth i row 0)%Qc /\ (nth i row 0 <= hi)%Qc) -> (lo <= nth i m 0 /\ nth i m 0 <= hi)%Qc.
Proof. exact weighted_mean_lemma. Qed.
Print Assumptions weighted_mean_bounds.
Theorem weighted_cov_semidefinite : forall dim x w m c, length x = length w -> all_nonneg w ->
  weighted_mean_and_cov dim x w = Some (m, c) ->
  (forall i j, i < dim -> j < dim -> entry c i j = entry c j i) /\ (forall v, (0 <= quad dim c v)%Qc).
Proof. exact weighted_cov_lemma. Qed.
Print Assumptions weighted_cov_semidefinite.
Theorem weighted_scale_invariant : forall dim x w c, c <> 0%Qc ->
  weighted_mean_and_cov dim x (map (fun a => c * a)%Qc w) = weighted_mean_and_cov dim x w.
Proof. exact weighted_scale_lemma. Qed.
Print Assumptions weighted_scale_invariant.
(** Not the unweighted mean: the mean is the point where the weighted deviations
    cancel, and the covariance is the weighted average of their products. *)
Theorem weighted_moments : forall dim x w m c, length x = length w -> (forall row, In row x -> length row = dim) ->
  weighted_mean_and_cov dim x w = Some (m, c) ->
  (forall i, i < dim -> qsum (map (fun e => snd e * (nth i (fst e) 0 - nth i m 0))%Qc (combine x w)) = 0%Qc) /\
  (forall i j, i < dim -> j < dim -> (entry c i j * qsum w)%Qc =
     qsum (map (fun e => snd e * ((nth i (fst e) 0 - nth i m 0) * (nth j (fst e) 0 - nth j m 0)))%Qc (combine x w))).
Proof. exact weighted_moments_lemma. Qed.
Print Assumptions weighted_moments.
Example weighted_ex : weighted_mean_and_cov 2 xs3 ws3 = Some ([qn 2; qn 1], [[qn 2; - qn 2]; [- qn 2; qn 2]]%Qc) /\
  (quad 2 [[qn 2; - qn 2]; [- qn 2; qn 2]]%Qc (fun i => if i =? 0 then 1 else - (1))%Qc = qn 8).
Proof. exact weighted_ex_lemma. Qed.

(** C38.  Without an empty cluster and with a positive ratio in every cluster. *)
Theorem rejection_subset_partial : forall (V : Type) (values : list V) regions oregions (ratio : nat -> V -> Qc),
  length regions = length values -> forall dim (inputs : list (list Qc)) draws, length inputs = length values -> regions <> [] ->
  (forall i c, clusters regions c -> i < c -> 2 <= count_label regions i /\ 2 <= count_label oregions i) ->
  (forall i v, (0 <= ratio i v)%Qc) ->
  (forall i c, clusters regions c -> i < c -> exists k v, nth_error regions k = Some (Z.of_nat i) /\ nth_error values k = Some v /\ (0 < ratio i v)%Qc) ->
  (forall i, length (draws i) = count_label regions i) ->
  (forall i d, In d (draws i) -> (0 <= d)%Qc /\ (d < 1)%Qc) ->
  (exists l, In l regions /\ (0 <= l)%Z) ->
  exists res kept, invert_rejection_sampling dim inputs None None values regions oregions ratio draws = Ok res /\
  kept <> [] /\ NoDup kept /\
  length (res_values res) = length kept /\
  (forall j k, nth_error kept j = Some k -> nth_error (res_values res) j = nth_error inputs k /\ k < length inputs) /\
  (forall k, In k kept <-> exists i v m d, nth_error regions k = Some (Z.of_nat i) /\ nth_error values k = Some v /\
     cluster_max values regions ratio i m /\ drawn_for regions draws k d /\ (d * m <= ratio i v)%Qc) /\
  (forall k i v, nth_error regions k = Some (Z.of_nat i) -> nth_error values k = Some v -> cluster_max values regions ratio i (ratio i v) -> In k kept) /\
  (forall k i v d, In k kept -> nth_error regions k = Some (Z.of_nat i) -> nth_error values k = Some v -> ratio i v = 0%Qc ->
     drawn_for regions draws k d -> d = 0%Qc) /\
  res_probs res = repeat (1 / qn (length kept))%Qc (length kept) /\ qsum (res_probs res) = 1%Qc /\
  length (res_domain res) = dim /\
  (forall j row a b, In row (res_values res) -> nth_error (res_domain res) j = Some (a, b) -> (a <= nth j row 0 /\ nth j row 0 <= b)%Qc).
Proof. exact (@rejection_lemma). Qed.
Print Assumptions rejection_subset_partial.
Example rejection_ex : clusters reg5 2 /\
  match invert_rejection_sampling 1 in5 None None val5 reg5 obs5 ratio5 draws5 with
  | Ok res => res_values res = [[qn 1]; [qn 4]; [qn 5]] /\ res_domain res = [(qn 1, qn 5)] /\ res_probs res = [Q2Qc (1 # 3); Q2Qc (1 # 3); Q2Qc (1 # 3)]
  | Raise _ => False
  end.
Proof. exact rejection_ex_lemma. Qed.
(** Refuted: a label number that no sample has makes it fail, although invert
    succeeds. *)
Theorem rejection_empty_cluster_refuted : forall (V : Type) dim inputs (values : list V) regions oregions ratio draws c i,
  length regions = length values ->
  (exists out, invert 0%Qc None None values regions oregions ratio = Ok out) ->
  clusters regions c -> i < c -> count_label regions i = 0 ->
  invert_rejection_sampling dim inputs None None values regions oregions ratio draws = Raise PyAttributeError.
Proof. exact rejection_empty_lemma. Qed.
Print Assumptions rejection_empty_cluster_refuted.
Example rejection_empty_ex : length [1; 1]%Z = length [qn 3; qn 4] /\ clusters [1; 1]%Z 2 /\ count_label [1; 1]%Z 0 = 0 /\
  match invert 0%Qc None None [qn 3; qn 4] [1; 1]%Z [1; 1; 0]%Z (fun _ x => x) with Ok (w, _, _) => w = [qn 3; qn 4] | Raise _ => False end.
Proof. exact rejection_empty_ex_lemma. Qed.

(** C39 *)
Theorem invert_weights : forall (V R : Type) (zero : R) omaps (values : list V) regions oregions (ratio : nat -> V -> R) w rs ptrs,
  length regions = length values ->
  invert zero None omaps values regions oregions ratio = Ok (w, rs, ptrs) ->
  clusters regions (length ptrs) /\ length w = length values /\ length rs = length ptrs /\
  (forall k v l, nth_error values k = Some v -> nth_error regions k = Some l ->
     nth_error w k = Some (if (0 <=? l)%Z then ratio (Z.to_nat l) v else zero)) /\
  (forall i ptr, nth_error ptrs i = Some ptr -> positions regions i ptr) /\
  (forall i ptr, nth_error ptrs i = Some ptr -> exists r, nth_error rs i = Some r /\
     (ptr = [] -> r = None) /\
     (ptr <> [] -> exists r', r = Some r' /\ length r' = length ptr /\ forall p k, nth_error ptr p = Some k ->
        nth_error r' p = option_map (ratio i) (nth_error values k))).
Proof. exact invert_weights_lemma. Qed.
Print Assumptions invert_weights.
Theorem invert_weights_maps : forall (V R : Type) (zero : R) maps omaps (values : list V) regions oregions (ratio : nat -> V -> R) w rs ptrs,
  length regions = length values ->
  invert zero (Some maps) omaps values regions oregions ratio = Ok (w, rs, ptrs) ->
  length ptrs = length maps /\ length w = length values /\
  (forall i m ptr p k, nth_error maps i = Some m -> positions regions i ptr -> nth_error ptr p = Some k ->
     nth_error w k = option_map (ratio i) (nth_error m p) /\ length m = length ptr) /\
  (forall k l, nth_error regions k = Some l -> (l < 0 \/ Z.of_nat (length maps) <= l)%Z -> nth_error w k = Some zero) /\
  (forall i ptr, nth_error ptrs i = Some ptr -> positions regions i ptr).
Proof. exact invert_maps_lemma. Qed.
Print Assumptions invert_weights_maps.
Example invert_ex : match invert 0%Qc None None val5 reg5 obs5 ratio5 with
  | Ok (w, _, ptrs) => w = [qn 4; 0%Qc; 0%Qc; qn 4; qn 5] /\ ptrs = [[0; 2]; [1; 3; 4]] | Raise _ => False end.
Proof. exact invert_ex_lemma. Qed.
(** C80: when the inversion goes through. *)
Theorem invert_succeeds : forall (V R : Type) (zero : R) (values : list V) regions oregions (ratio : nat -> V -> R),
  length regions = length values ->
  ((exists out, invert zero None None values regions oregions ratio = Ok out) <->
   regions <> [] /\ forall i, count_label regions i = 0 \/ (2 <= count_label regions i /\ 2 <= count_label oregions i)).
Proof. exact invert_succeeds_lemma. Qed.
Print Assumptions invert_succeeds.
Theorem invert_one_map_refuted : forall (V R : Type) (zero : R) m omaps (values : list V) regions oregions (ratio : nat -> V -> R),
  In 0%Z regions -> invert zero (Some [m]) omaps values regions oregions ratio = Raise PyTypeError.
Proof. exact one_map_lemma. Qed.
Print Assumptions invert_one_map_refuted.
Example invert_one_map_ex : In 0%Z [0; 0; 0]%Z /\
  invert 0%Qc (Some [[qn 1; qn 2; qn 3]]) None [qn 1; qn 2; qn 3] [0; 0; 0]%Z [0; 0; 0]%Z (fun _ x => x) = Raise PyTypeError.
Proof. split; [left; reflexivity | vm_compute; reflexivity]. Qed.

(** C72 *)
Theorem cluster_weights_total_partial : forall oregions c, oregions <> [] ->
  length (cluster_weights oregions c) = c /\ all_nonneg (cluster_weights oregions c) /\
  (forall i w, nth_error (cluster_weights oregions c) i = Some w -> w = fraction oregions i) /\
  (qsum (cluster_weights oregions c) <= 1)%Qc /\
  (qsum (cluster_weights oregions c) = 1%Qc <-> forall l, In l oregions -> (0 <= l < Z.of_nat c)%Z).
Proof. exact cluster_weights_lemma. Qed.
Print Assumptions cluster_weights_total_partial.
(** The inversion goes through with two clusters of predictions and three of
    observations; the weights sum to 4/6. *)
Theorem cluster_weights_total_refuted : exists (values : list Qc) regions oregions out,
  length regions = length values /\ invert 0%Qc None None values regions oregions (fun _ x => x) = Ok out /\
  clusters regions 2 /\ qsum (cluster_weights oregions 2) = Q2Qc (2 # 3).
Proof. exact cluster_weights_refuted_lemma. Qed.
Print Assumptions cluster_weights_total_refuted.
Example cluster_weights_ex : cluster_weights [0; 1; 1; 0; 1]%Z 2 = [Q2Qc (2 # 5); Q2Qc (3 # 5)].
Proof. qc_compute. Qed.

(** C73 *)
Theorem reweighted_count_refuted : forall (A : Type) num (params : list A), 2 * num < length params ->
  reweighted num (repeat 1%Qc (length params)) params = [].
Proof. exact reweighted_none_lemma. Qed.
Print Assumptions reweighted_count_refuted.
Example reweighted_refuted_ex : reweighted 2 (repeat 1%Qc 5) [7; 8; 9; 10; 11] = [].
Proof. apply (reweighted_count_refuted nat 2 [7; 8; 9; 10; 11]). simpl. repeat constructor. Qed.
Theorem reweighted_count_partial : forall (A : Type) num tw (params : list A), length params = length tw -> all_nonneg tw -> qsum tw <> 0%Qc ->
  exists counts, length counts = length params /\ reweighted num tw params = copies params counts /\
  (forall k w c, nth_error tw k = Some w -> nth_error counts k = Some c -> nearest (qn num * w / qsum tw)%Qc (Z.of_nat c)) /\
  (qabs (qn num - qn (length (reweighted num tw params))) <= qn (length tw) / qn 2)%Qc /\
  ((forall w, In w tw -> integral (qn num * w / qsum tw)%Qc) -> length (reweighted num tw params) = num).
Proof. exact reweighted_partial_lemma. Qed.
Print Assumptions reweighted_count_partial.
Example reweighted_ex : reweighted 4 [qn 1; 0%Qc; qn 3] [7; 8; 9] = [7; 9; 9; 9].
Proof. vm_compute. reflexivity. Qed.

(** C78 *)
Theorem labels_kept_refuted : forall labels n, labels <> repeat 0%Z (length labels) ->
  fst (regions_used (Some labels) None (length labels) n) <> labels /\ snd (regions_used None (Some labels) n (length labels)) <> labels.
Proof. exact labels_overwritten_lemma. Qed.
Print Assumptions labels_kept_refuted.
Example labels_kept_ex : [0; 1]%Z <> repeat 0%Z (length [0; 1]%Z).
Proof. discriminate. Qed.
Theorem labels_kept_partial : forall a b n m, regions_used (Some a) (Some b) n m = (a, b).
Proof. exact labels_both_lemma. Qed.
Print Assumptions labels_kept_partial.

(** C79 *)
Theorem fit_weights_partial : forall (V : Type) (values : list V) regions oregions ratio w rs ptrs,
  length regions = length values -> oregions <> [] ->
  invert 0%Qc None None values regions oregions ratio = Ok (w, rs, ptrs) ->
  (forall i, i < length ptrs -> count_label regions i <> 0) ->
  exists tw, total_weights (length values) rs ptrs (cluster_weights oregions (length ptrs)) = Ok tw /\ length tw = length values /\
  forall k v l, nth_error values k = Some v -> nth_error regions k = Some l ->
    nth_error tw k = Some (if (0 <=? l)%Z then (ratio (Z.to_nat l) v * fraction oregions (Z.to_nat l))%Qc else 0%Qc).
Proof. exact total_weights_lemma. Qed.
Print Assumptions fit_weights_partial.
Theorem fit_weights_refuted : forall (V : Type) (values : list V) regions oregions ratio w rs ptrs i,
  length regions = length values ->
  invert 0%Qc None None values regions oregions ratio = Ok (w, rs, ptrs) ->
  i < length ptrs -> count_label regions i = 0 ->
  total_weights (length values) rs ptrs (cluster_weights oregions (length ptrs)) = Raise PyTypeError.
Proof. exact total_weights_empty_lemma. Qed.
Print Assumptions fit_weights_refuted.
Example fit_weights_ex : match invert 0%Qc None None val5 reg5 obs5 ratio5 with
  | Ok (_, rs, ptrs) => total_weights 5 rs ptrs (cluster_weights obs5 2) = Ok [Q2Qc (8 # 5); 0%Qc; 0%Qc; Q2Qc (12 # 5); Q2Qc (15 # 5)] | Raise _ => False end.
Proof. exact fit_weights_ex_lemma. Qed.
