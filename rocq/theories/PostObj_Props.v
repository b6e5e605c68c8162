From Coq Require Import List Arith Bool QArith Qcanon.
From Verif Require Import Err Num Ext Show NumPy SampleSet_Model SampleSet_Spec Disc_Model Disc_Spec Prob_Spec Disc_Examples Workflow_Model Workflow_Spec Workflow_Examples Post_Model Post_Spec PostObj_Model PostObj_Spec PostObj_Proofs PostObj_Examples.
Import ListNotations.
Local Open Scope nat_scope.

(** C148: marginals of sample sets and discretizations. *)
Theorem object_marginals_1D : forall P a s put data b dom ns, 0 < P -> uses a s put -> carries s data -> domain s = Some dom -> dim s <= length dom -> proper dom -> bins_given b (dim s) ns ->
  exists bins marg t, calculate_1D P a b = Ok (bins, marg, put t) /\ only_localized s t /\ length bins = dim s /\ length marg = dim s /\
  forall i ab n, i < dim s -> nth_error dom i = Some ab -> nth_error ns i = Some n ->
    nth_error bins i = Some (map (bin_edge ab n) (seq 0 (n + 1))) /\
    nth_error marg i = Some (map (fun k => weight_of data (fun x => bin_has ab n k (nth i x 0%Qc))) (seq 0 n)).
Proof. exact calculate_1D_lemma. Qed.
Print Assumptions object_marginals_1D.
Theorem object_marginals_2D : forall P a s put data b dom ns, 0 < P -> uses a s put -> carries s data -> domain s = Some dom -> dim s <= length dom -> proper dom -> bins_given b (dim s) ns -> 2 <= dim s ->
  exists bins marg t, calculate_2D P a b = Ok (bins, marg, put t) /\ only_localized s t /\ length bins = dim s /\
  (forall i ab n, i < dim s -> nth_error dom i = Some ab -> nth_error ns i = Some n -> nth_error bins i = Some (map (bin_edge ab n) (seq 0 (n + 1)))) /\
  NoDup (map fst marg) /\ (forall i j, In (i, j) (map fst marg) <-> i < j /\ j < dim s) /\
  forall i j m ab n ab' n', In ((i, j), m) marg -> nth_error dom i = Some ab -> nth_error ns i = Some n -> nth_error dom j = Some ab' -> nth_error ns j = Some n' ->
    m = map (fun k => map (fun l => weight_of data (fun x => bin_has ab n k (nth i x 0%Qc) && bin_has ab' n' l (nth j x 0%Qc))) (seq 0 n')) (seq 0 n).
Proof. exact calculate_2D_lemma. Qed.
Print Assumptions object_marginals_2D.
Theorem marginal_errors : forall P b d s, calculate_1D P AOther b = Raise BadObject /\ calculate_2D P AOther b = Raise BadObject /\
  (d_ein d = None -> d_in d = None -> calculate_1D P (ADisc d) b = Raise MissingAttribute /\ calculate_2D P (ADisc d) b = Raise MissingAttribute) /\
  (loc s Probabilities = None -> glob s Probabilities = None -> calculate_1D P (ASet s) b = Raise MissingAttribute /\ calculate_2D P (ASet s) b = Raise MissingAttribute).
Proof. exact marginal_errors_lemma. Qed.
Print Assumptions marginal_errors.
Theorem marginals_stale_refuted : forall P s p b, loc s Probabilities <> None ->
  (forall bins marg a, calculate_1D P (ASet s) b = Ok (bins, marg, a) -> exists a', calculate_1D P (ASet (set_glob Probabilities p s)) b = Ok (bins, marg, a')) /\
  (forall bins marg a, calculate_2D P (ASet s) b = Ok (bins, marg, a) -> exists a', calculate_2D P (ASet (set_glob Probabilities p s)) b = Ok (bins, marg, a')).
Proof. exact stale_lemma. Qed.
Print Assumptions marginals_stale_refuted.
Theorem emulated_marginals_refuted : forall P d e b, d_ein d = Some e -> loc e Probabilities = None -> glob e Probabilities = None ->
  calculate_1D P (ADisc d) b = Raise MissingAttribute /\ calculate_2D P (ADisc d) b = Raise MissingAttribute.
Proof. exact emulated_missing_lemma. Qed.
Print Assumptions emulated_marginals_refuted.
Theorem numpy_bins_refuted : forall P a s put data dom n, 0 < P -> uses a s put -> carries s data -> domain s = Some dom -> dim s <= length dom -> 0 < dim s ->
  calculate_1D P a (BNumpyInt n) = Raise PyIndexError /\ (2 <= dim s -> calculate_2D P a (BNumpyInt n) = Raise PyIndexError).
Proof. exact numpy_bins_lemma. Qed.
Print Assumptions numpy_bins_refuted.
Example object_marginals_ex : forall gl, carries (square_set gl) three /\ proper unit_square /\ dim (square_set gl) <= length unit_square /\ bins_given (BArr [2; 1]) 2 [2; 1] /\ bins_given (BInt 2) 2 [2; 2] /\
  show_1D (calculate_1D 2 (ASet (square_set gl)) (BArr [2; 1])) = Some ([[0; 1 # 2; 1]; [0; 1]], [[1 # 2; 1 # 4]; [1]])%Q /\
  show_2D (calculate_2D 2 (ASet (square_set gl)) (BInt 2)) = Some [((0, 1), [[0; 1 # 2]; [1 # 4; 0]]%Q)].
Proof.
  intros gl. split; [apply square_carries|]. split; [exact unit_square_proper|]. split; [apply le_n|]. split; [split; [reflexivity|apply le_n]|]. split; [reflexivity|].
  destruct gl; split; vm_compute; reflexivity.
Qed.

(** C149: sorting and selecting the samples of sets and discretizations. *)
Theorem object_sorted_partial : forall argsort P a xs probs ov oz, given a xs probs ov oz -> proper_measure probs ov -> is_xargsort (rho probs ov) (argsort (rho probs ov)) ->
  exists a' idx xs' probs' ov' oz', sort_object argsort P a = Ok (a', idx) /\ returned a a' xs' probs' ov' oz' /\
  NoDup idx /\ (forall i, In i idx <-> i < length probs /\ (0 < nth i probs 0)%Qc) /\ decreasing_density probs ov idx /\
  selects xs idx xs' /\ selects probs idx probs' /\ selects_opt ov idx ov' /\ selects_opt oz idx oz'.
Proof. exact sort_object_lemma. Qed.
Print Assumptions object_sorted_partial.
Theorem object_selected_partial : forall argsort P percentile a descending xs probs ov oz, given a xs probs ov oz -> proper_measure probs ov -> is_xargsort (rho probs ov) (argsort (rho probs ov)) -> (0 <= percentile)%Qc ->
  exists sorted order num a' xs' probs' ov' oz', sort_object argsort P a = Ok (sorted, if descending : bool then rev order else order) /\
  sample_prob_object argsort P percentile a descending = Ok (num, a', firstn num order) /\ num <= length order /\
  (total probs (firstn num order) <= percentile)%Qc /\ (forall m, num < m -> m <= length order -> (percentile < total probs (firstn m order))%Qc) /\
  returned a a' xs' probs' ov' oz' /\
  selects xs (firstn num order) xs' /\ selects probs (firstn num order) probs' /\ selects_opt ov (firstn num order) ov' /\ selects_opt oz (firstn num order) oz'.
Proof. exact sample_object_lemma. Qed.
Print Assumptions object_selected_partial.
Theorem object_highest_partial : forall argsort P percentile a xs probs ov oz, given a xs probs ov oz -> proper_measure probs ov -> is_xargsort (rho probs ov) (argsort (rho probs ov)) -> (0 <= percentile)%Qc ->
  exists order num a' xs' probs' ov' oz', highest_prob_object argsort P percentile a = Ok (num, a', firstn num order) /\
  all_positive probs order /\ decreasing_density probs ov order /\ longest_within probs percentile order num /\ returned a a' xs' probs' ov' oz' /\
  selects xs (firstn num order) xs' /\ selects probs (firstn num order) probs' /\ selects_opt ov (firstn num order) ov' /\ selects_opt oz (firstn num order) oz'.
Proof. exact highest_object_lemma. Qed.
Print Assumptions object_highest_partial.
Theorem object_lowest_partial : forall argsort P percentile a xs probs ov oz, given a xs probs ov oz -> proper_measure probs ov -> is_xargsort (rho probs ov) (argsort (rho probs ov)) -> (0 <= percentile)%Qc ->
  exists order num a' xs' probs' ov' oz', lowest_prob_object argsort P percentile a = Ok (num, a', firstn num order) /\
  all_positive probs order /\ increasing_density probs ov order /\ longest_within probs percentile order num /\ returned a a' xs' probs' ov' oz' /\
  selects xs (firstn num order) xs' /\ selects probs (firstn num order) probs' /\ selects_opt ov (firstn num order) ov' /\ selects_opt oz (firstn num order) oz'.
Proof. exact lowest_object_lemma. Qed.
Print Assumptions object_lowest_partial.
Theorem object_sort_refuted : forall argsort P a d s o,
  (glob s Probabilities = None -> sort_object argsort P (ASet s) = Raise PyTypeError /\ forall pc b, sample_prob_object argsort P pc (ASet s) b = Raise PyTypeError) /\
  (d_in d = Some s -> d_out d = None -> sort_object argsort P (ADisc d) = Raise PyAttributeError /\ forall pc b, sample_prob_object argsort P pc (ADisc d) b = Raise PyAttributeError) /\
  (d_in d = Some s -> d_out d = Some o -> glob s Probabilities = None -> sort_object argsort P (ADisc d) = Raise PyTypeError /\ forall pc b, sample_prob_object argsort P pc (ADisc d) b = Raise PyTypeError) /\
  (a = AOther -> sort_object argsort P a = Raise BadObject /\ forall pc b, sample_prob_object argsort P pc a b = Raise BadObject).
Proof. exact sort_errors_lemma. Qed.
Print Assumptions object_sort_refuted.
Example object_selected_ex : exists e, five_disc = Ok e /\ given (ADisc e) five five_answer (Some (volume_list MonteCarlo 5)) (Some (map double five)) /\ proper_measure five_answer (Some (volume_list MonteCarlo 5)) /\
  is_xargsort (rho five_answer (Some (volume_list MonteCarlo 5))) (in_order (rho five_answer (Some (volume_list MonteCarlo 5)))) /\
  show_selected (lowest_prob_object in_order 3 (Q2Qc (1 # 3)) (ADisc e)) = Some (3, [[0; 1 # 4; 1 # 3]; [1 # 9; 1 # 9; 1 # 9]; [1 # 5; 1 # 5; 1 # 5]; [0; 1 # 2; 2 # 3]]%Q, [0; 1; 2]).
Proof. exact five_given. Qed.

(** C150: from the samples to the plots. *)
Theorem solution_marginals_1D : forall nn P d o g model w before setter dom dom' pts ys probs b ns, 0 < P -> row_model d o g model -> (forall x, In x pts -> length x = d) -> pts <> [] -> ys <> [] -> length probs = length ys -> nonneg probs ->
  (forall v, w = Given v -> length v = length pts /\ nonneg v) -> (before = false -> w = MonteCarlo) -> d <= length dom -> proper dom -> bins_given b d ns ->
  let q := solution (fun x => nn ys (g x)) probs (combine (points pts) (volume_list w (length pts))) in
  exists e bins marg a, solve nn P model w before setter (values_set d (Some dom) (points pts)) (probability_set o dom' ys probs) = Ok e /\
  calculate_1D P (ADisc e) b = Ok (bins, marg, a) /\ length bins = d /\ length marg = d /\
  forall i ab n, i < d -> nth_error dom i = Some ab -> nth_error ns i = Some n ->
    nth_error bins i = Some (map (bin_edge ab n) (seq 0 (n + 1))) /\
    nth_error marg i = Some (map (fun k => weight_of (combine pts q) (fun x => bin_has ab n k (nth i x 0%Qc))) (seq 0 n)).
Proof. exact solved_1D_lemma. Qed.
Print Assumptions solution_marginals_1D.
Theorem solution_marginals_2D : forall nn P d o g model w before setter dom dom' pts ys probs b ns, 0 < P -> row_model d o g model -> (forall x, In x pts -> length x = d) -> pts <> [] -> ys <> [] -> length probs = length ys -> nonneg probs ->
  (forall v, w = Given v -> length v = length pts /\ nonneg v) -> (before = false -> w = MonteCarlo) -> d <= length dom -> proper dom -> bins_given b d ns -> 2 <= d ->
  let q := solution (fun x => nn ys (g x)) probs (combine (points pts) (volume_list w (length pts))) in
  exists e bins marg a, solve nn P model w before setter (values_set d (Some dom) (points pts)) (probability_set o dom' ys probs) = Ok e /\
  calculate_2D P (ADisc e) b = Ok (bins, marg, a) /\ NoDup (map fst marg) /\ (forall i j, In (i, j) (map fst marg) <-> i < j /\ j < d) /\
  forall i j m ab n ab' n', In ((i, j), m) marg -> nth_error dom i = Some ab -> nth_error ns i = Some n -> nth_error dom j = Some ab' -> nth_error ns j = Some n' ->
    m = map (fun k => map (fun l => weight_of (combine pts q) (fun x => bin_has ab n k (nth i x 0%Qc) && bin_has ab' n' l (nth j x 0%Qc))) (seq 0 n')) (seq 0 n).
Proof. exact solved_2D_lemma. Qed.
Print Assumptions solution_marginals_2D.
Theorem solution_selected : forall argsort percentile nn P d o g model w before setter dom dom' xs ys probs, 0 < P -> row_model d o g model -> xs <> [] -> ys <> [] -> length probs = length ys -> nonneg probs ->
  (forall v, w = Given v -> length v = length xs /\ forall x, In x v -> (0 < x)%Qc) -> (before = false -> w = MonteCarlo) -> (0 <= percentile)%Qc ->
  let v := volume_list w (length xs) in
  let q := solution (fun x => nn ys (g x)) probs (combine xs v) in
  is_xargsort (rho q (Some v)) (argsort (rho q (Some v))) ->
  exists e idx num i o1 xs' q' v' zs', solve nn P model w before setter (values_set d dom xs) (probability_set o dom' ys probs) = Ok e /\
  highest_prob_object argsort P percentile (ADisc e) = Ok (num, ADisc (mk_disc (Some i) (Some o1) None None None None None None None None None None), firstn num idx) /\
  NoDup idx /\ (forall k, In k idx <-> k < length xs /\ (0 < nth k q 0)%Qc) /\ decreasing_density q (Some v) idx /\ num <= length idx /\
  (total q (firstn num idx) <= percentile)%Qc /\ (forall m, num < m -> m <= length idx -> (percentile < total q (firstn m idx))%Qc) /\
  plain_set i d xs' q' (Some v') /\ outputs_only o1 o zs' /\
  selects xs (firstn num idx) xs' /\ selects q (firstn num idx) q' /\ selects v (firstn num idx) v' /\ selects (map g xs) (firstn num idx) zs'.
Proof. exact solved_sample_lemma. Qed.
Print Assumptions solution_selected.
Example solution_ex : row_model 1 1 double doubling /\ points five_points = five /\ (forall x, In x five_points -> length x = 1) /\ proper unit_interval /\ bins_given (BInt 3) 1 [3] /\
  exists e, five_disc = Ok e /\ show_1D (calculate_1D 3 (ADisc e) (BInt 3)) = Some ([[0; 1 # 3; 2 # 3; 1]], [[2 # 9; 1 # 9; 2 # 3]])%Q /\
  show_selected (highest_prob_object in_order 3 (Q2Qc (7 # 9)) (ADisc e)) = Some (3, [[1; 3 # 4; 1 # 3]; [1 # 3; 1 # 3; 1 # 9]; [1 # 5; 1 # 5; 1 # 5]; [2; 3 # 2; 2 # 3]]%Q, [4; 3; 2]).
Proof.
  split; [exact doubling_rows|]. split; [reflexivity|]. split; [intros x [<-|[<-|[<-|[<-|[<-|[]]]]]]; reflexivity|]. split; [intros ab [<-|[]]; discriminate|]. split; [reflexivity|]. exact five_shown.
Qed.
