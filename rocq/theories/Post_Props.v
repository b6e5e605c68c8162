From Coq Require Import List Arith QArith Qcanon.
From Verif Require Import Err Num Ext Show Post_Model Post_Spec Post_Proofs Post_Examples.
Import ListNotations.
Local Open Scope nat_scope.

(** C46: true unless a sample has probability and volume zero. *)
Theorem sort_by_rho_partial : forall (X Y : Type) perm (s : pset X Y),
  length (p_values s) = length (p_prob s) -> (forall v, p_vol s = Some v -> length v = length (p_prob s)) -> (forall d, p_data s = Some d -> length d = length (p_prob s)) ->
  (forall p, In p (p_prob s) -> (0 <= p)%Qc) -> (forall v x, p_vol s = Some v -> In x v -> (0 <= x)%Qc) ->
  (forall v i, p_vol s = Some v -> i < length (p_prob s) -> nth i v 0%Qc = 0%Qc -> nth i (p_prob s) 0%Qc <> 0%Qc) ->
  is_xargsort (rho (p_prob s) (p_vol s)) perm ->
  exists out idx, sort_by_rho perm s = Ok (out, idx) /\ NoDup idx /\ (forall i, In i idx <-> i < length (p_prob s) /\ (0 < nth i (p_prob s) 0)%Qc) /\
  decreasing_density (p_prob s) (p_vol s) idx /\
  selects (p_values s) idx (p_values out) /\ selects (p_prob s) idx (p_prob out) /\ selects_opt (p_vol s) idx (p_vol out) /\ selects_opt (p_data s) idx (p_data out).
Proof. exact sort_lemma. Qed.
Print Assumptions sort_by_rho_partial.
Example sort_by_rho_ex : is_xargsort (rho (p_prob ex_set) (p_vol ex_set)) [1; 2; 0] /\
  exists out, sort_by_rho [1; 2; 0] ex_set = Ok (out, [0; 2]) /\ p_values out = [10; 30] /\ p_data out = Some [7; 9].
Proof. split; [exact ex_set_argsort | eexists; repeat split; vm_compute; reflexivity]. Qed.
Theorem sort_by_rho_refuted : forall (X Y : Type) perm (s : pset X Y) v k out idx, p_vol s = Some v -> length v = length (p_prob s) ->
  is_xargsort (rho (p_prob s) (p_vol s)) perm ->
  k < length (p_prob s) -> nth k (p_prob s) 0%Qc = 0%Qc -> nth k v 0%Qc = 0%Qc -> sort_by_rho perm s = Ok (out, idx) ->
  forall i r, idx = i :: r -> nth i (p_prob s) 0%Qc = 0%Qc.
Proof. exact sort_nan_lemma. Qed.
Print Assumptions sort_by_rho_refuted.
Example sort_by_rho_refuted_ex : is_xargsort (rho (p_prob nan_set) (p_vol nan_set)) [0; 1] /\
  exists out, sort_by_rho [0; 1] nan_set = Ok (out, [1]) /\ p_values out = [20] /\ p_prob out = [0%Qc].
Proof. split; [exact nan_set_argsort | eexists; repeat split; vm_compute; reflexivity]. Qed.

(** C47 *)
Theorem sample_prob_partial : forall (X Y : Type) perm percentile (s : pset X Y) (descending : bool),
  length (p_values s) = length (p_prob s) -> (forall v, p_vol s = Some v -> length v = length (p_prob s)) -> (forall d, p_data s = Some d -> length d = length (p_prob s)) ->
  (forall p, In p (p_prob s) -> (0 <= p)%Qc) -> (forall v x, p_vol s = Some v -> In x v -> (0 <= x)%Qc) ->
  (forall v i, p_vol s = Some v -> i < length (p_prob s) -> nth i v 0%Qc = 0%Qc -> nth i (p_prob s) 0%Qc <> 0%Qc) ->
  is_xargsort (rho (p_prob s) (p_vol s)) perm -> (0 <= percentile)%Qc ->
  exists sorted idx num out, sort_by_rho perm s = Ok (sorted, idx) /\
  let order := if descending then rev idx else idx in
  sample_prob perm percentile s true descending = Ok (num, out, firstn num order) /\ num <= length order /\
  (total (p_prob s) (firstn num order) <= percentile)%Qc /\
  (forall m, num < m -> m <= length order -> (percentile < total (p_prob s) (firstn m order))%Qc) /\
  selects (p_values s) (firstn num order) (p_values out) /\ selects (p_prob s) (firstn num order) (p_prob out) /\
  selects_opt (p_vol s) (firstn num order) (p_vol out) /\ selects_opt (p_data s) (firstn num order) (p_data out).
Proof. exact sample_prob_lemma. Qed.
Print Assumptions sample_prob_partial.
Theorem sample_highest_prob_partial : forall (X Y : Type) perm percentile (s : pset X Y),
  length (p_values s) = length (p_prob s) -> (forall v, p_vol s = Some v -> length v = length (p_prob s)) -> (forall d, p_data s = Some d -> length d = length (p_prob s)) ->
  (forall p, In p (p_prob s) -> (0 <= p)%Qc) -> (forall v x, p_vol s = Some v -> In x v -> (0 <= x)%Qc) ->
  (forall v i, p_vol s = Some v -> i < length (p_prob s) -> nth i v 0%Qc = 0%Qc -> nth i (p_prob s) 0%Qc <> 0%Qc) ->
  is_xargsort (rho (p_prob s) (p_vol s)) perm -> (0 <= percentile)%Qc ->
  exists order num out, sample_highest_prob perm percentile s true = Ok (num, out, firstn num order) /\
  all_positive (p_prob s) order /\ decreasing_density (p_prob s) (p_vol s) order /\ longest_within (p_prob s) percentile order num /\
  selects (p_values s) (firstn num order) (p_values out) /\ selects (p_prob s) (firstn num order) (p_prob out) /\
  selects_opt (p_vol s) (firstn num order) (p_vol out) /\ selects_opt (p_data s) (firstn num order) (p_data out).
Proof. exact highest_lemma. Qed.
Print Assumptions sample_highest_prob_partial.
Theorem sample_lowest_prob_partial : forall (X Y : Type) perm percentile (s : pset X Y),
  length (p_values s) = length (p_prob s) -> (forall v, p_vol s = Some v -> length v = length (p_prob s)) -> (forall d, p_data s = Some d -> length d = length (p_prob s)) ->
  (forall p, In p (p_prob s) -> (0 <= p)%Qc) -> (forall v x, p_vol s = Some v -> In x v -> (0 <= x)%Qc) ->
  (forall v i, p_vol s = Some v -> i < length (p_prob s) -> nth i v 0%Qc = 0%Qc -> nth i (p_prob s) 0%Qc <> 0%Qc) ->
  is_xargsort (rho (p_prob s) (p_vol s)) perm -> (0 <= percentile)%Qc ->
  exists order num out, sample_lowest_prob perm percentile s true = Ok (num, out, firstn num order) /\
  all_positive (p_prob s) order /\ increasing_density (p_prob s) (p_vol s) order /\ longest_within (p_prob s) percentile order num /\
  selects (p_values s) (firstn num order) (p_values out) /\ selects (p_prob s) (firstn num order) (p_prob out) /\
  selects_opt (p_vol s) (firstn num order) (p_vol out) /\ selects_opt (p_data s) (firstn num order) (p_data out).
Proof. exact lowest_lemma. Qed.
Print Assumptions sample_lowest_prob_partial.
Example sample_prob_ex : exists out, sample_lowest_prob [1; 2; 0] (Q2Qc (3 # 4)) ex_set true = Ok (1, out, [2]) /\ p_values out = [30].
Proof. eexists; split; vm_compute; reflexivity. Qed.
Theorem sample_prob_unsorted_refuted : forall (X Y : Type) perm percentile (s : pset X Y) descending, sample_prob perm percentile s false descending = Raise PyNameError.
Proof. exact sample_prob_unsorted_lemma. Qed.
Print Assumptions sample_prob_unsorted_refuted.

(** C48 *)
Theorem marginal_1D_conserves : forall domain nbins blocks i, (fst (nth i domain (0, 0)) <= snd (nth i domain (0, 0)))%Qc -> 0 < nth i nbins 0 ->
  length (marginal_1D domain nbins blocks i) = nth i nbins 0 /\
  qsum (marginal_1D domain nbins blocks i) = qsum (map snd (filter (fun e => in_box1 (nth i domain (0%Qc, 0%Qc)) (nth i (fst e) 0%Qc)) (concat blocks))) /\
  marginal_1D domain nbins blocks i = marginal_1D domain nbins [concat blocks] i /\
  ((forall e, In e (concat blocks) -> (0 <= snd e)%Qc) -> forall x, In x (marginal_1D domain nbins blocks i) -> (0 <= x)%Qc).
Proof. exact marginal_1D_lemma. Qed.
Print Assumptions marginal_1D_conserves.
Theorem marginal_2D_sums_to_1D : forall domain nbins blocks i j, (fst (nth j domain (0, 0)) <= snd (nth j domain (0, 0)))%Qc -> 0 < nth j nbins 0 ->
  map qsum (marginal_2D domain nbins blocks i j) = marginal_1D domain nbins [filter (fun e => in_box1 (nth j domain (0%Qc, 0%Qc)) (nth j (fst e) 0%Qc)) (concat blocks)] i /\
  marginal_2D domain nbins blocks i j = marginal_2D domain nbins [concat blocks] i j /\
  ((forall e, In e (concat blocks) -> (0 <= snd e)%Qc) -> forall row x, In row (marginal_2D domain nbins blocks i j) -> In x row -> (0 <= x)%Qc).
Proof. exact marginal_2D_lemma. Qed.
Print Assumptions marginal_2D_sums_to_1D.
Theorem marginal_1D_bins : forall domain nbins blocks i k, k < nth i nbins 0 ->
  nth_error (marginal_1D domain nbins blocks i) k =
  Some (qsum (map snd (filter (fun e => bin_has (nth i domain (0%Qc, 0%Qc)) (nth i nbins 0) k (nth i (fst e) 0%Qc)) (concat blocks)))).
Proof. exact marginal_1D_bins_lemma. Qed.
Print Assumptions marginal_1D_bins.
Theorem marginal_2D_bins : forall domain nbins blocks i j k l, k < nth i nbins 0 -> l < nth j nbins 0 ->
  exists row, nth_error (marginal_2D domain nbins blocks i j) k = Some row /\ length row = nth j nbins 0 /\
  nth_error row l = Some (qsum (map snd (filter (fun e => bin_has (nth i domain (0%Qc, 0%Qc)) (nth i nbins 0) k (nth i (fst e) 0%Qc) && bin_has (nth j domain (0%Qc, 0%Qc)) (nth j nbins 0) l (nth j (fst e) 0%Qc)) (concat blocks)))).
Proof. exact marginal_2D_bins_lemma. Qed.
Print Assumptions marginal_2D_bins.
Example marginal_ex : marginal_1D [(0%Qc, 1%Qc); (0%Qc, qn 2)] [2; 1] [[([Q2Qc (1 # 2); 1%Qc], Q2Qc (1 # 4))]; [([0%Qc; 1%Qc], Q2Qc (3 # 4)); ([qn 5; 1%Qc], 1%Qc)]] 0 = [Q2Qc (3 # 4); Q2Qc (1 # 4)] /\
  marginal_2D [(0%Qc, 1%Qc); (0%Qc, qn 2)] [2; 1] [[([Q2Qc (1 # 2); 1%Qc], Q2Qc (1 # 4))]; [([0%Qc; 1%Qc], Q2Qc (3 # 4))]] 0 1 = [[Q2Qc (3 # 4)]; [Q2Qc (1 # 4)]].
Proof. split; qc_compute. Qed.
