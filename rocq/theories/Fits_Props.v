From Coq Require Import ZArith List Arith Bool QArith Qcanon Lia.
From Verif Require Import Err Num Ext NumPy SampleSet_Model Disc_Model Disc_Examples Inverse_Model Inverse_Spec Density_Model Density_Spec Density_Examples Fits_Model Fits_Spec Fits_Proofs Fits5_Proofs Fits_Examples.
Import ListNotations.
Local Open Scope nat_scope.

(** C158: the Gaussian mixture of stored samples.  Its parts are the parts of the
    observations, its Gaussians have the moments of the weighted samples of their
    clusters; all this where the weights are numbers and do not cancel. *)
Theorem gmm_moments_partial : forall gkde P d di o oo xs ys zs lo mo w ls ms p q K, inversion gkde P d di o oo xs ys zs lo mo w ls ms p q K ->
  exists d' m, invert_to_gmm gkde P d = Ok (d', m) /\ gshares m = map (share ms) (seq 0 K) /\ length (gaussians m) = K /\
    sample_weights (r_in d') = Some (map (weight p q) (combine ys ls)) /\ stores P d' di xs o ys (Some ls) oo zs (Some ms) /\
    forall j, j < K -> (members (combine ys ls) j = [] -> nth_error (gaussians m) j = Some None) /\
      (members (combine ys ls) j <> [] -> ratios_defined ys ls p j -> mass (cluster_points xs ys ls p q j) <> 0%Qc ->
        exists mu c, nth_error (gaussians m) j = Some (Some (mk_normal (map Fin mu) (map (map Fin) c))) /\ is_moments di (cluster_points xs ys ls p q j) mu c).
Proof. exact gmm_moments_lemma. Qed.
Print Assumptions gmm_moments_partial.
(** Otherwise the moments are nan, and the inversion succeeds. *)
Theorem gmm_undefined_refuted : forall gkde P d di o oo xs ys zs lo mo w ls ms p q K j, inversion gkde P d di o oo xs ys zs lo mo w ls ms p q K ->
  j < K -> members (combine ys ls) j <> [] -> ratios_useless ys ls p q j ->
  exists d' m, invert_to_gmm gkde P d = Ok (d', m) /\ nth_error (gaussians m) j = Some (Some (mk_normal (repeat NaN di) (repeat (repeat NaN di) di))).
Proof. exact gmm_undefined_lemma. Qed.
Print Assumptions gmm_undefined_refuted.
(** The density and its marginals, if every cluster has samples. *)
Theorem gmm_pdf_partial : forall gkde density density1 P d di o oo xs ys zs lo mo w ls ms p q K, inversion gkde P d di o oo xs ys zs lo mo w ls ms p q K -> (forall j, j < K -> members (combine ys ls) j <> []) ->
  exists d' m, invert_to_gmm gkde P d = Ok (d', m) /\ (forall x, length x <> di -> gmm_pdf density di m x = Raise DimNotMatching) /\
    (forall x f, length x = di -> (forall j g, nth_error (gaussians m) j = Some g -> density g x = Ok (f j)) -> gmm_pdf density di m x = Ok (qsum (map (fun j => share ms j * f j) (seq 0 K)))%Qc) /\
    forall i x f, i < di -> (forall j g mu row v, nth_error (gaussians m) j = Some (Some g) -> nth_error (n_mean g) i = Some mu -> nth_error (n_cov g) i = Some row -> nth_error row i = Some v -> density1 mu v x = Ok (f j)) ->
      gmm_marginal_pdf density1 m i x = Ok (qsum (map (fun j => share ms j * f j) (seq 0 K)))%Qc.
Proof. exact gmm_pdf_lemma. Qed.
Print Assumptions gmm_pdf_partial.
Theorem gmm_gap_refuted : forall gkde density1 P d di o oo xs ys zs lo mo w ls ms p q K j, inversion gkde P d di o oo xs ys zs lo mo w ls ms p q K -> j < K -> members (combine ys ls) j = [] ->
  (forall mu v x, exists y, density1 mu v x = Ok y) -> exists d' m, invert_to_gmm gkde P d = Ok (d', m) /\ forall i x, i < di -> gmm_marginal_pdf density1 m i x = Raise PyTypeError.
Proof. exact gmm_gap_lemma. Qed.
Print Assumptions gmm_gap_refuted.
(** On other numbers of processes and a second time. *)
Theorem gmm_processes : forall gkde P P' d e di o oo xs ys zs lo mo w ls ms p q K, inversion gkde P d di o oo xs ys zs lo mo w ls ms p q K -> inversion gkde P' e di o oo xs ys zs lo mo w ls ms p q K ->
  exists d' d'' e' m, invert_to_gmm gkde P d = Ok (d', m) /\ invert_to_gmm gkde P' e = Ok (e', m) /\ invert_to_gmm gkde P d' = Ok (d'', m).
Proof. exact gmm_processes_lemma. Qed.
Print Assumptions gmm_processes.
Example two_gaussians :
  inversion window 2 (fit_disc 2 in_points out_points out_labels seen seen_labels) 1 1 1 in_points out_points seen (Some out_labels) (Some seen_labels) None out_labels seen_labels p2 o2 2 /\
  full out_points out_labels p2 2 /\ show_m (invert_to_gmm window 2 (fit_disc 2 in_points out_points out_labels seen seen_labels)) =
    Ok ([Some ([Some (1 # 4)], [[Some (1 # 16)]]); Some ([Some 3], [[Some 1]])], [2 # 5; 3 # 5])%Q.
Proof. split; [apply two_example; lia|]. split; [exact two_full|]. vm_compute. reflexivity. Qed.
Example far_gaussians :
  inversion window 2 (fit_disc 2 in_points out_points out_labels far_seen seen_labels) 1 1 1 in_points out_points far_seen (Some out_labels) (Some seen_labels) None out_labels seen_labels
    (predicted out_points out_labels None) (observed far_seen seen_labels) 2 /\
  (forall j, j < 2 -> ratios_useless out_points out_labels (predicted out_points out_labels None) (observed far_seen seen_labels) j) /\
  show_m (invert_to_gmm window 2 (fit_disc 2 in_points out_points out_labels far_seen seen_labels)) = Ok ([Some ([None], [[None]]); Some ([None], [[None]])], [2 # 5; 3 # 5])%Q.
Proof. split; [apply far_example; lia|]. split; [exact far_useless|]. vm_compute. reflexivity. Qed.
Example gap_gaussians :
  inversion window 2 (fit_disc 2 in_points out_points gap_labels seen gap_seen) 1 1 1 in_points out_points seen (Some gap_labels) (Some gap_seen) None gap_labels gap_seen
    (predicted out_points gap_labels None) (observed seen gap_seen) 3 /\ members (combine out_points gap_labels) 1 = [] /\ (forall mu v x, exists y, any_density1 mu v x = Ok y) /\
  show_m (invert_to_gmm window 2 (fit_disc 2 in_points out_points gap_labels seen gap_seen)) = Ok ([Some ([Some (1 # 4)], [[Some (1 # 16)]]); None; Some ([Some 3], [[Some 1]])], [2 # 5; 0; 3 # 5])%Q.
Proof. split; [apply gap_example; lia|]. split; [reflexivity|]. split; [intros [m| | |] v x; eexists; reflexivity|]. vm_compute. reflexivity. Qed.

(** C159: a single Gaussian and a random variable.  They are fitted to all samples,
    weighted by ratio and part of the observations. *)
Theorem gaussian_moments_partial : forall gkde P d di o oo xs ys zs lo mo w ls ms p q K, inversion gkde P d di o oo xs ys zs lo mo w ls ms p q K -> full ys ls p K -> mass (all_points xs ys ls ms p q) <> 0%Qc ->
  exists d' mu c, invert_to_multivariate_gaussian gkde P d = Ok (d', mk_gmm [Some (mk_normal (map Fin mu) (map (map Fin) c))] [1%Qc]) /\ is_moments di (all_points xs ys ls ms p q) mu c /\
    sample_weights (r_in d') = Some (map (weight p q) (combine ys ls)) /\ stores P d' di xs o ys (Some ls) oo zs (Some ms).
Proof. exact gaussian_moments_lemma. Qed.
Print Assumptions gaussian_moments_partial.
(** Every cluster counts by its sum of ratios; if these sums agree, mean and
    covariance are those of the mixture. *)
Theorem gaussian_mixture_partial : forall di xs ys ls ms p q K m c mj cj, clusters ls K ->
  is_moments di (all_points xs ys ls ms p q) m c -> (forall j, j < K -> is_moments di (cluster_points xs ys ls p q j) (mj j) (cj j)) ->
  (forall i, i < di -> (axis i m * qsum (map (fun j => share ms j * mass (cluster_points xs ys ls p q j)) (seq 0 K)))%Qc = qsum (map (fun j => share ms j * mass (cluster_points xs ys ls p q j) * axis i (mj j))%Qc (seq 0 K))) /\
  ((exists S, S <> 0%Qc /\ forall j, j < K -> mass (cluster_points xs ys ls p q j) = S) -> labelled ms K ->
    (forall i, i < di -> axis i m = mixture_mean ms K mj i) /\ forall a b, a < di -> b < di -> entry c a b = mixture_cov ms K mj cj a b).
Proof. exact gaussian_represents_lemma. Qed.
Print Assumptions gaussian_mixture_partial.
(** In general they are not. *)
Theorem gaussian_mixture_refuted : exists P d d' mu c mj cj,
  inversion window P d 1 1 1 in_points out_points seen (Some out_labels) (Some seen_labels) None out_labels seen_labels p2 o2 2 /\ full out_points out_labels p2 2 /\ labelled seen_labels 2 /\
  (forall j, j < 2 -> is_moments 1 (cluster_points in_points out_points out_labels p2 o2 j) (mj j) (cj j)) /\
  invert_to_multivariate_gaussian window P d = Ok (d', mk_gmm [Some (mk_normal (map Fin mu) (map (map Fin) c))] [1%Qc]) /\ axis 0 mu <> mixture_mean seen_labels 2 mj 0.
Proof. exact gaussian_witness. Qed.
Print Assumptions gaussian_mixture_refuted.
Theorem gaussian_gap_refuted : forall gkde P d di o oo xs ys zs lo mo w ls ms p q K j num, inversion gkde P d di o oo xs ys zs lo mo w ls ms p q K -> j < K -> members (combine ys ls) j = [] ->
  invert_to_multivariate_gaussian gkde P d = Raise PyTypeError /\ fit_data gkde num P d = Raise PyTypeError.
Proof. exact gaussian_gap_lemma. Qed.
Print Assumptions gaussian_gap_refuted.
(** The data for the fit of a random variable: copies of the input samples, as many
    as the nearest integers to their parts of num. *)
Theorem fit_copies_partial : forall gkde P d di o oo xs ys zs lo mo w ls ms p q K num, inversion gkde P d di o oo xs ys zs lo mo w ls ms p q K -> full ys ls p K ->
  (forall e, In e (all_points xs ys ls ms p q) -> 0 <= snd e)%Qc -> mass (all_points xs ys ls ms p q) <> 0%Qc ->
  exists d' counts, fit_data gkde num P d = Ok (d', map (fun i => map (axis i) (copies xs counts)) (seq 0 di)) /\
    Forall2 (fun e c => nearest (qn num * snd e / mass (all_points xs ys ls ms p q)) (Z.of_nat c)) (all_points xs ys ls ms p q) counts /\
    sample_weights (r_in d') = Some (map (weight p q) (combine ys ls)) /\ stores P d' di xs o ys (Some ls) oo zs (Some ms).
Proof. exact fit_copies_lemma. Qed.
Print Assumptions fit_copies_partial.
Theorem fit_undefined_refuted : forall gkde P d di o oo xs ys zs lo mo w ls ms p q K num, inversion gkde P d di o oo xs ys zs lo mo w ls ms p q K -> (forall j, j < K -> members (combine ys ls) j <> []) ->
  (exists j y, j < K /\ In y (members (combine ys ls) j) /\ p j y = 0%Qc) \/ (full ys ls p K /\ mass (all_points xs ys ls ms p q) = 0%Qc) ->
  fit_data gkde num P d = Raise PyValueError.
Proof. exact fit_undefined_lemma. Qed.
Print Assumptions fit_undefined_refuted.
Example even_gaussian :
  inversion window 2 (fit_disc 2 even_in even_out even_labels even_seen even_seen_labels) 1 1 1 even_in even_out even_seen (Some even_labels) (Some even_seen_labels) None even_labels even_seen_labels even_p even_o 2 /\
  full even_out even_labels even_p 2 /\ labelled even_seen_labels 2 /\ (exists S, S <> 0%Qc /\ forall j, j < 2 -> mass (cluster_points even_in even_out even_labels even_p even_o j) = S) /\
  (forall e, In e (all_points even_in even_out even_labels even_seen_labels even_p even_o) -> 0 <= snd e)%Qc /\ mass (all_points even_in even_out even_labels even_seen_labels even_p even_o) <> 0%Qc /\
  show_m (invert_to_multivariate_gaussian window 2 (fit_disc 2 even_in even_out even_labels even_seen even_seen_labels)) = Ok ([Some ([Some (19 # 10)], [[Some (61 # 25)]])], [1])%Q /\
  show_cols (fit_data window 10 2 (fit_disc 2 even_in even_out even_labels even_seen even_seen_labels)) = Ok [[0; 0; 1 # 2; 1 # 2; 2; 2; 2; 4; 4; 4]]%Q.
Proof.
  split; [apply even_example; lia|]. split; [exact even_full|]. split; [exact even_labelled|]. split; [exact even_masses|]. split; [exact even_nonneg|]. split; [exact even_mass|]. split; vm_compute; reflexivity.
Qed.
Example far_fit : (forall j, j < 2 -> members (combine out_points out_labels) j <> []) /\ full out_points out_labels (predicted out_points out_labels None) 2 /\
  mass (all_points in_points out_points out_labels seen_labels (predicted out_points out_labels None) (observed far_seen seen_labels)) = 0%Qc.
Proof. split; [exact labels_filled|]. split; [exact two_full|exact far_mass]. Qed.

(** C160: rejection sampling on P processes.  Every process keeps samples by its own
    numbers and holds its block of what it kept. *)
Theorem rejection_ranks_partial : forall gkde P d di o oo xs ys zs lo mo w ls ms p q K draws, inversion gkde P d di o oo xs ys zs lo mo w ls ms p q K -> 0 < K -> full ys ls p K ->
  (forall j, j < K -> exists y, In y (members (combine ys ls) j) /\ (0 < quotient p q j y)%Qc) ->
  (forall rank j, rank < P -> j < K -> uniform_numbers (draws rank j) (length (members (combine ys ls) j))) ->
  exists d' hs L, invert_rejection_sampling gkde P draws d = Ok (d', hs) /\ length hs = P /\ (forall j, j < K -> is_max (map snd (cluster_points xs ys ls p q j)) (L j)) /\
    sample_weights (r_in d') = Some (map (weight p q) (combine ys ls)) /\ stores P d' di xs o ys (Some ls) oo zs (Some ms) /\
    forall rank h, nth_error hs rank = Some h ->
      let vs := concat (map (fun j => kept (L j) (cluster_points xs ys ls p q j) (draws rank j)) (seq 0 K)) in
      vs <> [] /\ (forall x, In x vs -> In x xs) /\ h_global h = map point_row vs /\ h_probs h = repeat (Num (1 / qn (length vs))%Qc) (length vs) /\ tight di vs (h_domain h) /\
      nth_error (array_split (h_global h) P) rank = Some (h_local h) /\ nth_error (array_split (seq 0 (length vs)) P) rank = Some (h_index h).
Proof. exact rejection_ranks_lemma. Qed.
Print Assumptions rejection_ranks_partial.
(** With the same numbers on all processes it is one sample set in P blocks. *)
Theorem rejection_processes_partial : forall gkde P d di o oo xs ys zs lo mo w ls ms p q K draws, inversion gkde P d di o oo xs ys zs lo mo w ls ms p q K -> 0 < K -> full ys ls p K ->
  (forall j, j < K -> exists y, In y (members (combine ys ls) j) /\ (0 < quotient p q j y)%Qc) ->
  (forall j, j < K -> uniform_numbers (draws j) (length (members (combine ys ls) j))) ->
  exists d' hs vs, invert_rejection_sampling gkde P (fun _ => draws) d = Ok (d', hs) /\ vs <> [] /\ (forall x, In x vs -> In x xs) /\ Forall (fun h => h_global h = map point_row vs) hs /\ concat (map h_local hs) = map point_row vs /\
    concat (map h_index hs) = seq 0 (length vs).
Proof. exact rejection_processes_lemma. Qed.
Print Assumptions rejection_processes_partial.
(** With different numbers the global arrays differ, and a sample can belong to two
    blocks. *)
Theorem rejection_processes_refuted : exists P d draws d' hs,
  inversion window P d 1 1 1 in_points out_points mixed_seen (Some out_labels) (Some seen_labels) None out_labels seen_labels mixed_p mixed_o 2 /\ full out_points out_labels mixed_p 2 /\
  (forall rank j, j < 2 -> uniform_numbers (draws rank j) (length (members (combine out_points out_labels) j))) /\ NoDup in_points /\
  invert_rejection_sampling window P draws d = Ok (d', hs) /\ ~ NoDup (concat (map h_local hs)) /\ exists h h', In h hs /\ In h' hs /\ length (h_global h) <> length (h_global h').
Proof. exact rejection_witness. Qed.
Print Assumptions rejection_processes_refuted.
Example mixed_blocks :
  inversion window 2 (fit_disc 2 in_points out_points out_labels mixed_seen seen_labels) 1 1 1 in_points out_points mixed_seen (Some out_labels) (Some seen_labels) None out_labels seen_labels mixed_p mixed_o 2 /\
  full out_points out_labels mixed_p 2 /\ (forall j, j < 2 -> exists y, In y (members (combine out_points out_labels) j) /\ (0 < quotient mixed_p mixed_o j y)%Qc) /\
  (forall j, j < 2 -> uniform_numbers (unequal 1 j) (length (members (combine out_points out_labels) j))) /\
  map (fun h => (map shown (h_global h), map shown (h_local h))) (snd mixed_run) = [([3; 2; 4], [3; 2]); ([0; 1 # 2; 3; 2; 4], [2; 4])]%Q.
Proof. split; [apply mixed_example; lia|]. split; [exact mixed_full|]. split; [exact mixed_positive|]. split; [intros j; apply unequal_ok|exact mixed_shown]. Qed.
