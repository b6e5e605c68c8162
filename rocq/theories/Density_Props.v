From Coq Require Import ZArith List Arith Bool QArith Qcanon Permutation Lia.
From Verif Require Import Err Num Ext NumPy SampleSet_Model Disc_Model Disc_Examples Inverse_Model Inverse_Spec Density_Model Density_Spec Density_Proofs Density_Examples.
Import ListNotations.
Local Open Scope nat_scope.

(** C151: a density-based inversion of stored samples.  The weight of every sample
    is the ratio of the observed and the predicted density of its cluster. *)
Theorem density_weights : forall gkde P di o oo xs ys zs lo mo w ls ms p q K d, 0 < P -> matching di xs ys lo zs mo w -> used_labels (length ys) (length zs) lo mo = (ls, ms) ->
  stores P d di xs o ys lo oo zs mo -> weights_init (r_out d) = w -> estimated gkde ys ls w zs ms p q -> clusters ls K ->
  exists d' inv, invert_disc gkde P d = Ok (d', inv) /\ sample_weights (r_in d') = Some (map (weight p q) (combine ys ls)) /\ i_weights inv = map (weight p q) (combine ys ls) /\
    length (i_means inv) = K /\ length (i_ratios inv) = K /\ length (i_ptrs inv) = K /\
    (forall j, j < K -> (exists ptr, nth_error (i_ptrs inv) j = Some ptr /\ positions ls j ptr) /\
      (members (combine ys ls) j = [] -> nth_error (i_ratios inv) j = Some None /\ nth_error (i_means inv) j = Some None) /\
      (members (combine ys ls) j <> [] -> exists m, nth_error (i_ratios inv) j = Some (Some (map (ratio p q j) (members (combine ys ls) j))) /\
         nth_error (i_means inv) j = Some (Some m) /\ is_mean (map (ratio p q j) (members (combine ys ls) j)) m)) /\
    stores P d' di xs o ys (Some ls) oo zs (Some ms) /\ updated (r_in d') = updated (r_in d).
Proof. exact weights_lemma. Qed.
Print Assumptions density_weights.
(** The density that the input set then evaluates; every cluster has samples. *)
Theorem density_pdf_partial : forall gkde gkde1 P di o oo xs ys zs lo mo w ls ms p q K f d, 0 < P -> matching di xs ys lo zs mo w -> used_labels (length ys) (length zs) lo mo = (ls, ms) ->
  stores P d di xs o ys lo oo zs mo -> weights_init (r_out d) = w -> estimated gkde ys ls w zs ms p q -> clusters ls K -> estimated_inputs gkde1 di xs ys ls p q f ->
  (forall j, j < K -> members (combine ys ls) j <> []) ->
  exists d', invert_to_kde gkde gkde1 P d = Ok d' /\ sample_weights (r_in d') = Some (map (weight p q) (combine ys ls)) /\
    (forall i x, i < di -> marginal_pdf (r_in d') i x = Ok (mixture ms K (f i) x)) /\
    (forall x, length x = di -> pdf (r_in d') x = Ok (product ms K f x)) /\ (forall x, length x <> di -> pdf (r_in d') x = Raise DimNotMatching).
Proof. exact pdf_lemma. Qed.
Print Assumptions density_pdf_partial.
(** With a label that no sample has the inversion succeeds and no density can be
    evaluated. *)
Theorem density_pdf_refuted : forall gkde gkde1 P di o oo xs ys zs lo mo w ls ms p q K f d j, 0 < P -> matching di xs ys lo zs mo w -> used_labels (length ys) (length zs) lo mo = (ls, ms) ->
  stores P d di xs o ys lo oo zs mo -> weights_init (r_out d) = w -> estimated gkde ys ls w zs ms p q -> clusters ls K -> estimated_inputs gkde1 di xs ys ls p q f ->
  j < K -> members (combine ys ls) j = [] -> exists d', invert_to_kde gkde gkde1 P d = Ok d' /\ forall i x, i < di -> marginal_pdf (r_in d') i x = Raise PyTypeError.
Proof. exact pdf_gap_lemma. Qed.
Print Assumptions density_pdf_refuted.
Theorem density_processes : forall gkde gkde1 P P' di o oo xs ys zs lo mo w ls ms p q K f d d', 0 < P -> 0 < P' -> matching di xs ys lo zs mo w -> used_labels (length ys) (length zs) lo mo = (ls, ms) ->
  stores P d di xs o ys lo oo zs mo -> stores P' d' di xs o ys lo oo zs mo -> weights_init (r_out d) = w -> weights_init (r_out d') = w ->
  estimated gkde ys ls w zs ms p q -> clusters ls K -> estimated_inputs gkde1 di xs ys ls p q f ->
  exists ws m, leaves (invert_to_kde gkde gkde1 P d) ws m /\ leaves (invert_to_kde gkde gkde1 P' d') ws m.
Proof. exact same_lemma. Qed.
Print Assumptions density_processes.
Theorem density_again : forall gkde gkde1 P di o oo xs ys zs lo mo w ls ms p q K f d, 0 < P -> matching di xs ys lo zs mo w -> used_labels (length ys) (length zs) lo mo = (ls, ms) ->
  stores P d di xs o ys lo oo zs mo -> weights_init (r_out d) = w -> estimated gkde ys ls w zs ms p q -> clusters ls K -> estimated_inputs gkde1 di xs ys ls p q f ->
  exists d' ws m, invert_to_kde gkde gkde1 P d = Ok d' /\ leaves (invert_to_kde gkde gkde1 P d) ws m /\ leaves (invert_to_kde gkde gkde1 P d') ws m.
Proof. exact again_lemma. Qed.
Print Assumptions density_again.
Theorem density_renumbered : forall gkde gkde1 P di o oo xs xs' ys ys' zs lo lo' mo ls ls' ms p q K f d d', 0 < P -> order_free gkde -> order_free1 gkde1 ->
  matching di xs ys lo zs mo None -> matching di xs' ys' lo' zs mo None -> used_labels (length ys) (length zs) lo mo = (ls, ms) -> used_labels (length ys') (length zs) lo' mo = (ls', ms) ->
  Permutation (combine (combine xs ys) ls) (combine (combine xs' ys') ls') ->
  stores P d di xs o ys lo oo zs mo -> stores P d' di xs' o ys' lo' oo zs mo -> weights_init (r_out d) = None -> weights_init (r_out d') = None ->
  estimated gkde ys ls None zs ms p q -> clusters ls K -> estimated_inputs gkde1 di xs ys ls p q f ->
  exists e e' ws ws', invert_to_kde gkde gkde1 P d = Ok e /\ invert_to_kde gkde gkde1 P d' = Ok e' /\ sample_weights (r_in e) = Some ws /\ sample_weights (r_in e') = Some ws' /\
    Permutation (combine (combine xs ys) ws) (combine (combine xs' ys') ws') /\
    (forall i x, marginal_pdf (r_in e) i x = marginal_pdf (r_in e') i x) /\ (forall x, pdf (r_in e) x = pdf (r_in e') x).
Proof. exact renumber_lemma. Qed.
Print Assumptions density_renumbered.
(** The observed set is not made global. *)
Theorem density_observed_refuted : forall gkde P di o oo xs ys zs lo w p d, 0 < P -> keeps P (arrays (r_in d)) di (map point_row xs) None -> keeps P (arrays (r_out d)) o ys lo ->
  distributed P (arrays (r_obs d)) oo zs -> matching di xs ys lo zs None w ->
  maps (r_out d) = None -> maps (r_obs d) = None -> weights_init (r_out d) = w -> 2 <= length ys -> 2 <= length zs ->
  gkde ys (option_map (map Fin) w) = Ok p -> invert_disc gkde P d = Raise PyTypeError.
Proof. exact local_observations_lemma. Qed.
Print Assumptions density_observed_refuted.
(** Distributed labels of the outputs and no labels of the observations: the first
    inversion uses one cluster, and any later one the labels. *)
Theorem density_labels_refuted : exists P d d' inv, keeps P (arrays (r_in d)) 1 (map point_row in_points) None /\ keeps P (arrays (r_out d)) 1 out_points (Some out_labels) /\ keeps_global (arrays (r_obs d)) 1 seen None /\
  invert_disc window P d = Ok (d', inv) /\ length (i_means inv) = 1 /\ invert_disc window P d' = Raise PyTypeError /\ invert_to_kde window window1 P d = Raise PyTypeError.
Proof. exact labels_witness. Qed.
Print Assumptions density_labels_refuted.
Example density_ex : matching 1 in_points out_points (Some out_labels) seen (Some seen_labels) None /\
  (forall P dist ldist, stores P (cluster_disc P dist ldist in_points out_points (Some out_labels) None seen (Some seen_labels)) 1 in_points 1 out_points (Some out_labels) 1 seen (Some seen_labels)) /\
  estimated window out_points out_labels None seen seen_labels p2 o2 /\ clusters out_labels 2 /\ (forall j, j < 2 -> members (combine out_points out_labels) j <> []) /\
  estimated_inputs window1 1 in_points out_points out_labels p2 o2 (marginal in_points out_points out_labels p2 o2) /\
  let r := invert_to_kde window window1 3 (cluster_disc 3 true true in_points out_points (Some out_labels) None seen (Some seen_labels)) in
  show_weights r = Some [Some (3 # 2); Some (3 # 2); Some (2 # 3); Some 0; Some (2 # 3)]%Q /\ show_pdf r [0; 2; 3]%Q = Some [Ok (2 # 5); Ok (3 # 10); Ok (3 # 5)]%Q.
Proof.
  split; [exact two_matching|]. split; [intros P dist ldist; apply cluster_stores; right; split; discriminate|]. split; [apply window_estimated, two_clusters|]. split; [exact labels_two|]. split; [exact labels_filled|].
  split; [apply window1_estimated, marginal_two|]. vm_compute. split; reflexivity.
Qed.
Example density_renumbered_ex : order_free window /\ order_free1 window1 /\ matching 1 in_points' out_points' (Some out_labels') seen (Some seen_labels) None /\
  Permutation (combine (combine in_points out_points) out_labels) (combine (combine in_points' out_points') out_labels') /\
  show_weights (invert_to_kde window window1 2 (cluster_disc 2 false false in_points' out_points' (Some out_labels') None seen (Some seen_labels))) = Some [Some (2 # 3); Some (2 # 3); Some (3 # 2); Some (3 # 2); Some 0]%Q.
Proof. split; [exact window_free|]. split; [exact window1_free|]. split; [exact two_matching'|]. split; [exact renumbered|]. vm_compute. reflexivity. Qed.
Example density_gap_ex : matching 1 in_points out_points (Some gap_labels) seen (Some gap_seen) None /\ populated out_points gap_labels seen gap_seen /\ clusters gap_labels 3 /\ members (combine out_points gap_labels) 1 = [] /\
  marginal_ok 1 in_points out_points gap_labels (predicted out_points gap_labels None) (observed seen gap_seen) /\
  let r := invert_to_kde window window1 2 (cluster_disc 2 true false in_points out_points (Some gap_labels) None seen (Some gap_seen)) in
  show_weights r = Some [Some (3 # 2); Some (3 # 2); Some (2 # 3); Some 0; Some (2 # 3)]%Q /\ show_pdf r [0]%Q = Some [Raise PyTypeError].
Proof. exact gap_facts. Qed.
Example density_observed_ex : let d := mk_rdisc (mk_rset (stored 2 true false 1 (map point_row in_points) None) None None None None) (mk_rset (stored 2 true false 1 out_points None) None None None None) (mk_rset (stored 2 true false 1 seen None) None None None None) in
  keeps 2 (arrays (r_in d)) 1 (map point_row in_points) None /\ keeps 2 (arrays (r_out d)) 1 out_points None /\ distributed 2 (arrays (r_obs d)) 1 seen /\ matching 1 in_points out_points None seen None None.
Proof. exact observed_facts. Qed.

(** C152: initial weights.  Those of the output set enter the predicted density
    (density_weights); those of the input set have no effect. *)
Theorem input_initial_weights_refuted : forall gkde P w d, invert_disc gkde P (with_input_weights w d) = rmap (fun r => (with_input_weights w (fst r), snd r)) (invert_disc gkde P d).
Proof. exact input_weights_lemma. Qed.
Print Assumptions input_initial_weights_refuted.
Theorem output_initial_weights : exists P d v e e', weights_init (r_out d) = None /\ length v = length out_points /\
  invert_disc window P d = Ok e /\ invert_disc window P (mk_rdisc (r_in d) (mk_rset (arrays (r_out d)) (maps (r_out d)) (Some v) (sample_weights (r_out d)) (updated (r_out d))) (r_obs d)) = Ok e' /\
  i_weights (snd e) <> i_weights (snd e').
Proof. exact output_weights_witness. Qed.
Print Assumptions output_initial_weights.
Example initial_weights_ex : matching 1 in_points out_points (Some out_labels) seen (Some seen_labels) (Some some_weights) /\
  estimated window out_points out_labels (Some some_weights) seen seen_labels (predicted out_points out_labels (Some some_weights)) o2 /\
  show_weights (invert_to_kde window window1 2 (cluster_disc 2 true false in_points out_points (Some out_labels) (Some some_weights) seen (Some seen_labels))) = Some [Some (4 # 3); Some (4 # 3); Some (2 # 3); Some 0; Some (2 # 3)]%Q /\
  show_weights (invert_to_kde window window1 2 (with_input_weights (Some some_weights) (cluster_disc 2 true false in_points out_points (Some out_labels) None seen (Some seen_labels)))) = Some [Some (3 # 2); Some (3 # 2); Some (2 # 3); Some 0; Some (2 # 3)]%Q.
Proof. split; [exact weighted_matching|]. split; [apply window_estimated, two_clusters|]. vm_compute. split; reflexivity. Qed.
