From Coq Require Import ZArith List Arith Bool QArith Qcanon Lia.
From Verif Require Import Err Num Ext NumPy SampleSet_Model Disc_Model Disc_Examples Inverse_Model Inverse_Spec Density_Model Density_Spec Density_Proofs Density_Examples Fits_Model Learned_Spec Learned_Proofs Learned_Examples.
Import ListNotations.
Local Open Scope nat_scope.

(** C161: inversions of learned quantities.  Labels and maps determine the learned
    value of every sample. *)
Theorem learned_values : forall A (ls : list Z) (maps : list (list A)), (forall l, In l ls -> (0 <= l < Z.of_nat (length maps))%Z) ->
  (forall j m, nth_error maps j = Some m -> length m = count_label ls j) -> exists ! ys, parted ys ls maps.
Proof. exact @learned_values_lemma. Qed.
Print Assumptions learned_values.
Example learned_values_ex : (forall l, In l out_labels -> (0 <= l < Z.of_nat (length out_maps))%Z) /\ (forall j m, nth_error out_maps j = Some m -> length m = count_label out_labels j).
Proof. split; [intros l H; repeat (destruct H as [<-|H]; [cbn; lia|]); destruct H|]. intros [|[|[|j]]] m E; cbn in E; try discriminate; injection E as <-; reflexivity. Qed.
(** With two clusters or more the weights are the ratios at the learned values. *)
Theorem learned_weights_partial : forall gkde P di o oo K xs ys zs ls ms pm om p q d v, 0 < P -> 2 <= K -> twins P d v di o oo K xs ys zs ls ms pm om -> estimated gkde ys ls (weights_init (r_out d)) zs ms p q ->
  exists d' inv, invert_disc gkde P d = Ok (d', inv) /\ sample_weights (r_in d') = Some (map (weight p q) (combine ys ls)) /\ i_weights inv = map (weight p q) (combine ys ls) /\ length (i_means inv) = K.
Proof. exact learned_weights_lemma. Qed.
Print Assumptions learned_weights_partial.
(** All results are those for the same values stored in the usual way, and so are all
    exceptions. *)
Theorem learned_kde_partial : forall gkde P di o oo K xs ys zs ls ms pm om, 0 < P -> 2 <= K -> forall gkde1 d v, twins P d v di o oo K xs ys zs ls ms pm om ->
  rmap r_in (invert_to_kde gkde gkde1 P d) = rmap r_in (invert_to_kde gkde gkde1 P v).
Proof. exact twin_kde. Qed.
Print Assumptions learned_kde_partial.
Theorem learned_gmm_partial : forall gkde P di o oo K xs ys zs ls ms pm om, 0 < P -> 2 <= K -> forall d v, twins P d v di o oo K xs ys zs ls ms pm om ->
  rmap (fun r => (r_in (fst r), snd r)) (invert_to_gmm gkde P d) = rmap (fun r => (r_in (fst r), snd r)) (invert_to_gmm gkde P v).
Proof. exact twin_gmm. Qed.
Print Assumptions learned_gmm_partial.
Theorem learned_gaussian_partial : forall gkde P di o oo K xs ys zs ls ms pm om, 0 < P -> 2 <= K -> forall d v, twins P d v di o oo K xs ys zs ls ms pm om ->
  rmap (fun r => (r_in (fst r), snd r)) (invert_to_multivariate_gaussian gkde P d) = rmap (fun r => (r_in (fst r), snd r)) (invert_to_multivariate_gaussian gkde P v).
Proof. exact twin_gaussian. Qed.
Print Assumptions learned_gaussian_partial.
Theorem learned_fit_partial : forall gkde P di o oo K xs ys zs ls ms pm om, 0 < P -> 2 <= K -> forall num d v, twins P d v di o oo K xs ys zs ls ms pm om ->
  rmap (fun r => (r_in (fst r), snd r)) (fit_data gkde num P d) = rmap (fun r => (r_in (fst r), snd r)) (fit_data gkde num P v).
Proof. exact twin_data. Qed.
Print Assumptions learned_fit_partial.
Theorem learned_rejection_partial : forall gkde P di o oo K xs ys zs ls ms pm om, 0 < P -> 2 <= K -> forall draws d v, twins P d v di o oo K xs ys zs ls ms pm om ->
  rmap (fun r => (r_in (fst r), snd r)) (invert_rejection_sampling gkde P draws d) = rmap (fun r => (r_in (fst r), snd r)) (invert_rejection_sampling gkde P draws v).
Proof. exact twin_rejection. Qed.
Print Assumptions learned_rejection_partial.
Example learned_ex : (forall P local, twins P (learned_disc P local None out_labels seen_labels out_maps seen_maps) (value_disc P None) 1 1 1 2 in_points out_points seen out_labels seen_labels out_maps seen_maps) /\
  (forall P local, twins P (learned_disc P local (Some some_weights) out_labels seen_labels out_maps seen_maps) (value_disc P (Some some_weights)) 1 1 1 2 in_points out_points seen out_labels seen_labels out_maps seen_maps) /\
  estimated window out_points out_labels None seen seen_labels p2 o2 /\
  show_weights (invert_to_kde window window1 2 (learned_disc 2 true None out_labels seen_labels out_maps seen_maps)) = Some [Some (3 # 2); Some (3 # 2); Some (2 # 3); Some 0; Some (2 # 3)]%Q /\
  show_weights (invert_to_kde window window1 3 (learned_disc 3 false (Some some_weights) out_labels seen_labels out_maps seen_maps)) = Some [Some (4 # 3); Some (4 # 3); Some (2 # 3); Some 0; Some (2 # 3)]%Q.
Proof.
  split; [intros P local; apply learned_twins; left; reflexivity|]. split; [intros P local; apply learned_twins; right; reflexivity|]. split; [apply window_estimated, two_clusters|]. vm_compute. split; reflexivity.
Qed.
(** A single learned cluster is never inverted, whatever it contains; the same values
    without a map are (density_weights). *)
Theorem learned_one_cluster_refuted : forall gkde gkde1 P d di xs ls ms m n, 0 < P -> learns P d di xs ls ms [m] [n] -> In 0%Z ls ->
  invert_disc gkde P d = Raise PyTypeError /\ invert_to_kde gkde gkde1 P d = Raise PyTypeError /\ invert_to_gmm gkde P d = Raise PyTypeError /\
  invert_to_multivariate_gaussian gkde P d = Raise PyTypeError /\ (forall num, fit_data gkde num P d = Raise PyTypeError) /\ forall draws, invert_rejection_sampling gkde P draws d = Raise PyTypeError.
Proof. exact one_cluster_lemma. Qed.
Print Assumptions learned_one_cluster_refuted.
Example learned_one_cluster_ex : let d := learned_disc 2 false None (repeat 0%Z 5) (repeat 0%Z 5) [out_points] [seen] in
  learns 2 d 1 in_points (repeat 0%Z 5) (repeat 0%Z 5) [out_points] [seen] /\ parted out_points (repeat 0%Z 5) [out_points] /\ parted seen (repeat 0%Z 5) [seen] /\
  show_weights (invert_to_kde window window1 2 d) = None /\
  show_weights (invert_to_kde window window1 2 (cluster_disc 2 false false in_points out_points (Some (repeat 0%Z 5)) None seen (Some (repeat 0%Z 5)))) <> None.
Proof.
  split; [apply learned_learns|]. split; [split; [reflexivity|]; intros [|[|j]] m E; cbn in E; try discriminate; injection E as <-; reflexivity|]. split; [split; [reflexivity|]; intros [|[|j]] m E; cbn in E; try discriminate; injection E as <-; reflexivity|].
  vm_compute. split; [reflexivity|discriminate].
Qed.
