(** C134, C135: plots of marginals. *)
From Coq Require Import String List Arith Bool QArith Qcanon Lia.
From Verif Require Import Err Num Ext Show PlotDomains_Model PlotP_Model PlotP_Spec PlotP_Proofs PlotD_Proofs PlotP_Examples.
Import ListNotations.
Local Open Scope nat_scope.

(** ** C134: plots of marginal probabilities *)
(** One figure for every key: point k of the curve lies over bin k, and its height
    times the width of the bin is the probability of the bin.  Marks, labels and
    the end of the axis are right, and no two keys have the same file. *)
Theorem plot_1D_shows_density_partial : forall marginals bins a s dom filename lam_ref lab ext, set_of a s -> m_domain s = Some dom ->
  (forall i m, In (i, m) marginals -> m <> [] /\ exists d, nth_error dom i = Some d /\ (fst d < snd d)%Qc /\ nth_error bins i = Some (edges d (length m))) ->
  (forall i m, In (i, m) marginals -> long_enough (own_or lam_ref (m_ref s)) i /\ long_enough lab i) -> NoDup (map fst marginals) ->
  exists figs, plot_1D_marginal_probs marginals bins a filename lam_ref lab ext = Ok figs /\
    Forall2 (shown_1D dom (own_or lam_ref (m_ref s)) lab) marginals figs /\ NoDup (map c_file figs).
Proof. exact plot_1D_lemma. Qed.
Print Assumptions plot_1D_shows_density_partial.
Example plot_1D_ex : exists f, plot_1D_marginal_probs [(0, ex_m)] (ex_bins 2 2) (MSet ex_mset) "out" None None ".png" = Ok [f] /\
  c_x f = [Q2Qc 0; Q2Qc 2] /\ c_y f = [Fin (Q2Qc (1 # 4)); Fin (Q2Qc (3 # 4))] /\ c_file f = "out_1D_0.png"%string.
Proof. eexists. split; [reflexivity|]. cbn [c_x c_y c_file]. repeat split; qc_compute. Qed.
Example plot_1D_hypotheses_ex : (forall i m, In (i, m) [(0, ex_m)] -> m <> [] /\
  exists d, nth_error ex_dom i = Some d /\ (fst d < snd d)%Qc /\ nth_error (ex_bins 2 2) i = Some (edges d (length m))).
Proof. intros i m [[= <- <-]|[]]. split; [discriminate|]. eexists. split; [reflexivity|]. split; reflexivity. Qed.
(** The points are not at the middles of the bins, except for the middle bin. *)
Theorem plot_1D_middles_refuted : forall marginals bins a s dom filename lam_ref lab ext figs i m d f k, set_of a s -> m_domain s = Some dom ->
  plot_1D_marginal_probs marginals bins a filename lam_ref lab ext = Ok figs -> In ((i, m), f) (combine marginals figs) ->
  nth_error dom i = Some d -> (fst d < snd d)%Qc -> nth_error bins i = Some (edges d (length m)) -> 2 <= length m -> k < length m ->
  (nth_error (c_x f) k = Some ((edge d (length m) k + edge d (length m) (k + 1)) / qn 2)%Qc <-> 2 * k + 1 = length m).
Proof. exact plot_1D_centre_lemma. Qed.
Print Assumptions plot_1D_middles_refuted.
Example plot_1D_middles_ex : edge (Q2Qc 0, Q2Qc 2) 2 0 = Q2Qc 0 /\ edge (Q2Qc 0, Q2Qc 2) 2 1 = Q2Qc 1.
Proof. split; qc_compute. Qed.
(** The curve spans the domain of the set, whatever interval the bins cover. *)
Theorem plot_1D_other_bins_refuted : forall marginals bins a s dom filename lam_ref lab ext figs i m d e f, set_of a s -> m_domain s = Some dom ->
  plot_1D_marginal_probs marginals bins a filename lam_ref lab ext = Ok figs -> In ((i, m), f) (combine marginals figs) ->
  nth_error dom i = Some d -> nth_error bins i = Some (edges e (length m)) -> 2 <= length m ->
  nth_error (c_x f) 0 = Some (fst d) /\ nth_error (c_x f) (length m - 1) = Some (snd d).
Proof. exact plot_1D_other_domain. Qed.
Print Assumptions plot_1D_other_bins_refuted.
Example plot_1D_other_bins_ex : exists f,
  plot_1D_marginal_probs [(0, ex_m)] [edges (Q2Qc 0, Q2Qc 1) 2] (MDisc (Some ex_mset)) "out" None None ".png" = Ok [f] /\ nth_error (c_x f) 1 = Some (Q2Qc 2).
Proof. eexists. split; [reflexivity|]. cbn [c_x]. qc_compute. Qed.

(** Images: every bin is covered by exactly one pixel, whose value times the area is
    the probability; surfaces have their points at the middles of the bins.  All files are distinct. *)
Theorem plot_2D_shows_density : forall marginals bins a s dom filename lam_ref surf lab ext, set_of a s -> m_domain s = Some dom ->
  (forall im, In im marginals -> item_ok dom bins (own_or lam_ref (m_ref s)) lab 1 im) -> NoDup (map fst marginals) ->
  exists images surfaces, plot_2D_marginal_probs marginals bins a filename lam_ref surf lab ext = Ok (images, surfaces) /\
    Forall2 (fun im f => shown_2D dom (own_or lam_ref (m_ref s)) lab im (g_extent f) (g_pixels f) (g_mark f) (g_labels f)) marginals images /\
    (if surf then Forall2 (surface_shown dom) marginals surfaces else surfaces = []) /\
    NoDup (map g_file images ++ map u_file surfaces).
Proof. exact plot_2D_lemma. Qed.
Print Assumptions plot_2D_shows_density.
(** Contours: the same heights; every given reference is marked. *)
Theorem contours_show_density_partial : forall marginals bins a s dom filename lam_ref lam_refs plot_domain lab ext, set_of a s -> m_domain s = Some dom ->
  (forall im, In im marginals -> item_ok dom bins (own_or lam_ref (m_ref s)) lab 2 im) ->
  (forall im, In im marginals -> long_enough plot_domain (fst (fst im)) /\ long_enough plot_domain (snd (fst im))) ->
  (forall im q r, In im marginals -> lam_refs = Some q -> In r q -> fst (fst im) < length r /\ snd (fst im) < length r) -> NoDup (map fst marginals) ->
  exists figs, plot_2D_marginal_contours marginals bins a lam_ref lam_refs plot_domain lab filename ext = Ok figs /\
    Forall2 (shown_contour dom (own_or lam_ref (m_ref s)) lab lam_refs plot_domain) marginals figs /\ NoDup (map o_file figs).
Proof. exact contours_lemma. Qed.
Print Assumptions contours_show_density_partial.
Example plot_2D_hypotheses_ex : item_ok ex_dom (ex_bins 2 3) (m_ref ex_mset) (Some ["x"; "y"]%string) 2 ex_item.
Proof.
  exists (Q2Qc 0, Q2Qc 2), (Q2Qc 0, Q2Qc 1). cbn [length ex_t]. repeat (split; [first [reflexivity | lia]|]). split; [split; [reflexivity|intros row [<-|[<-|[]]]; reflexivity]|].
  repeat (split; [first [reflexivity | (intros l [= <-]; cbn [length]; lia)]|]). intros l [= <-]; cbn [length]; lia.
Qed.
Example plot_2D_ex : exists f, plot_2D_marginal_probs [ex_item] (ex_bins 2 3) (MSet ex_mset) "out" None false None ".png" = Ok ([f], []) /\
  nth_error (g_pixels f) 2 = Some [Fin 0%Qc; Fin (Q2Qc (3 # 4))] /\ g_file f = "out_2D_0_1.png"%string.
Proof. eexists. split; [reflexivity|]. cbn [g_pixels g_file]. split; [|reflexivity]. qc_compute. Qed.
(** Images need at least one bin in each direction. *)
Theorem images_no_bins : forall marginals bins a filename lam_ref surf lab ext r i j nj m, In ((i, j), (nj, m)) marginals -> nj = 0 \/ length m = 0 ->
  plot_2D_marginal_probs marginals bins a filename lam_ref surf lab ext <> Ok r.
Proof. exact image_empty_lemma. Qed.
Print Assumptions images_no_bins.
Example images_no_bins_ex : plot_2D_marginal_probs [((0, 1), (0, [[]; []]))] (ex_bins 2 2) (MSet ex_mset) "out" None false None ".png" = Raise PyValueError.
Proof. reflexivity. Qed.
(** Contours need at least two bins in each direction. *)
Theorem contours_one_bin_refuted : forall marginals bins a lam_ref lam_refs pd lab filename ext figs i j nj m, In ((i, j), (nj, m)) marginals -> nj <= 1 \/ length m <= 1 ->
  plot_2D_marginal_contours marginals bins a lam_ref lam_refs pd lab filename ext <> Ok figs.
Proof. exact contours_flat_lemma. Qed.
Print Assumptions contours_one_bin_refuted.
Example contours_one_bin_ex : plot_2D_marginal_contours [((0, 1), (1, [[Q2Qc (1 # 4)]; [Q2Qc (3 # 4)]]))] (ex_bins 2 1) (MSet ex_mset) None None None None "out" ".png" = Raise PyTypeError /\
  exists f, plot_2D_marginal_probs [((0, 1), (1, [[Q2Qc (1 # 4)]; [Q2Qc (3 # 4)]]))] (ex_bins 2 1) (MSet ex_mset) "out" None false None ".png" = Ok ([f], []).
Proof. split; [reflexivity|]. eexists. reflexivity. Qed.
Theorem marginal_plots_reject_other_objects : forall bins filename lam_ref lab ext m1 m2 surf refs pd,
  plot_1D_marginal_probs m1 bins MOther filename lam_ref lab ext = Raise BadObject /\
  plot_2D_marginal_probs m2 bins MOther filename lam_ref surf lab ext = Raise BadObject /\
  plot_2D_marginal_contours m2 bins MOther lam_ref refs pd lab filename ext = Raise BadObject.
Proof. exact other_object_lemma. Qed.
Print Assumptions marginal_plots_reject_other_objects.

(** ** C135: plots of marginal densities *)
(** For every set its initial density (solid, if asked for) and its updated density
    (dashed), and no other curves, all evaluated at the same points. *)
Theorem densities_show_sets : forall args sets i interval num_points label sets_label sets_label_initial initials inputs,
  Forall2 (stands_for inputs) args sets -> sets <> [] -> (forall s, In s sets -> dset_ok interval i s) ->
  (forall l, sets_label = Some l -> length sets <= length l) -> (forall l, sets_label_initial = Some l -> length sets <= length l) ->
  exists lab x cs, plot_1d_marginal_densities args i interval num_points label sets_label sets_label_initial initials inputs = Ok (lab, x, cs) /\
    axis_of label sets i lab /\ points_of interval num_points sets i x /\ curves_of x i initials sets_label sets_label_initial sets cs.
Proof. exact densities_lemma. Qed.
Print Assumptions densities_show_sets.
Example densities_ex : exists x cs, plot_1d_marginal_densities [DSet ex_d0; DDisc (Some ex_d1) None] 0 (Some (Q2Qc 0, Q2Qc 1)) 2 None None None true true = Ok ("Parameter 0"%string, x, cs) /\
  x = [Q2Qc 0; Q2Qc 1] /\ map e_label cs = ["Set 0 Initial"; "Set 0 Updated"; "a"]%string /\ map e_dashed cs = [false; true; true].
Proof. eexists. eexists. split; [reflexivity|]. split; [qc_compute|]. split; reflexivity. Qed.
Example densities_hypotheses_ex : Forall2 (stands_for true) [DSet ex_d0; DDisc (Some ex_d1) None] [ex_d0; ex_d1] /\ forall s, In s [ex_d0; ex_d1] -> dset_ok None 0 s.
Proof.
  split; [constructor; [left; reflexivity|]; constructor; [right; exists (Some ex_d1), None; split; reflexivity|constructor]|].
  intros s [<-|[<-|[]]]; (split; [intros l; try discriminate; intros [= <-]; cbn [length]; lia|]); intros _; (split; [discriminate|]); intros r; cbn [d_values ex_d0 ex_d1 In];
    intuition (subst; cbn [length]; lia).
Qed.
(** Without interval, the points reach over all samples of all sets. *)
Theorem densities_cover_samples : forall num_points sets i x v, points_of None num_points sets i x -> value_of sets i v ->
  exists a b, nth_error x 0 = Some a /\ nth_error x 99 = Some b /\ length x = 100 /\ (a <= v)%Qc /\ (v <= b)%Qc.
Proof. exact grid_covers_lemma. Qed.
Print Assumptions densities_cover_samples.
Example densities_cover_ex : value_of [ex_d0; ex_d1] 0 (Q2Qc 5).
Proof. exists ex_d1, [Q2Qc 5; Q2Qc 2]. split; [right; left; reflexivity|]. split; [left; reflexivity|reflexivity]. Qed.
(** The default names of the curves of sets without labels are all distinct. *)
Theorem densities_default_names_partial : forall i k k' s s' l, d_labels s = None -> d_labels s' = None ->
  (legend_entry None " Updated" "" i k s l -> legend_entry None " Updated" "" i k' s' l -> k = k') /\
  (legend_entry None " Initial" " Initial" i k s l -> legend_entry None " Initial" " Initial" i k' s' l -> k = k') /\
  (legend_entry None " Updated" "" i k s l -> legend_entry None " Initial" " Initial" i k' s' l -> False).
Proof. exact default_legend_lemma. Qed.
Print Assumptions densities_default_names_partial.
Example densities_default_names_ex : legend_entry None " Updated" "" 0 3 ex_d0 "Set 3 Updated".
Proof. reflexivity. Qed.
(** Sets with the same labels (of their parameters) get the same name. *)
Theorem densities_same_names_refuted : forall i k k' s s' ls l, d_labels s = Some ls -> d_labels s' = Some ls ->
  (legend_entry None " Updated" "" i k s l <-> legend_entry None " Updated" "" i k' s' l).
Proof. exact same_labels_lemma. Qed.
Print Assumptions densities_same_names_refuted.
Example densities_same_names_ex : exists lab x cs, plot_1d_marginal_densities [DSet ex_d1; DSet ex_d1] 1 (Some (Q2Qc 0, Q2Qc 1)) 2 None None None true true = Ok (lab, x, cs) /\
  map e_label cs = ["b"; "b"]%string.
Proof. eexists. eexists. eexists. split; reflexivity. Qed.
(** The number of points is ignored without interval. *)
Theorem densities_num_points_refuted : forall args i n n' label u v initials inputs,
  plot_1d_marginal_densities args i None n label u v initials inputs = plot_1d_marginal_densities args i None n' label u v initials inputs.
Proof. exact num_points_lemma. Qed.
Print Assumptions densities_num_points_refuted.
Example densities_num_points_ex : exists lab x cs, plot_1d_marginal_densities [DSet ex_d1] 1 None 7 None None None true true = Ok (lab, x, cs) /\ length x = 100.
Proof. eexists. eexists. eexists. split; reflexivity. Qed.
Theorem densities_reject_other_objects : forall args i interval n label u v initials inputs, In DOther args ->
  plot_1d_marginal_densities args i interval n label u v initials inputs = Raise BadObject.
Proof. exact densities_other_lemma. Qed.
Print Assumptions densities_reject_other_objects.
Example densities_reject_ex : In DOther [DSet ex_d0; DOther].
Proof. right. left. reflexivity. Qed.
