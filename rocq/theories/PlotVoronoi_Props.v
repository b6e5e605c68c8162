(** C126: the one-dimensional Voronoi plot. *)
From Coq Require Import List Arith Lia QArith Qcanon.
From Verif Require Import Err Num Ext Show Query_Model Volume_Model Volume_Spec Volume_Examples PlotVoronoi_Model PlotVoronoi_Spec PlotVoronoi_Proofs PlotVoronoi_Examples.
Import ListNotations.
Local Open Scope nat_scope.

(** Distinct samples in the domain: there is one line for each sample, line k covers
    exactly the Voronoi cell of the k-th sample in sorted order. *)
Theorem plot_1D_lines_cover_cells : forall argsort s probs l, is_argsort (ps_values s) (argsort (ps_values s)) -> plot_set s probs -> plot_1D_voronoi argsort true (PSet s) = Ok l ->
  length (l_min l) = length (ps_values s) /\ length (l_max l) = length (ps_values s) /\
  forall k i v, nth_error (argsort (ps_values s)) k = Some i -> nth_error (ps_values s) i = Some v -> covers_cell s l k v.
Proof. exact cells_lemma. Qed.
Print Assumptions plot_1D_lines_cover_cells.
Theorem plot_1D_accepts : forall argsort s probs density, is_argsort (ps_values s) (argsort (ps_values s)) -> plot_set s probs -> exists l, plot_1D_voronoi argsort density (PSet s) = Ok l.
Proof. exact total_lemma. Qed.
Print Assumptions plot_1D_accepts.
Example plot_1D_ex : is_argsort (ps_values plot3) (argsort3 (ps_values plot3)) /\ plot_set plot3 probs3 /\
  plot_1D_voronoi argsort3 true (PSet plot3) = Ok {| l_y := [Fin (Q2Qc (5 # 3)); Fin (Q2Qc (5 # 4)); Fin (Q2Qc (5 # 3))]; l_min := [0%Qc; Q2Qc (3 # 10); Q2Qc (7 # 10)]; l_max := [Q2Qc (3 # 10); Q2Qc (7 # 10); 1%Qc] |}.
Proof. split; [exact argsort3_ok|]. split; [exact plot3_ok|]. lines_compute. Qed.
(** The heights are the densities of the cells only if all probabilities are equal. *)
Theorem plot_1D_heights_refuted : forall argsort s probs l, is_argsort (ps_values s) (argsort (ps_values s)) -> plot_set s probs -> plot_1D_voronoi argsort true (PSet s) = Ok l ->
  (forall k i p, nth_error (argsort (ps_values s)) k = Some i -> nth_error probs i = Some p -> height_is l k p) <-> (forall p p', In p probs -> In p' probs -> p = p').
Proof. exact heights_lemma. Qed.
Print Assumptions plot_1D_heights_refuted.
Example plot_1D_heights_ex : In (Q2Qc (1 # 4)) probs3 /\ In (Q2Qc (1 # 2)) probs3 /\ Q2Qc (1 # 4) <> Q2Qc (1 # 2).
Proof. split; [left; reflexivity|]. split; [right; right; left; reflexivity|]. intro H. discriminate (f_equal this H). Qed.
(** Without density there is one height for all lines. *)
Theorem plot_1D_measure_refuted : forall argsort s probs l, is_argsort (ps_values s) (argsort (ps_values s)) -> plot_set s probs -> plot_1D_voronoi argsort false (PSet s) = Ok l ->
  length (l_y l) = 1 /\ length (l_min l) = length (ps_values s).
Proof. exact measure_lemma. Qed.
Print Assumptions plot_1D_measure_refuted.
Example plot_1D_measure_ex : plot_1D_voronoi argsort3 false (PSet plot3) = Ok {| l_y := [Fin (Q2Qc (1 # 2))]; l_min := [0%Qc; Q2Qc (3 # 10); Q2Qc (7 # 10)]; l_max := [Q2Qc (3 # 10); Q2Qc (7 # 10); 1%Qc] |}.
Proof. lines_compute. Qed.
Theorem plot_1D_rejects : forall argsort density a,
  (a = POther -> plot_1D_voronoi argsort density a = Raise BadObject) /\
  (a = PDisc None -> plot_1D_voronoi argsort density a = Raise MissingAttribute) /\
  (forall s, a = PSet s \/ a = PDisc (Some s) -> ps_dim s <> 1 -> plot_1D_voronoi argsort density a = Raise DimNotMatching) /\
  (forall s, a = PSet s \/ a = PDisc (Some s) -> ps_dim s = 1 -> ps_probs s = None -> ps_probs_local s = None -> plot_1D_voronoi argsort density a = Raise MissingAttribute) /\
  (forall s, plot_1D_voronoi argsort density (PDisc (Some s)) = plot_1D_voronoi argsort density (PSet s)).
Proof. exact rejects_lemma. Qed.
Print Assumptions plot_1D_rejects.
(** Local probabilities are gathered if there are no global ones. *)
Theorem plot_1D_gathers : forall argsort density s p, ps_probs s = None -> ps_probs_local s = Some p ->
  plot_1D_voronoi argsort density (PSet s) = plot_1D_voronoi argsort density (PSet {| ps_dim := ps_dim s; ps_values := ps_values s; ps_probs := Some p; ps_probs_local := ps_probs_local s; ps_lo := ps_lo s; ps_hi := ps_hi s |}).
Proof. exact gathered_lemma. Qed.
Print Assumptions plot_1D_gathers.
Example plot_1D_gathers_ex : ps_probs plot3_local = None /\ ps_probs_local plot3_local = Some probs3 /\ exists l, plot_1D_voronoi argsort3 true (PSet plot3_local) = Ok l.
Proof. split; [reflexivity|]. split; [reflexivity|]. eexists. reflexivity. Qed.
