(** C128: the two-dimensional Voronoi plot. *)
From Coq Require Import String List Arith QArith Qcanon.
From Verif Require Import Err Num Ext Show ChooseQoIs_Model PlotVoronoi_Model PlotVoronoi2_Model PlotVoronoi2_Spec PlotVoronoi2_Proofs PlotVoronoi2_Examples.
Import ListNotations.
Local Open Scope nat_scope.

(** Without labels: each cell gets a number between 0 and 1 that is proportional to its
    density (or probability); the largest is 1. *)
Theorem plot_2D_colours_partial : forall density s probs vol, ps_dim s = 2 -> ps_probs s = Some probs -> plot2_ok probs vol ->
  exists colours, plot_2D_voronoi density (PSet s) (Some vol) None = Ok (map Fin colours, ("$\lambda_1$", "$\lambda_2$")%string) /\ length colours = length probs /\
    (forall c, In c colours -> (0 <= c)%Qc /\ (c <= 1)%Qc) /\ In 1%Qc colours /\
    forall i j x y c d, cell_number density probs vol i x -> cell_number density probs vol j y -> nth_error colours i = Some c -> nth_error colours j = Some d -> ((x <= y)%Qc <-> (c <= d)%Qc) /\ (c * y = d * x)%Qc.
Proof. exact plot2_lemma. Qed.
Print Assumptions plot_2D_colours_partial.
Example plot_2D_colours_ex : ps_dim plot2 = 2 /\ ps_probs plot2 = Some probs2 /\ plot2_ok probs2 vol2.
Proof. split; [reflexivity | split; [reflexivity | exact plot2_ok_ex]]. Qed.
(** With labels there is no plot. *)
Theorem plot_2D_labels_refuted : forall density s probs vol l1 l2 ls, ps_dim s = 2 -> ps_probs s = Some probs -> plot2_ok probs vol ->
  plot_2D_voronoi density (PSet s) (Some vol) (Some (l1 :: l2 :: ls)) = Raise PyNameError.
Proof. exact labels_lemma. Qed.
Print Assumptions plot_2D_labels_refuted.
Example plot_2D_labels_ex : plot_2D_voronoi true (PSet plot2) (Some vol2) (Some ["a"; "b"]%string) = Raise PyNameError.
Proof. apply labels_lemma with probs2; [reflexivity | reflexivity | exact plot2_ok_ex]. Qed.
(** If all probabilities are zero the colours are nan. *)
Theorem plot_2D_all_zero_refuted : forall s n vol, ps_dim s = 2 -> ps_probs s = Some (repeat 0%Qc (S n)) -> length vol = S n -> (forall v, In v vol -> (0 < v)%Qc) -> forall density,
  plot_2D_voronoi density (PSet s) (Some vol) None = Ok (repeat NaN (S n), ("$\lambda_1$", "$\lambda_2$")%string).
Proof. exact zero_lemma. Qed.
Print Assumptions plot_2D_all_zero_refuted.
Example plot_2D_all_zero_ex : repeat 0%Qc 2 = [0; 0]%Qc /\ forall v, In v vol2 -> (0 < v)%Qc.
Proof. split; [reflexivity|]. intros v [<-|[<-|[]]]; reflexivity. Qed.
(** A cell of volume zero and positive probability is drawn without colour (nan), and all others as if their density were zero. *)
Theorem plot_2D_zero_volume_refuted : forall s probs vol, ps_dim s = 2 -> ps_probs s = Some probs -> length probs = length vol ->
  (forall i p v, nth_error probs i = Some p -> nth_error vol i = Some v -> (0 < v)%Qc \/ (v = 0 /\ 0 < p)%Qc) ->
  (exists i, nth_error vol i = Some 0%Qc) ->
  plot_2D_voronoi true (PSet s) (Some vol) None = Ok (map (fun v => if Qc_eq_dec v 0 then NaN else Fin 0%Qc) vol, ("$\lambda_1$", "$\lambda_2$")%string).
Proof. exact zero_volume_lemma. Qed.
Print Assumptions plot_2D_zero_volume_refuted.
Example plot_2D_zero_volume_ex : forall i p v, nth_error probs2 i = Some p -> nth_error [0; 1]%Qc i = Some v -> (0 < v)%Qc \/ (v = 0 /\ 0 < p)%Qc.
Proof. intros [|[|[|i]]] p v E F; cbn in E, F; try discriminate; injection E as <-; injection F as <-; [right | left]; repeat split; reflexivity. Qed.
Theorem plot_2D_rejects : forall density a volumes ls,
  (a = POther -> plot_2D_voronoi density a volumes ls = Raise BadObject) /\
  (a = PDisc None -> plot_2D_voronoi density a volumes ls = Raise MissingAttribute) /\
  (forall s, a = PSet s \/ a = PDisc (Some s) -> ps_dim s <> 2 -> plot_2D_voronoi density a volumes ls = Raise DimNotMatching) /\
  (forall s, a = PSet s \/ a = PDisc (Some s) -> ps_dim s = 2 -> ps_probs s = None -> ps_probs_local s = None -> plot_2D_voronoi density a volumes ls = Raise MissingAttribute) /\
  (forall s p, a = PSet s -> ps_dim s = 2 -> ps_probs s = Some p -> plot_2D_voronoi true a None ls = Raise PyTypeError).
Proof. exact rejects2_lemma. Qed.
Print Assumptions plot_2D_rejects.
Example plot_2D_rejects_ex : plot_2D_voronoi true (PSet plot2) None None = Raise PyTypeError.
Proof. reflexivity. Qed.
