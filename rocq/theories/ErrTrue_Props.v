(** Properties C174-C177: what the error estimates say about the probabilities. *)
From Coq Require Import List Arith Bool QArith Qcanon Lia.
From Verif Require Import Err Num Ext NumPy SampleSet_Model SampleSet_Spec Prob_Spec Disc_Model Disc_Spec Disc_Examples Workflow_Model Workflow_Spec Error_Spec
  ErrorDisc_Model ErrorDisc_Spec ErrorDisc_Examples SampErr_Model SampErr_Spec SampErr_Examples ErrTrue_Spec ErrTrue_Proofs ErrTrue2_Proofs ErrTrue3_Proofs ErrTrue_Examples.
Import ListNotations.
Local Open Scope nat_scope.
Local Open Scope err_scope.

(** ** C174 Regions: the estimate is the change of the probability *)

(** With emulated points: the probability of the region among them, computed
    with the outputs minus computed with the corrected outputs. *)
Theorem model_error_is_change nn P b d w s ss labels region em ps P1 d1 w1 P2 d2 w2 : 0 < P -> (forall l x, l <> [] -> nn l x < length l) ->
  well_posed b -> nonneg (probs b) -> holds_problem nn P b d -> stored_volumes d w -> (forall x, In x (input_volumes nn b w) -> (0 <= x)%Qc) ->
  proper_question P b (Region_ s ss labels region em) -> In region labels ->
  match em with Some e => Some (snd e) | None => emulated b end = Some ps ->
  0 < P1 -> proper_view (as_given b) w1 -> holds_survey nn P1 (as_given b) w1 d1 -> no_pointers d1 -> w_probs w1 = probs b -> w_emulated w1 = Some ps ->
  0 < P2 -> proper_view (corrected b) w2 -> holds_survey nn P2 (corrected b) w2 d2 -> no_pointers d2 -> w_probs w2 = probs b -> w_emulated w2 = Some ps ->
  every_event_hit (probs b) (map (event_of nn (as_given b)) ps) -> every_event_hit (probs b) (map (event_of nn (corrected b)) ps) ->
  exists q q', point_probabilities (emulated_disc nn P1 true d1) = Some (map Num q) /\ point_probabilities (emulated_disc nn P2 true d2) = Some (map Num q') /\
  rmap fst (do m <- new_model_error nn P d ; pose_all nn P [Region_ s ss labels region em] m) =
  Ok [[Fin (mass (in_the_region nn ss labels region) ps q - mass (in_the_region nn ss labels region) ps q')%Qc]].
Proof. intros HP NN WP NP. exact (emulated_difference nn P HP NN b WP NP d w s ss labels region em ps P1 d1 w1 P2 d2 w2). Qed.
Print Assumptions model_error_is_change.
Example is_change_meet : well_posed (b_ (Some emu_)) /\ nonneg ps_ /\ holds_problem near 2 (b_ (Some emu_)) (d_ None (Some emu_)) /\
  holds_survey near 1 (as_given (b_ (Some emu_))) (w_ None (Some emu_)) (d_ None (Some emu_)) /\ no_pointers (d_ None (Some emu_)) /\
  holds_survey near 3 (corrected (b_ (Some emu_))) (w_ None (Some emu_)) (d_fixed (Some emu_)) /\ no_pointers (d_fixed (Some emu_)) /\
  every_event_hit ps_ (map (event_of near (as_given (b_ (Some emu_)))) (map pt emu_)) /\ every_event_hit ps_ (map (event_of near (corrected (b_ (Some emu_)))) (map pt emu_)).
Proof.
  split; [apply b_posed; discriminate|]. split; [exact w_nonneg|]. split; [apply d_holds; exact I|]. split; [apply given_holds|]. split; [intros []; split; reflexivity|]. split; [apply fixed_holds|]. split; [intros []; split; reflexivity|].
  split; (apply both_hit; [left; vm_compute; reflexivity|do 4 right; left; vm_compute; reflexivity]).
Qed.

(** Without emulated points: the probability of the samples in the region, in
    the solution of the inverse problem with the model minus the solution with
    the corrected model. *)
Theorem model_error_is_change_of_solution nn P di o xs z e ys ps d w s ss labels region P1 model before setter dom dom' P2 model' before' setter' dom1 dom1' :
  0 < P -> (forall l x, l <> [] -> nn l x < length l) -> well_posed (model_problem di o xs z e ys ps None) -> nonneg ps ->
  holds_problem nn P (model_problem di o xs z e ys ps None) d -> stored_volumes d w -> (forall x, In x (input_volumes nn (model_problem di o xs z e ys ps None) w) -> (0 <= x)%Qc) ->
  proper_question P (model_problem di o xs z e ys ps None) (Region_ s ss labels region None) -> In region labels ->
  0 < P1 -> row_model di o (fun x => row (z x)) model -> 0 < P2 -> row_model di o (fun x => row (plus (z x) (e x))) model' ->
  every_event_hit ps (map (fun x => nn ys (row (z x))) xs) -> every_event_hit ps (map (fun x => nn ys (row (plus (z x) (e x)))) xs) ->
  exists q q',
  global_probabilities (solve nn P1 model MonteCarlo before setter (values_set di dom xs) (probability_set o dom' ys ps)) = Some (map Num q) /\
  global_probabilities (solve nn P2 model' MonteCarlo before' setter' (values_set di dom1 xs) (probability_set o dom1' ys ps)) = Some (map Num q') /\
  rmap fst (do m <- new_model_error nn P d ; pose_all nn P [Region_ s ss labels region None] m) =
  Ok [[Fin (mass (in_the_region nn ss labels region) xs q - mass (in_the_region nn ss labels region) xs q')%Qc]].
Proof. exact (samples_difference nn P di o xs z e ys ps d w s ss labels region P1 model before setter dom dom' P2 model' before' setter' dom1 dom1'). Qed.
Print Assumptions model_error_is_change_of_solution.
Example change_of_solution_meet : model_problem 1 1 (map pt xs_) z_ e_ (map pt ys_) ps_ None = b_ None /\
  row_model 1 1 (fun x => row (z_ x)) (by_rows (fun x => row (z_ x))) /\ row_model 1 1 (fun x => row (plus (z_ x) (e_ x))) (by_rows (fun x => row (plus (z_ x) (e_ x)))) /\
  every_event_hit ps_ (map (fun x => near (map pt ys_) (row (z_ x))) (map pt xs_)) /\ every_event_hit ps_ (map (fun x => near (map pt ys_) (row (plus (z_ x) (e_ x)))) (map pt xs_)).
Proof.
  split; [exact (model_b None)|]. do 2 (split; [apply by_rows_model|]). split; (apply both_hit; [left; vm_compute; reflexivity|do 2 right; left; vm_compute; reflexivity]).
Qed.

(** ** C175 Contour events *)

(** The estimate for an event is the corrected probability of the samples that
    come into the event by the correction.  The event's samples cannot lose more
    than this. *)
Theorem contour_error_is_gain_partial nn P di o xs z e ys ps em d w i p r l a P1 model setter dom dom' P2 model' setter' dom1 dom1' :
  0 < P -> (forall l x, l <> [] -> nn l x < length l) -> well_posed (model_problem di o xs z e ys ps em) -> nonneg ps ->
  holds_problem nn P (model_problem di o xs z e ys ps em) d -> stored_volumes d w ->
  let v := input_volumes nn (model_problem di o xs z e ys ps em) w in nonneg v -> length v = length xs ->
  rmap fst (do m <- new_model_error nn P d ; pose_all nn P [Contours] m) = Ok r -> r = [l] -> nth_error ps i = Some p -> (0 < p)%Qc -> nth_error l i = Some (Fin a) ->
  0 < P1 -> row_model di o (fun x => row (z x)) model -> 0 < P2 -> row_model di o (fun x => row (plus (z x) (e x))) model' ->
  exists q q',
  global_probabilities (solve nn P1 model (Given v) true setter (values_set di dom xs) (probability_set o dom' ys ps)) = Some (map Num q) /\
  global_probabilities (solve nn P2 model' (Given v) true setter' (values_set di dom1 xs) (probability_set o dom1' ys ps)) = Some (map Num q') /\
  let event x := nn ys (row (z x)) =? i in let event' x := nn ys (row (plus (z x) (e x))) =? i in
  mass event xs q = p /\ a = mass (fun x => event' x && negb (event x)) xs q' /\ (mass event xs q - mass event xs q' <= a)%Qc.
Proof. exact (contour_difference nn P di o xs z e ys ps em d w i p r l a P1 model setter dom dom' P2 model' setter' dom1 dom1'). Qed.
Print Assumptions contour_error_is_gain_partial.
Example is_gain_meet : let b := model_problem 1 1 (map pt xs_) z_ e_ (map pt ys_) ps_ None in let v := input_volumes near b None in
  length v = length (map pt xs_) /\ map show_x (contour_answer near (b_ None) (input_volumes near (b_ None) None)) = [Some 0; Some (1 # 8)]%Q.
Proof. split; [reflexivity|vm_compute; reflexivity]. Qed.

(** The estimate does not bound the change: it is 0 for an event whose samples
    go from probability 3/4 to 7/8. *)
Theorem contour_error_bounds_change_refuted : exists nn P di o xs z e ys ps d i p l a model model' q q',
  let b := model_problem di o xs z e ys ps None in let v := input_volumes nn b None in
  (forall l x, l <> [] -> nn l x < length l) /\ 0 < P /\ well_posed b /\ nonneg ps /\ holds_problem nn P b d /\ stored_volumes d None /\
  row_model di o (fun x => row (z x)) model /\ row_model di o (fun x => row (plus (z x) (e x))) model' /\
  rmap fst (do m <- new_model_error nn P d ; pose_all nn P [Contours] m) = Ok [l] /\ nth_error ps i = Some p /\ (0 < p)%Qc /\ nth_error l i = Some (Fin a) /\
  global_probabilities (solve nn P model (Given v) true false (values_set di None xs) (probability_set o None ys ps)) = Some (map Num q) /\
  global_probabilities (solve nn P model' (Given v) true false (values_set di None xs) (probability_set o None ys ps)) = Some (map Num q') /\
  let event x := nn ys (row (z x)) =? i in (mass event xs q = p /\ a < mass event xs q' - mass event xs q)%Qc.
Proof. exact contour_refuted_lemma. Qed.
Print Assumptions contour_error_bounds_change_refuted.

(** ** C176 Regions: the sampling error bounds enclose the error *)

(** Let the true events of the points be any that contain the points of the
    inner cells and lie in the touching cells.  The true probability of the
    region minus the computed one is between the bounds, if there are bounds. *)
Theorem sampling_bounds_enclose nn argsort delaunay P g nb w d s ss labels region em qs rs u l P1 w1 d1 t : 0 < P -> (forall l x, l <> [] -> nn l x < length l) ->
  proper_survey g -> neighbours_are argsort delaunay g nb -> proper_view g w -> w_seen w = [] -> holds_survey nn P g w d -> nonneg (w_probs w) ->
  Forall (proper_sevent P g) (map SAsk (qs ++ [Region_ s ss labels region em])) ->
  rmap fst (do m <- new_sampling_error nn argsort delaunay P euclidean d ; srun nn P (map SAsk (qs ++ [Region_ s ss labels region em])) m) = Ok (rs ++ [([Fin u], [Fin l])]) ->
  let ps := points_used g w em in let inr := in_the_region nn ss labels region in
  0 < P1 -> proper_view g w1 -> holds_survey nn P1 g w1 d1 -> no_pointers d1 -> w_probs w1 = w_probs w -> w_emulated w1 = Some ps ->
  between (sample_events nn g) nb (map (nn (g_samples g)) ps) t ->
  exists q, point_probabilities (emulated_disc nn P1 true d1) = Some (map Num q) /\
  let err := (region_probability (w_probs w) (combine (map inr ps) t) - mass inr ps q)%Qc in (l <= err /\ err <= u)%Qc.
Proof. intros HP NN PS NB. exact (region_encloses nn argsort delaunay P HP NN g PS nb NB w d s ss labels region em qs rs u l P1 w1 d1 t). Qed.
Print Assumptions sampling_bounds_enclose.
Example enclose_meet : proper_survey g4 /\ neighbours_are sorting no_simplices g4 nb4 /\ proper_view g4 w4 /\ holds_survey near 2 g4 w4 d4 /\ nonneg (w_probs w4) /\ no_pointers d4 /\
  between (sample_events near g4) nb4 (map (near (g_samples g4)) (points_used g4 w4 None)) t4 /\
  show_b (replies near g4 nb4 w4 (map SAsk [Contours; about None])) = Some [([Some (1 # 10); Some (9 # 10)], [Some (-1 # 15); Some (-3 # 5)]); ([Some 1], [Some (-1 # 15)])]%Q /\
  this (region_probability ps4 (combine (map (in_the_region near (map pt ys_) [0; 1]%Qc 0%Qc) (map pt xs4)) t4)) = (2 # 5)%Q.
Proof.
  split; [exact g4_proper|]. split; [exact nb4_neighbours|]. split; [exact w4_proper|]. split; [apply d4_holds|]. split; [exact w4_nonneg|]. split; [exact d4_new|]. split; [exact t4_between|]. split; vm_compute; reflexivity.
Qed.

(** ** C177 Contour events: only the lower bound holds *)

Theorem sampling_lower_bound_partial nn argsort delaunay P g nb w d qs rs us ls i p l ps t : 0 < P -> (forall l x, l <> [] -> nn l x < length l) ->
  proper_survey g -> neighbours_are argsort delaunay g nb -> proper_view g w -> w_seen w = [] -> holds_survey nn P g w d -> nonneg (w_probs w) -> w_vols w = None -> w_emulated w = Some ps ->
  Forall (proper_sevent P g) (map SAsk (qs ++ [Contours])) ->
  rmap fst (do m <- new_sampling_error nn argsort delaunay P euclidean d ; srun nn P (map SAsk (qs ++ [Contours])) m) = Ok (rs ++ [(us, ls)]) ->
  nth_error (w_probs w) i = Some p -> nth_error ls i = Some (Fin l) ->
  between (sample_events nn g) nb (map (nn (g_samples g)) ps) t ->
  (l <= region_probability (w_probs w) (combine (map (fun x => event_of nn g x =? i) ps) t) - p)%Qc.
Proof. intros HP NN PS NB. exact (contour_lower nn argsort delaunay P HP NN g PS nb NB w d qs rs us ls i p l ps t). Qed.
Print Assumptions sampling_lower_bound_partial.
Example lower_bound_meet : w_vols w4 = None /\ w_emulated w4 = Some (map pt xs4) /\ Forall (proper_sevent 2 g4) (map SAsk ([about None] ++ [Contours])).
Proof. do 2 (split; [reflexivity|]). do 2 (constructor; [first [exact I|exact (about_fits 2 None)]|]). constructor. Qed.

(** The probability of an event can grow by more than the upper bound: the other
    events may reach into it. *)
Theorem sampling_upper_bound_refuted : exists nn argsort delaunay P g nb w d i p us ls u ps t,
  (forall l x, l <> [] -> nn l x < length l) /\ 0 < P /\ proper_survey g /\ neighbours_are argsort delaunay g nb /\ proper_view g w /\ w_seen w = [] /\ holds_survey nn P g w d /\ nonneg (w_probs w) /\
  w_vols w = None /\ w_emulated w = Some ps /\
  rmap fst (do m <- new_sampling_error nn argsort delaunay P euclidean d ; srun nn P [SAsk Contours] m) = Ok [(us, ls)] /\
  nth_error (w_probs w) i = Some p /\ nth_error us i = Some (Fin u) /\ between (sample_events nn g) nb (map (nn (g_samples g)) ps) t /\
  (u < region_probability (w_probs w) (combine (map (fun x => event_of nn g x =? i) ps) t) - p)%Qc.
Proof. exact upper_refuted_lemma. Qed.
Print Assumptions sampling_upper_bound_refuted.
