(** Properties C170-C173: sampling_error objects. *)
From Coq Require Import List Arith Bool QArith Qcanon Lia Permutation.
From Verif Require Import Err Num Ext NumPy SampleSet_Model SampleSet_Spec Volume_Spec Disc_Model Disc_Spec Disc_Examples Error_Spec
  ErrorDisc_Model ErrorDisc_Spec ErrorDisc_Examples SampErr_Model SampErr_Spec SampErr2_Proofs SampErr3_Proofs SampErr_Examples.
Import ListNotations.
Local Open Scope nat_scope.
Local Open Scope err_scope.

(** ** C170 The answers *)

(** The object is built, and any questions in any order on any number of
    processes get the bounds of the specification.  Part: on the line only for
    samples whose sorting permutation is its own inverse. *)
Theorem sampling_error_answers_partial nn argsort delaunay P g nb w d qs : 0 < P -> (forall l x, l <> [] -> nn l x < length l) ->
  proper_survey g -> neighbours_are argsort delaunay g nb -> proper_view g w -> w_seen w = [] -> holds_survey nn P g w d ->
  Forall (proper_sevent P g) (map SAsk qs) ->
  rmap fst (do m <- new_sampling_error nn argsort delaunay P euclidean d ; srun nn P (map SAsk qs) m) = replies nn g nb w (map SAsk qs).
Proof.
  intros HP NN PS NB PV W HH F. pose proof HH as (_ & _ & (pr & Ep & _) & _).
  apply (replies_lemma nn argsort delaunay P HP NN g PS nb NB euclidean d w pr _ eq_refl PV W HH F Ep).
  - intros (p & H). apply in_map_iff in H. destruct H as (? & H & _). discriminate H.
  - right. intros e ps H. apply in_map_iff in H. destruct H as (? & H & _). discriminate H.
Qed.
Print Assumptions sampling_error_answers_partial.
Example sampling_answers_meet v em : In v [None; Some vs_] -> In em [None; Some emu_] ->
  proper_survey g_ /\ neighbours_are sorting no_simplices g_ nb_ /\ proper_view g_ (w_ v em) /\ holds_survey near 3 g_ (w_ v em) (d_ v em) /\
  Forall (proper_sevent 3 g_) (map SAsk [Contours; about None; about (Some emu_); Contours]).
Proof.
  intros Hv He. split; [exact g_proper|]. split; [exact nb_neighbours|].
  split; [apply w_proper; [destruct Hv as [<-|[<-|[]]]; [exact I|vm_compute; reflexivity]|destruct He as [<-|[<-|[]]]; discriminate]|].
  split; [apply w_holds; destruct Hv as [<-|[<-|[]]]; [exact I|reflexivity]|]. do 4 (constructor; [first [exact I|apply about_fits]|]). constructor.
Qed.
Example sampling_answers_value : show_b (replies near g_ nb_ (w_ (Some vs_) None) [SAsk Contours; SProbs one_zero; SAsk (about None); SAsk (about (Some emu_))]) =
  Some [([Some (3 # 8); None], [Some (-3 # 8); None]); ([Some 1], [Some (-2 # 3)]); ([Some (1 # 3)], [Some (-4 # 15)])]%Q.
Proof. vm_compute. reflexivity. Qed.
Example square_meets : proper_survey g_square /\ neighbours_are sorting two_triangles g_square nb_square.
Proof. split; [split; [discriminate|split; [discriminate|reflexivity]]|exact square_neighbours]. Qed.

(** On the line the bounds depend on the order in which the same samples are
    stored. *)
Theorem sampling_error_order_refuted : exists nn argsort delaunay P g w d g' w' d',
  (forall l x, l <> [] -> nn l x < length l) /\ (forall l, is_argsort l (argsort l)) /\
  holds_survey nn P g w d /\ holds_survey nn P g' w' d' /\ g_cells g = g_cells g' /\ w_probs w = w_probs w' /\
  (exists v v', w_vols w = Some v /\ w_vols w' = Some v' /\
     Permutation (combine (combine (g_samples g) (g_outputs g)) v) (combine (combine (g_samples g') (g_outputs g')) v')) /\
  rmap fst (do m <- new_sampling_error nn argsort delaunay P euclidean d ; srun nn P [SAsk Contours] m) <>
  rmap fst (do m <- new_sampling_error nn argsort delaunay P euclidean d' ; srun nn P [SAsk Contours] m).
Proof. exact order_refuted_lemma. Qed.
Print Assumptions sampling_error_order_refuted.

(** Sets that are not Voronoi sets of the 2-norm are refused. *)
Theorem sampling_error_refuses nn argsort delaunay P k d n inp : k <> euclidean -> d_in d = Some inp -> check_nums P d = Ok n ->
  new_sampling_error nn argsort delaunay P k d = Raise WrongArgumentType.
Proof. exact (srefused_lemma nn argsort delaunay P k d n inp). Qed.
Print Assumptions sampling_error_refuses.
Example refuses_meet : OtherSet <> euclidean /\ VoronoiSet PInf <> euclidean /\ VoronoiSet (Fin 1%Qc) <> euclidean /\ check_nums 2 (d_ None None) = Ok 3.
Proof. do 3 (split; [discriminate|]). vm_compute. reflexivity. Qed.

(** ** C171 Processes, stored data *)

Theorem sampling_error_processes nn argsort delaunay P P' g nb w d d' qs qs' : 0 < P -> 0 < P' -> (forall l x, l <> [] -> nn l x < length l) ->
  proper_survey g -> neighbours_are argsort delaunay g nb -> proper_view g w -> w_seen w = [] ->
  holds_survey nn P g w d -> holds_survey nn P' g w d' ->
  Forall (proper_sevent P g) (map SAsk qs) -> Forall (proper_sevent P' g) (map SAsk qs') ->
  replies nn g nb w (map SAsk qs) = replies nn g nb w (map SAsk qs') ->
  rmap fst (do m <- new_sampling_error nn argsort delaunay P euclidean d ; srun nn P (map SAsk qs) m) =
  rmap fst (do m <- new_sampling_error nn argsort delaunay P' euclidean d' ; srun nn P' (map SAsk qs') m).
Proof.
  intros HP HP' NN PS NB PV W HH HH' F F' E.
  rewrite (sampling_error_answers_partial nn argsort delaunay P g nb w d qs), (sampling_error_answers_partial nn argsort delaunay P' g nb w d' qs') by assumption. exact E.
Qed.
Print Assumptions sampling_error_processes.
Example sprocesses_meet : holds_survey near 1 g_ (w_ None (Some emu_)) (d_ None (Some emu_)) /\ holds_survey near 4 g_ (w_ None (Some emu_)) (d_ None (Some emu_)).
Proof. split; apply w_holds; exact I. Qed.

Theorem sampling_error_keeps_data_partial nn argsort delaunay P g nb w d qs r m : 0 < P -> (forall l x, l <> [] -> nn l x < length l) ->
  proper_survey g -> neighbours_are argsort delaunay g nb -> proper_view g w -> w_seen w = [] -> holds_survey nn P g w d ->
  Forall (fun q => proper_sevent P g (SAsk q)) qs ->
  (do m0 <- new_sampling_error nn argsort delaunay P euclidean d ; srun nn P (map SAsk qs) m0) = Ok (r, m) -> kept d (se_disc m).
Proof. intros HP NN PS NB. exact (kept_lemma nn argsort delaunay P HP NN g PS nb NB euclidean d w qs r m eq_refl). Qed.
Print Assumptions sampling_error_keeps_data_partial.
Example skeeps_meet : is_ok (do m0 <- new_sampling_error near sorting no_simplices 2 euclidean (d_ None (Some emu_)) ; srun near 2 (map SAsk [Contours; about None; about (Some emu_); Contours]) m0) = true.
Proof. vm_compute. reflexivity. Qed.

(** Volumes that the user replaces after they were distributed are overwritten
    with the old ones by the next question about a region. *)
Theorem sampling_error_keeps_data_refuted : exists nn argsort delaunay P d v q m1 m2 a,
  (do m <- new_sampling_error nn argsort delaunay P euclidean d ; rmap snd (srun nn P [SAsk q] m)) = Ok m1 /\
  srun nn P [SAsk q] (on_disc (set_vols v) m1) = Ok (a, m2) /\
  vols_of (set_vols v (se_disc m1)) = Some v /\ vols_of (se_disc m2) <> Some v.
Proof. exact skeeps_refuted_lemma. Qed.
Print Assumptions sampling_error_keeps_data_refuted.

(** ** C172 Changes after the object was built *)

(** New probabilities and new emulated sets count from the next question on, in
    any history.  Part: the probabilities are not distributed, and no global
    pointer of the emulated points was computed if a new emulated set comes. *)
Theorem sampling_error_changes_partial nn argsort delaunay P g nb w d pr es : 0 < P -> (forall l x, l <> [] -> nn l x < length l) ->
  proper_survey g -> neighbours_are argsort delaunay g nb -> proper_view g w -> w_seen w = [] -> holds_survey nn P g w d ->
  Forall (proper_sevent P g) es -> d_prob d = Some pr -> ((exists p, In (SProbs p) es) -> loc pr Probabilities = None) -> (ii d = None \/ no_new_emulated es) ->
  rmap fst (do m <- new_sampling_error nn argsort delaunay P euclidean d ; srun nn P es m) = replies nn g nb w es.
Proof. intros HP NN PS NB. exact (replies_lemma nn argsort delaunay P HP NN g PS nb NB euclidean d w pr es eq_refl). Qed.
Print Assumptions sampling_error_changes_partial.
Example schanges_meet : Forall (proper_sevent 2 g_) [SAsk Contours; SProbs one_zero; SAsk (about None); SEmulated (eset emu_ none_) (map pt emu_); SAsk (about None); SAsk Contours] /\
  show_b (replies near g_ nb_ (w_ None None) [SAsk Contours; SProbs one_zero; SAsk (about None); SEmulated (eset emu_ none_) (map pt emu_); SAsk (about None); SAsk Contours]) =
  Some [([Some (3 # 4); None], [Some (-1 # 2); None]); ([Some 1], [Some (-2 # 3)]); ([Some (1 # 3)], [Some (-4 # 15)]); ([Some 1; Some 0], [Some (-2 # 3); Some 0])]%Q.
Proof.
  split; [|vm_compute; reflexivity]. do 6 (constructor; [first [exact I|reflexivity|apply about_fits|split; [apply eset_points; [reflexivity|discriminate]|discriminate]]|]). constructor.
Qed.

(** A new output probability set: the discretization keeps the global pointer
    into the old one, and so does an object built anew. *)
Theorem sampling_error_later_probability_set_refuted : exists nn argsort delaunay P d pr m d1 g nb w,
  new_sampling_error nn argsort delaunay P euclidean d = Ok m /\ done (set_probability nn P pr (se_disc m)) = Ok d1 /\
  neighbours_are argsort delaunay g nb /\ holds_survey nn P g w (with_io None None d1) /\
  rmap fst (srun nn P [SAsk Contours] (on_disc (fun _ => d1) m)) <> replies nn g nb w [SAsk Contours] /\
  rmap fst (do m' <- new_sampling_error nn argsort delaunay P euclidean d1 ; srun nn P [SAsk Contours] m') <> replies nn g nb w [SAsk Contours].
Proof. exact sprobability_refuted_lemma. Qed.
Print Assumptions sampling_error_later_probability_set_refuted.

(** A new emulated set when the pointer of the old one was computed: the
    answer combines the new points with the cells of the old ones. *)
Theorem sampling_error_later_emulated_refuted : exists nn argsort delaunay P g nb w d e ps q,
  neighbours_are argsort delaunay g nb /\ proper_survey g /\ proper_view g w /\ holds_survey nn P g w d /\ proper_sevent P g (SEmulated e ps) /\ proper_sevent P g (SAsk q) /\
  rmap fst (do m <- new_sampling_error nn argsort delaunay P euclidean d ; srun nn P [SEmulated e ps; SAsk q] m) <> replies nn g nb w [SEmulated e ps; SAsk q].
Proof. exact semulated_refuted_lemma. Qed.
Print Assumptions sampling_error_later_emulated_refuted.

(** ** C173 Zero lies between the bounds *)

(** Part: the touching cells of the event have volume, or no cell touching it
    has. *)
Theorem sampling_bounds_bracket_partial nn argsort delaunay P g nb w d us ls i u l p : 0 < P -> (forall l x, l <> [] -> nn l x < length l) ->
  proper_survey g -> neighbours_are argsort delaunay g nb -> proper_view g w -> w_seen w = [] -> holds_survey nn P g w d ->
  rmap fst (do m <- new_sampling_error nn argsort delaunay P euclidean d ; srun nn P [SAsk Contours] m) = Ok [(us, ls)] ->
  nth_error us i = Some u -> nth_error ls i = Some l -> nth_error (w_probs w) i = Some p ->
  ((0 < p)%Qc -> (0 < cells_vol (sample_events nn g) (volumes_now nn g w) (fun k => touches (sample_events nn g) nb i k && in_ev (sample_events nn g) i k))%Qc \/
     cells_vol (sample_events nn g) (volumes_now nn g w) (touches (sample_events nn g) nb i) = 0%Qc) ->
  brackets u l.
Proof. intros HP NN PS NB. exact (bracket_lemma nn argsort delaunay P HP NN euclidean g nb w d us ls i u l p PS NB eq_refl). Qed.
Print Assumptions sampling_bounds_bracket_partial.
Example bracket_meets : (0 < cells_vol (sample_events near g_) (volumes_now near g_ (w_ None (Some emu_))) (fun k => touches (sample_events near g_) nb_ 0 k && in_ev (sample_events near g_) 0 k))%Qc.
Proof. vm_compute. reflexivity. Qed.

(** Otherwise both bounds are the negative probability: the upper bound is
    below zero.  Such volumes come from emulated points that miss the event. *)
Theorem sampling_bounds_bracket_refuted : exists nn argsort delaunay P g nb w d us ls i u l p,
  (forall l x, l <> [] -> nn l x < length l) /\ proper_survey g /\ neighbours_are argsort delaunay g nb /\ proper_view g w /\ holds_survey nn P g w d /\
  rmap fst (do m <- new_sampling_error nn argsort delaunay P euclidean d ; srun nn P [SAsk Contours] m) = Ok [(us, ls)] /\
  nth_error us i = Some (Fin u) /\ nth_error ls i = Some (Fin l) /\ nth_error (w_probs w) i = Some p /\ (0 < p)%Qc /\ u = (- p)%Qc /\ l = (- p)%Qc.
Proof. exact bracket_refuted_lemma. Qed.
Print Assumptions sampling_bounds_bracket_refuted.
