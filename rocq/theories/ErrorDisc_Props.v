(** Properties C164-C166: model_error objects. *)
From Coq Require Import List Arith Bool QArith Qcanon Lia.
From Verif Require Import Err Num Ext NumPy SampleSet_Model SampleSet_Spec Disc_Model Disc_Spec Disc_Examples Error_Spec
  ErrorDisc_Model ErrorDisc_Spec ErrorDisc4_Proofs ErrorDisc_Examples.
Import ListNotations.
Local Open Scope nat_scope.
Local Open Scope err_scope.

(** ** C164 The answers *)

(** The object is built, and any questions asked in any order on any number of
    processes get the answers of the specification: the shares that the output
    errors move between the events. *)
Theorem model_error_answers nn P b d w qs : 0 < P -> (forall l x, l <> [] -> nn l x < length l) ->
  well_posed b -> holds_problem nn P b d -> stored_volumes d w -> (forall x, In x (input_volumes nn b w) -> (0 <= x)%Qc) ->
  Forall (proper_question P b) qs ->
  rmap fst (do m <- new_model_error nn P d ; pose_all nn P qs m) = in_turn (map (answer nn b (input_volumes nn b w)) qs).
Proof. intros HP NN WP. exact (answers_lemma nn P HP NN b WP d w qs). Qed.
Print Assumptions model_error_answers.

Example answers_meet em v : In v [None; Some vs_] -> em <> Some [] ->
  well_posed (b_ em) /\ holds_problem near 2 (b_ em) (d_ v em) /\ stored_volumes (d_ v em) v /\ Forall (proper_question 2 (b_ em)) [Contours; about None; about (Some emu_); Contours].
Proof.
  intros Hv N. split; [apply b_posed; exact N|]. split; [apply d_holds; destruct Hv as [<-|[<-|[]]]; [exact I|reflexivity]|].
  split; [eexists; split; [reflexivity|]; destruct Hv as [<-|[<-|[]]]; reflexivity|]. do 4 (constructor; [first [exact I|apply about_proper]|]). constructor.
Qed.
Example answers_value : map (rmap (map show_x)) (map (answer near (b_ None) (input_volumes near (b_ None) None)) [Contours; about None; about (Some emu_)]) =
  [Ok [Some 0; Some (1 # 8)]; Ok [Some (-1 # 8)]; Ok [Some (-1 # 4)]]%Q.
Proof. vm_compute. reflexivity. Qed.
Example answers_nonneg : forall x, In x (input_volumes near (b_ None) None) -> (0 <= x)%Qc.
Proof. intros x H. repeat (destruct H as [<-|H]; [unfold Qcle; vm_compute; discriminate|]). contradiction. Qed.

(** The same data on another number of processes, or after other calls, gives
    the same answers. *)
Theorem model_error_processes nn P P' b d d' w qs qs' : 0 < P -> 0 < P' -> (forall l x, l <> [] -> nn l x < length l) ->
  well_posed b -> holds_problem nn P b d -> holds_problem nn P' b d' -> stored_volumes d w -> stored_volumes d' w ->
  (forall x, In x (input_volumes nn b w) -> (0 <= x)%Qc) ->
  Forall (proper_question P b) qs -> Forall (proper_question P' b) qs' ->
  map (answer nn b (input_volumes nn b w)) qs = map (answer nn b (input_volumes nn b w)) qs' ->
  rmap fst (do m <- new_model_error nn P d ; pose_all nn P qs m) = rmap fst (do m <- new_model_error nn P' d' ; pose_all nn P' qs' m).
Proof.
  intros HP HP' NN WP H H' W W' NV F F' E.
  rewrite (model_error_answers nn P b d w qs), (model_error_answers nn P' b d' w qs') by assumption. rewrite E. reflexivity.
Qed.
Print Assumptions model_error_processes.
Example processes_meet : holds_problem near 1 (b_ (Some emu_)) (d_ (Some vs_) (Some emu_)) /\ holds_problem near 3 (b_ (Some emu_)) (d_ (Some vs_) (Some emu_)).
Proof. split; apply d_holds; reflexivity. Qed.

(** Without error estimates the object is refused. *)
Theorem model_error_needs_estimates nn P d out n : d_out d = Some out -> check_num P out = Ok n ->
  glob out ErrorEstimates = None -> loc out ErrorEstimates = None -> new_model_error nn P d = Raise WrongArgumentType.
Proof. exact (refused_lemma nn P d out n). Qed.
Print Assumptions model_error_needs_estimates.
Example needs_estimates_meet : check_num 2 ex_out = Ok 2 /\ glob ex_out ErrorEstimates = None /\ loc ex_out ErrorEstimates = None.
Proof. vm_compute. auto. Qed.

(** A set without region labels is refused. *)
Theorem model_error_needs_regions nn P s region em m : glob s Region = None -> region_errors nn P s region em m = Raise WrongArgumentType.
Proof. intros E. unfold region_errors, marker. rewrite E. reflexivity. Qed.
Print Assumptions model_error_needs_regions.
Example needs_regions_meet : glob ex_out Region = None.
Proof. reflexivity. Qed.

(** ** C165 What is stored stays *)

Theorem model_error_keeps_data_partial nn P b d w qs r m : 0 < P -> (forall l x, l <> [] -> nn l x < length l) ->
  well_posed b -> holds_problem nn P b d -> stored_volumes d w -> (forall x, In x (input_volumes nn b w) -> (0 <= x)%Qc) ->
  Forall (proper_question P b) qs -> (do m0 <- new_model_error nn P d ; pose_all nn P qs m0) = Ok (r, m) -> nothing_lost d (me_disc m).
Proof. intros HP NN WP. exact (kept_lemma nn P HP NN b WP d w qs r m). Qed.
Print Assumptions model_error_keeps_data_partial.
Example keeps_data_meet : is_ok (do m0 <- new_model_error near 2 (d_ None None) ; pose_all near 2 [Contours; about None; about (Some emu_); Contours] m0) = true.
Proof. vm_compute. reflexivity. Qed.

(** Volumes that the user replaces after they were distributed are overwritten
    with the old ones by the next question about a region. *)
Theorem model_error_keeps_data_refuted : exists nn P d v q m1 m2 a,
  (do m <- new_model_error nn P d ; rmap snd (contour_errors nn P m)) = Ok m1 /\
  pose nn P q (with_disc (set_vols v) m1) = Ok (a, m2) /\
  vols_of (set_vols v (me_disc m1)) = Some v /\ vols_of (me_disc m2) <> Some v.
Proof. exact keeps_refuted_lemma. Qed.
Print Assumptions model_error_keeps_data_refuted.

(** ** C166 Changes after the object was built *)

(** New probabilities count from the next question on, in any history. *)
Theorem model_error_changes_partial nn P b d w pr es : 0 < P -> (forall l x, l <> [] -> nn l x < length l) ->
  well_posed b -> holds_problem nn P b d -> d_prob d = Some pr -> loc pr Probabilities = None -> stored_volumes d w ->
  (forall x, In x (input_volumes nn b w) -> (0 <= x)%Qc) -> Forall (proper_event P b) es ->
  (do m <- new_model_error nn P d ; run nn P es m) = in_turn (answers_now nn b (input_volumes nn b w) es).
Proof. intros HP NN. exact (run_lemma nn P HP NN b d w pr es). Qed.
Print Assumptions model_error_changes_partial.
Example changes_meet : Forall (proper_event 2 (b_ None)) [Ask Contours; NewProbs [0; 1]%Qc; Ask Contours; Ask (about None)] /\
  map (rmap (map show_x)) (answers_now near (b_ None) (input_volumes near (b_ None) None) [Ask Contours; NewProbs [0; 1]%Qc; Ask Contours; Ask (about None)]) =
    [Ok [Some 0; Some (1 # 8)]; Ok [Some 0; Some (1 # 2)]; Ok [Some (-1 # 2)]]%Q.
Proof. split; [do 4 (constructor; [first [exact I|reflexivity|apply about_proper]|]); constructor|vm_compute; reflexivity]. Qed.

(** An emulated set given to the discretization later makes questions about
    regions raise, although an object built anew answers them. *)
Theorem model_error_later_emulated_refuted : exists nn P d e d1 m s region x m2,
  new_model_error nn P d = Ok m /\ done (set_emulated_input e (me_disc m)) = Ok d1 /\
  region_errors nn P s region None (mk_merr d1 (me_new m)) = Raise PyAttributeError /\
  (do m' <- new_model_error nn P d1 ; region_errors nn P s region None m') = Ok (x, m2).
Proof. exact emulated_refuted_lemma. Qed.
Print Assumptions model_error_later_emulated_refuted.

(** Another output probability set given later: the object compares pointers
    into the new set with pointers into the old one. *)
Theorem model_error_later_probability_set_refuted : exists nn P d pr d1 m r r' m1 m2,
  new_model_error nn P d = Ok m /\ done (set_probability nn P pr (me_disc m)) = Ok d1 /\
  contour_errors nn P (mk_merr d1 (me_new m)) = Ok (r, m1) /\
  (do m' <- new_model_error nn P d1 ; contour_errors nn P m') = Ok (r', m2) /\ r <> r'.
Proof. exact probability_refuted_lemma. Qed.
Print Assumptions model_error_later_probability_set_refuted.

(** New volumes are ignored once the old ones were distributed, also by an
    object built anew. *)
Theorem model_error_later_volumes_refuted : exists nn P b v v' d m1 r m2 r' m3,
  holds_problem nn P b d /\ stored_volumes d (Some v) /\
  (do m <- new_model_error nn P d ; rmap snd (contour_errors nn P m)) = Ok m1 /\
  contour_errors nn P (with_disc (set_vols v') m1) = Ok (r, m2) /\ r <> contour_answer nn b v' /\
  (do m' <- new_model_error nn P (set_vols v' (me_disc m1)) ; contour_errors nn P m') = Ok (r', m3) /\ r' <> contour_answer nn b v'.
Proof. exact volumes_refuted_lemma. Qed.
Print Assumptions model_error_later_volumes_refuted.
