(** C154: the object between BET and LUQ. *)
From Coq Require Import ZArith List Arith Bool Lia.
From Verif Require Import Err Luq_Model Luq_Spec LuqObj_Model LuqObj_Spec LuqObj_Proofs LuqObj_Examples.
Import ListNotations.
Local Open Scope nat_scope.

(** After any history of calls that returned, the object holds the samples last
    given, the model's answer at the samples of the time it was asked, the
    observations last given or computed, and the learner built from them. *)
Theorem luq_object_history : forall X T S L V (E : environment X T S L V) p0 o0 t0 h x,
  script E (use_luq p0 o0 t0) h = (x, None) ->
  predict_set x = predict_set_by p0 (rev h) /\ obs_set x = obs_set_by o0 (rev h) /\ lo_times x = t0 /\
  predicted_series x = predictions_by E p0 t0 (rev h) /\ observed_series x = observations_by E o0 t0 (rev h) /\
  learn x = learner_by E p0 o0 t0 (rev h).
Proof. exact @history_lemma. Qed.
Print Assumptions luq_object_history.
Example luq_object_history_ex : exists x, script (toy_env 1) toy_start toy_history_by_hand = (x, None) /\
  learn x = Some (mk_toy [11; 12; 14; 15; 17] (Some [1; 2; 3; 4]) true) /\ observed_series x = None.
Proof. eexists. split; [reflexivity|]. split; reflexivity. Qed.

(** A call that raises changes nothing but, for setup, the series and, for the
    learning steps, the learner. *)
Theorem luq_object_failure : forall X T S L V (E : environment X T S L V) x y c e, call_step E x c = (y, Some e) ->
  predict_set y = predict_set x /\ obs_set y = obs_set x /\ lo_times y = lo_times x /\
  (c = Setup \/ predicted_series y = predicted_series x /\ observed_series y = observed_series x) /\
  (c = Setup -> learn y = learn x) /\
  ((exists f, c = Learn f) \/ learn y = learn x).
Proof. exact @failure_lemma. Qed.
Print Assumptions luq_object_failure.
Theorem luq_object_early : forall X T S L V (E : environment X T S L V) p0 o0 t0 h x,
  script E (use_luq p0 o0 t0) h = (x, None) -> (forall c, In c h -> builds c = false) ->
  (forall f, call_step E x (Learn f) = (x, Some PyAttributeError)) /\ make_disc E x = (x, Raise PyAttributeError).
Proof. exact @early_lemma. Qed.
Print Assumptions luq_object_early.
Example luq_object_early_ex : exists x, script (toy_env 1) toy_start [GetPredictions; GetObs] = (x, None) /\
  call_step (toy_env 1) x (Learn toy_learn) = (x, Some PyAttributeError).
Proof. eexists. split; reflexivity. Qed.

(** The discretizations hold the two sample sets of the object and what was
    learned; asking again gives the same ones and leaves the object alone. *)
Theorem luq_object_discs : forall X T S L V (E : environment X T S L V) x y d1 d2, make_disc E x = (y, Ok (d1, d2)) ->
  exists l d ds, learn x = Some l /\ num_pcs (attributes E l) = Some (d :: ds) /\
  ld_input d1 = globalized (predict_set x) /\ ld_input d1 = predict_set y /\ option_map ld_input d2 = obs_set y /\
  lo_dim (ld_output d1) = d /\ lo_maps (ld_output d1) = pmaps (attributes E l) /\
  lo_region (ld_output d1) = option_map (gathered (procs E)) (plabels (attributes E l)) /\
  (exists obs, ld_observed d1 = Some obs /\ lo_dim obs = d /\ lo_maps obs = omaps (attributes E l) /\
     (d2 = None <-> obs_set x = None) /\
     (forall e2, d2 = Some e2 -> ld_output e2 = obs /\ lo_region obs = option_map (gathered (procs E)) (olabels (attributes E l)))) /\
  make_disc E y = (y, Ok (d1, d2)).
Proof. exact @discs_lemma. Qed.
Print Assumptions luq_object_discs.

(** On one process, from the samples to their weights: as many weights as samples,
    each the ratio of its cluster at its transformed data. *)
Theorem luq_object_inversion : forall X T S L V (E : environment X T S L V) R (zero : R) rows count p0 o0 t0 xs h x lrn (l : luq V) ratio,
  procs E = 1 -> one_label_each E rows count -> has_values p0 xs ->
  (forall c, In c h -> foreign c = false) -> (forall f, In (Learn f) h -> keeps count f) ->
  script E (use_luq p0 (Some o0) t0) h = (x, None) -> learn x = Some lrn ->
  complete (attributes E lrn) l -> learned l -> length (predict_labels l) = count lrn ->
  exists y d1 d2 w rs ptrs, make_disc E x = (y, Ok (d1, d2)) /\ ls_values (ld_input d1) = Some xs /\
    invert_ldisc zero 1 d1 ratio = Ok (w, rs, ptrs) /\ length w = length xs /\
    forall k i v, transformed l k i v -> nth_error w k = Some (ratio i v).
Proof. exact @chain_lemma. Qed.
Print Assumptions luq_object_inversion.
Example luq_object_inversion_ex : exists x lrn, script (toy_env 1) toy_start toy_history = (x, None) /\ learn x = Some lrn /\
  one_label_each (toy_env 1) (@length nat) (fun l => length (toy_predict l)) /\ keeps (fun l => length (toy_predict l)) toy_learn /\
  has_values (mk_lset (Some [1; 2; 4; 5; 7]) None) [1; 2; 4; 5; 7] /\
  complete (attributes (toy_env 1) lrn) toy_result /\ learned toy_result /\ length (predict_labels toy_result) = length (toy_predict lrn) /\
  exists y d1 d2, make_disc (toy_env 1) x = (y, Ok (d1, d2)) /\
    invert_ldisc 0 1 d1 (fun i v => 100 * i + v) = Ok ([111; 12; 14; 115; 117], [Some [12; 14]; Some [111; 115; 117]], [[1; 2]; [0; 3; 4]]).
Proof.
  eexists _, _. split; [reflexivity|]. split; [reflexivity|]. split; [|split; [|split; [|split; [|split; [|split]]]]].
  - split; [|split].
    + intros xs t s H. cbn in H. injection H as <-. apply map_length.
    + intros o t l H. discriminate.
    + intros p o t l H. cbn in H. injection H as <-. reflexivity.
  - intros l. reflexivity.
  - split; [reflexivity|discriminate].
  - split; [now exists 1, [1]|]. repeat split.
  - split; [cbn; lia|]. split; [reflexivity|]. split; [|split].
    + intros z H. cbn in H. repeat (destruct H as [<-|H]; [cbn; lia|]). contradiction.
    + intros [|[|i]] m Hm; cbn in Hm; [injection Hm as <- | injection Hm as <- | destruct i; discriminate]; cbn; lia.
    + intros m [<-|[<-|[]]]; cbn; lia.
  - reflexivity.
  - eexists _, _, _. split; reflexivity.
Qed.

(** Observations set by hand do not survive setup: without an observation set it
    raises, with one it replaces them. *)
Theorem luq_object_by_hand_refuted : forall X T S L V (E : environment X T S L V),
  (forall x s a, obs_set x = None -> lb_model E (ls_values (predict_set x)) (lo_times x) = Ok a ->
     snd (call_step E (set_observed s x) Setup) = Some PyAttributeError) /\
  (forall p0 o0 t0 s x, script E (use_luq p0 o0 t0) [SetObserved s; Setup] = (x, None) ->
     script E (use_luq p0 o0 t0) [Setup] = (x, None)).
Proof. intros X T S L V E. exact (conj (by_hand_none_lemma E) (by_hand_lemma E)). Qed.
Print Assumptions luq_object_by_hand_refuted.
(** Samples that are exchanged after the predictions were made are paired with the
    labels of the old ones, without an error. *)
Theorem luq_object_stale_refuted : forall X T S L V (E : environment X T S L V) x y d1 d2 s, make_disc E x = (y, Ok (d1, d2)) ->
  exists z, make_disc E (fst (call_step E x (SetPredictValues s))) = (z, Ok (mk_ldisc (globalized s) (ld_output d1) (ld_observed d1), d2)).
Proof. exact @stale_lemma. Qed.
Print Assumptions luq_object_stale_refuted.
Example luq_object_stale_ex : exists y d1 d2, make_disc (toy_env 1) (fst (call_step (toy_env 1) (fst (script (toy_env 1) toy_start toy_history))
    (SetPredictValues (mk_lset (Some [1; 2]) None)))) = (y, Ok (d1, d2)) /\
  ls_values (ld_input d1) = Some [1; 2] /\ lo_region (ld_output d1) = Some [1; 0; 0; 1; 1]%Z.
Proof. eexists _, _, _. split; [reflexivity|]. split; reflexivity. Qed.

(** A saved object comes back as it was if there is one process. *)
Theorem luq_object_saved_partial : forall X T S L (x : luq_object X T S L),
  (forall b, ls_local (predict_set x) = Some b -> length b = 1) ->
  (forall o b, obs_set x = Some o -> ls_local o = Some b -> length b = 1) -> save_load 0 1 x = x.
Proof. exact @save_serial_lemma. Qed.
Print Assumptions luq_object_saved_partial.
(** With several, make_disc replaces the samples by copies of those of the process
    whose file remained, even if the global array was saved. *)
Theorem luq_object_saved_refuted : forall X T S L V (E : environment X T S L V),
  (forall x y b w d1 d2, ls_local (predict_set x) = Some b -> make_disc E (save_load w (procs E) x) = (y, Ok (d1, d2)) ->
     ls_values (ld_input d1) = Some (concat (repeat (nth w b []) (procs E)))) /\
  (forall (a c : list X) w, a <> [] -> c <> [] -> w < 2 -> concat (repeat (nth w [a; c] []) 1) <> concat [a; c]).
Proof. intros X T S L V E. exact (conj (saved_lemma E) (two_halves X)). Qed.
Print Assumptions luq_object_saved_refuted.
Example luq_object_saved_ex : exists y d1 d2, make_disc (toy_env 1) (save_load 1 1 (fst (script (toy_env 1)
    (use_luq (mk_lset (Some [1; 2; 4; 5]) (Some [[1; 2; 4]; [5]])) (Some (mk_lset (Some [3; 4]) None)) 10) [Setup; Learn toy_learn]))) = (y, Ok (d1, d2)) /\
  ls_values (ld_input d1) = Some [5] /\ lo_region (ld_output d1) = Some [1; 0; 0; 1]%Z.
Proof. eexists _, _, _. split; [reflexivity|]. split; reflexivity. Qed.

(** Samples that only exist as local arrays do not reach the model. *)
Theorem luq_object_distributed_refuted : forall X T S L V (E : environment X T S L V) x b e,
  predict_set x = mk_lset None (Some b) -> lb_model E None (lo_times x) = Raise e -> call_step E x GetPredictions = (x, Some e).
Proof. exact @distributed_lemma. Qed.
Print Assumptions luq_object_distributed_refuted.
Example luq_object_distributed_ex : exists x, predict_set x = mk_lset None (Some [[1; 2]; [4]]) /\
  call_step (toy_env 2) x GetPredictions = (x, Some PyTypeError).
Proof. exists (use_luq (mk_lset None (Some [[1; 2]; [4]])) None 10). split; reflexivity. Qed.
