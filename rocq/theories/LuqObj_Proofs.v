From Coq Require Import ZArith List Arith Bool Lia.
From Verif Require Import Err Inverse_Model Inverse_Spec Luq_Model Luq_Spec Luq_Proofs LuqObj_Model LuqObj_Spec.
Import ListNotations.
Local Open Scope nat_scope.

Section Proofs.
Context {X T S L V : Type} (E : environment X T S L V).
Notation obj := (luq_object X T S L).
Notation history := (list (@call X T S L)).

Lemma script_app : forall (h1 h2 : history) (x : obj), script E x (h1 ++ h2) =
  match script E x h1 with (y, None) => script E y h2 | (y, Some e) => (y, Some e) end.
Proof.
  induction h1 as [|c h1 IH]; intros h2 x; [reflexivity|]. cbn [script app].
  destruct (call_step E x c) as [y [e|]]; [reflexivity|]. apply IH.
Qed.

(** The object holds what the history says. *)
Definition holds (p0 : lset X) (o0 : option (lset X)) (t0 : T) (h : history) (x : obj) : Prop :=
  predict_set x = predict_set_by p0 h /\ obs_set x = obs_set_by o0 h /\ lo_times x = t0 /\
  predicted_series x = predictions_by E p0 t0 h /\ observed_series x = observations_by E o0 t0 h /\
  learn x = learner_by E p0 o0 t0 h.

Lemma obs_none : forall o0 (h : history), o0 = None -> obs_set_by o0 h = None.
Proof. intros o0 h ->. induction h as [|[] h IH]; cbn; trivial. now rewrite IH. Qed.
Lemma obs_some : forall o0 (h : history), o0 <> None -> obs_set_by o0 h <> None.
Proof. intros o0 h H. destruct o0 as [o|]; [|congruence]. induction h as [|[] h IH]; cbn; trivial; try discriminate. now destruct (obs_set_by _ h). Qed.

Lemma step_holds : forall p0 o0 t0 h (x y : obj) c, holds p0 o0 t0 h x -> call_step E x c = (y, None) -> holds p0 o0 t0 (c :: h) y.
Proof.
  intros p0 o0 t0 h x y c (Hp & Ho & Ht & Hps & Hos & Hl) H.
  destruct c as [| |s|p o t| |f| |s|s]; cbn [call_step] in H.
  - unfold get_predictions in H. destruct (lb_model E _ _) as [s|e] eqn:Em; [|discriminate]. injection H as <-.
    unfold holds; cbn. do 3 (split; [assumption|]). split; [|split; assumption].
    unfold answer. rewrite <- Hp, <- Ht, Em. reflexivity.
  - unfold get_obs in H. destruct (obs_set x) as [o|] eqn:Eo; [|discriminate].
    destruct (lb_model E _ _) as [s|e] eqn:Em; [|discriminate]. injection H as <-.
    unfold holds; cbn. split; [assumption|]. split; [assumption|]. split; [assumption|]. split; [assumption|].
    split; [|assumption]. rewrite <- Ho. cbn. unfold answer. now rewrite <- Ht, Em.
  - injection H as <-. unfold holds; cbn. repeat (split; try assumption).
  - unfold initialize in H. destruct (importable E); [|discriminate].
    destruct (new_luq E _ _ _) as [l|e] eqn:El; [|discriminate]. injection H as <-.
    unfold holds; cbn. do 5 (split; [assumption|]). unfold built. rewrite <- Hps, <- Hos, <- Ht. unfold default in El.
    assert (Ep : (match p with Some _ => p | None => predicted_series x end) = match p with Some v => Some v | None => predicted_series x end) by now destruct p.
    assert (Eq : (match o with Some _ => o | None => observed_series x end) = match o with Some v => Some v | None => observed_series x end) by now destruct o.
    rewrite Ep, Eq, El. reflexivity.
  - unfold setup in H. unfold get_predictions in H at 1. destruct (lb_model E (ls_values (predict_set x)) _) as [s|e] eqn:Em; [|discriminate].
    cbn -[initialize] in H. unfold get_obs in H. cbn -[initialize] in H.
    destruct (obs_set x) as [o|] eqn:Eo; [|discriminate].
    destruct (lb_model E (ls_values o) _) as [u|e] eqn:Eu; [|discriminate]. cbn -[initialize] in H.
    unfold initialize in H. destruct (importable E); [|discriminate]. cbn in H.
    destruct (new_luq E _ _ _) as [l|e] eqn:El; [|discriminate]. injection H as <-.
    assert (Ea : answer E t0 (predict_set_by p0 h) = Some s) by (unfold answer; now rewrite <- Hp, <- Ht, Em).
    assert (Eb : answer_opt E t0 (obs_set_by o0 h) = Some u) by (rewrite <- Ho; cbn; unfold answer; now rewrite <- Ht, Eu).
    unfold holds; cbn. split; [assumption|]. split; [assumption|]. split; [assumption|].
    rewrite Ea, Eb. do 2 (split; [reflexivity|]). unfold built. now rewrite <- Ht, El.
  - unfold learn_call in H. destruct (learn x) as [l|] eqn:El; [|discriminate]. injection H as <- Hf.
    unfold holds; cbn. do 5 (split; [assumption|]). now rewrite <- Hl.
  - unfold make_disc in H. destruct (learn x) as [l|] eqn:El; [|discriminate].
    destruct (num_pcs _) as [[|d ds]|]; try discriminate.
    destruct (obs_set x) as [o|] eqn:Eo; cbn in H; injection H as <-;
    unfold holds; cbn; (split; [now rewrite Hp|]); (split; [now rewrite <- Ho|]); repeat (split; try assumption).
  - injection H as <-. unfold holds; cbn. repeat (split; try assumption; try reflexivity).
  - injection H as <-. unfold holds; cbn. split; [assumption|]. split; [|repeat (split; try assumption)].
    rewrite Ho. destruct o0 as [o|].
    + destruct (obs_set_by (Some o) h) eqn:Z; [reflexivity|]. now apply (obs_some (Some o) h) in Z.
    + now rewrite (obs_none None h eq_refl).
Qed.

Lemma history_lemma : forall p0 o0 t0 (h : history) (x : obj), script E (use_luq p0 o0 t0) h = (x, None) -> holds p0 o0 t0 (rev h) x.
Proof.
  intros p0 o0 t0 h. induction h as [|c h IH] using rev_ind; intros x H.
  - cbn in H. injection H as <-. unfold holds, use_luq; cbn. repeat split.
  - rewrite script_app in H. destruct (script E (use_luq p0 o0 t0) h) as [y [e|]]; [discriminate|].
    cbn [script] in H. rewrite rev_app_distr. cbn [rev app].
    destruct (call_step E y c) as [z [e|]] eqn:Ec; [discriminate|]. injection H as <-.
    exact (step_holds _ _ _ _ _ _ _ (IH y eq_refl) Ec).
Qed.

(** A call that raises leaves the object alone, except that setup may have stored
    series and that the learner may have worked on its own state. *)
Lemma failure_lemma : forall (x y : obj) c e, call_step E x c = (y, Some e) ->
  predict_set y = predict_set x /\ obs_set y = obs_set x /\ lo_times y = lo_times x /\
  (c = Setup \/ predicted_series y = predicted_series x /\ observed_series y = observed_series x) /\
  (c = Setup -> learn y = learn x) /\
  ((exists f, c = Learn f) \/ learn y = learn x).
Proof.
  intros x y c e H. destruct c as [| |s|p o t| |f| |s|s]; cbn [call_step] in H; try discriminate.
  - unfold get_predictions in H. destruct (lb_model E _ _); [discriminate|]. injection H as <- <-. auto 10.
  - unfold get_obs in H. destruct (obs_set x) as [o|] eqn:Eo; [destruct (lb_model E _ _); [discriminate|]|]; injection H as <- <-; rewrite ?Eo; auto 10.
  - unfold initialize in H. destruct (importable E); [destruct (new_luq E _ _ _); [discriminate|]|]; injection H as <- <-; auto 10.
  - unfold setup in H. unfold get_predictions in H at 1. destruct (lb_model E (ls_values (predict_set x)) _) as [s|e1]; [|injection H as <- <-; auto 10].
    cbn -[initialize] in H. unfold get_obs in H. cbn -[initialize] in H.
    destruct (obs_set x) as [o|] eqn:Eo; [|injection H as <- <-; cbn; auto 10].
    destruct (lb_model E (ls_values o) _) as [u|e1]; [|injection H as <- <-; cbn; auto 10]. cbn -[initialize] in H.
    unfold initialize in H. destruct (importable E); [destruct (new_luq E _ _ _); [discriminate|]|]; injection H as <- <-; cbn; auto 10.
  - unfold learn_call in H. destruct (learn x) as [l|] eqn:El; injection H as <- H; cbn; rewrite ?El.
    + do 3 (split; [reflexivity|]). split; [right; split; reflexivity|]. split; [discriminate|]. left. now exists f.
    + auto 10.
  - unfold make_disc in H. destruct (learn x) as [l|] eqn:El; [|injection H as <- <-; rewrite ?El; auto 10].
    destruct (num_pcs _) as [[|d ds]|]; try (injection H as <- <-; rewrite ?El; auto 10; fail).
    destruct (obs_set x); cbn in H; discriminate.
Qed.

Lemma learner_none : forall p0 o0 t0 (h : history), (forall c, In c h -> builds c = false) -> learner_by E p0 o0 t0 h = None.
Proof.
  induction h as [|c h IH]; intros H; [reflexivity|].
  assert (Hh : learner_by E p0 o0 t0 h = None) by (apply IH; intros d Hd; apply H; now right).
  assert (Hc := H c (or_introl eq_refl)).
  destruct c; cbn in *; try discriminate; trivial. now rewrite Hh.
Qed.
Lemma early_lemma : forall p0 o0 t0 (h : history) (x : obj), script E (use_luq p0 o0 t0) h = (x, None) ->
  (forall c, In c h -> builds c = false) ->
  (forall f, call_step E x (Learn f) = (x, Some PyAttributeError)) /\ make_disc E x = (x, Raise PyAttributeError).
Proof.
  intros p0 o0 t0 h x H Hb. apply history_lemma in H. destruct H as (_ & _ & _ & _ & _ & Hl).
  rewrite learner_none in Hl by (intros c Hc; apply Hb; now apply in_rev).
  split; [intros f; cbn; unfold learn_call; now rewrite Hl | unfold make_disc; now rewrite Hl].
Qed.

Lemma globalized_idem : forall s : lset X, globalized (globalized s) = globalized s.
Proof. intros [v [b|]]; reflexivity. Qed.

(** make_disc: what the discretizations contain; asking again gives them again. *)
Lemma discs_lemma : forall (x y : obj) d1 d2, make_disc E x = (y, Ok (d1, d2)) ->
  exists l d ds, learn x = Some l /\ num_pcs (attributes E l) = Some (d :: ds) /\
  ld_input d1 = globalized (predict_set x) /\ ld_input d1 = predict_set y /\ option_map ld_input d2 = obs_set y /\
  lo_dim (ld_output d1) = d /\ lo_maps (ld_output d1) = pmaps (attributes E l) /\
  lo_region (ld_output d1) = option_map (gathered (procs E)) (plabels (attributes E l)) /\
  (exists obs, ld_observed d1 = Some obs /\ lo_dim obs = d /\ lo_maps obs = omaps (attributes E l) /\
     (d2 = None <-> obs_set x = None) /\ (forall e2, d2 = Some e2 -> ld_output e2 = obs /\ lo_region obs = option_map (gathered (procs E)) (olabels (attributes E l)))) /\
  make_disc E y = (y, Ok (d1, d2)).
Proof.
  intros x y d1 d2 H. unfold make_disc in H. destruct (learn x) as [l|] eqn:El; [|discriminate].
  destruct (num_pcs (attributes E l)) as [[|d ds]|] eqn:En; try discriminate. cbv zeta in H.
  exists l, d, ds. split; [reflexivity|]. split; [exact En|].
  destruct (obs_set x) as [o|] eqn:Eo; injection H as <- <- <-.
  - cbn [ld_input ld_output ld_observed predict_set obs_set option_map gather_lout lo_dim lo_maps lo_region lo_region_local].
    do 3 (split; [reflexivity|]). do 2 (split; [reflexivity|]). split; [now destruct (plabels (attributes E l))|].
    split.
    + eexists. split; [reflexivity|]. cbn. do 2 (split; [reflexivity|]). split; [split; discriminate|].
      intros e2 He. injection He as <-. split; [reflexivity|]. now destruct (olabels (attributes E l)).
    + unfold make_disc. cbn [learn obs_set predict_set lo_times predicted_series observed_series]. rewrite En. cbv zeta. now rewrite !globalized_idem.
  - cbn [ld_input ld_output ld_observed predict_set obs_set option_map gather_lout lo_dim lo_maps lo_region lo_region_local].
    do 3 (split; [reflexivity|]). do 2 (split; [reflexivity|]). split; [now destruct (plabels (attributes E l))|].
    split.
    + eexists. split; [reflexivity|]. cbn. do 2 (split; [reflexivity|]). split; [split; reflexivity|]. discriminate.
    + unfold make_disc. cbn [learn obs_set predict_set lo_times predicted_series observed_series]. rewrite En. cbv zeta. now rewrite !globalized_idem.
Qed.

(** The chain ends where Luq_Proofs begins. *)
Lemma invert_ldisc_luq : forall R (zero : R) (x : obj) (lrn : L) (l : luq V) ratio,
  learn x = Some lrn -> complete (attributes E lrn) l ->
  exists y d1 d2, make_disc E x = (y, Ok (d1, d2)) /\
    invert_ldisc zero (procs E) d1 ratio = luq_invert zero (procs E) (match obs_set x with Some _ => true | None => false end) l ratio.
Proof.
  intros R zero x lrn l ratio Hl (Hd & Hp & Hm & Ho & Hom). destruct Hd as (d & ds & Hd).
  unfold make_disc. rewrite Hl, Hd, Hp, Hm, Ho, Hom. cbv zeta.
  destruct (obs_set x) as [o|]; eexists _, _, _; (split; [reflexivity|]); unfold invert_ldisc, luq_invert, make_disc_regions; cbn -[gathered fold_result]; reflexivity.
Qed.


Lemma values_lemma : forall p0 xs (h : history), has_values p0 xs -> (forall c, In c h -> foreign c = false) -> has_values (predict_set_by p0 h) xs.
Proof.
  intros p0 xs h Hv. induction h as [|c h IH]; intros Hc; [exact Hv|].
  assert (Hh : has_values (predict_set_by p0 h) xs) by (apply IH; intros d Hd; apply Hc; now right).
  assert (Hd := Hc c (or_introl eq_refl)). destruct c; cbn in *; try assumption; try discriminate.
  destruct Hh as [H1 H2]. unfold has_values, globalized; cbn. destruct (ls_local _) as [b|] eqn:Eb; [|split; [assumption|discriminate]].
  split; [f_equal; now apply H2 | intros b' Hb'; injection Hb' as <-; now apply H2].
Qed.
Lemma answer_rows : forall rows count p0 xs t0 s, one_label_each E rows count -> has_values p0 xs -> answer E t0 p0 = Some s -> rows s = length xs.
Proof.
  intros rows count p0 xs t0 s (H1 & _ & _) [Hv _] H. unfold answer in H. rewrite Hv in H.
  destruct (lb_model E (Some xs) t0) as [y|e] eqn:Em; [|discriminate]. injection H as <-. exact (H1 _ _ _ Em).
Qed.
Lemma predictions_rows : forall rows count p0 xs t0 (h : history) s, one_label_each E rows count -> has_values p0 xs ->
  (forall c, In c h -> foreign c = false) -> predictions_by E p0 t0 h = Some s -> rows s = length xs.
Proof.
  intros rows count p0 xs t0 h s H1 Hv. induction h as [|c h IH]; intros Hc H; [discriminate|].
  assert (Hh : forall d, In d h -> foreign d = false) by (intros d Hd; apply Hc; now right).
  destruct c; cbn in H; try (now apply IH);
    exact (answer_rows _ _ _ _ _ _ H1 (values_lemma _ _ _ Hv Hh) H).
Qed.
Lemma built_count : forall rows count p o t l, one_label_each E rows count -> built E p o t = Some l -> exists s, p = Some s /\ count l = rows s.
Proof.
  intros rows count p o t l (_ & H2 & H3) H. unfold built in H. destruct (new_luq E p o t) as [l'|e] eqn:En; [|discriminate]. injection H as <-.
  destruct p as [s|]; [|now apply H2 in En]. exists s. split; [reflexivity|]. exact (H3 _ _ _ _ En).
Qed.
Lemma count_lemma : forall rows count p0 o0 t0 xs (h : history) l, one_label_each E rows count -> has_values p0 xs ->
  (forall c, In c h -> foreign c = false) -> (forall f, In (Learn f) h -> keeps count f) ->
  learner_by E p0 o0 t0 h = Some l -> count l = length xs.
Proof.
  intros rows count p0 o0 t0 xs h l H1 Hv. revert l. induction h as [|c h IH]; intros l Hc Hf H; [discriminate|].
  assert (Hh : forall d, In d h -> foreign d = false) by (intros d Hd; apply Hc; now right).
  assert (Hg : forall f, In (Learn f) h -> keeps count f) by (intros f Hk; apply Hf; now right).
  assert (Hd := Hc c (or_introl eq_refl)).
  destruct c as [| |s|p o t| |f| |s|s]; cbn in H; try (now apply IH); try discriminate.
  - destruct p as [p|]; [discriminate|]. destruct (built_count _ _ _ _ _ _ H1 H) as (s & Hs & ->).
    exact (predictions_rows _ _ _ _ _ _ _ H1 Hv Hh Hs).
  - destruct (built_count _ _ _ _ _ _ H1 H) as (s & Hs & ->).
    exact (answer_rows _ _ _ _ _ _ H1 (values_lemma _ _ _ Hv Hh) Hs).
  - destruct (learner_by E p0 o0 t0 h) as [k|] eqn:Ek; [|discriminate]. cbn in H. injection H as <-.
    rewrite (Hf f (or_introl eq_refl)). now apply IH.
Qed.

Lemma chain_lemma : forall R (zero : R) rows count p0 o0 t0 xs (h : history) (x : obj) lrn (l : luq V) ratio,
  procs E = 1 -> one_label_each E rows count -> has_values p0 xs ->
  (forall c, In c h -> foreign c = false) -> (forall f, In (Learn f) h -> keeps count f) ->
  script E (use_luq p0 (Some o0) t0) h = (x, None) -> learn x = Some lrn ->
  complete (attributes E lrn) l -> learned l -> length (predict_labels l) = count lrn ->
  exists y d1 d2 w rs ptrs, make_disc E x = (y, Ok (d1, d2)) /\ ls_values (ld_input d1) = Some xs /\
    invert_ldisc zero 1 d1 ratio = Ok (w, rs, ptrs) /\ length w = length xs /\
    forall k i v, transformed l k i v -> nth_error w k = Some (ratio i v).
Proof.
  intros R zero rows count p0 o0 t0 xs h x lrn l ratio HP H1 Hv Hc Hf Hs Hl Hcomp Hlearned Hcount.
  assert (Hh := history_lemma _ _ _ _ _ Hs). destruct Hh as (Hp & Ho & _ & _ & _ & Hle).
  assert (Hc' : forall c, In c (rev h) -> foreign c = false) by (intros c Hc'; apply Hc; now apply in_rev).
  assert (Hf' : forall f, In (Learn f) (rev h) -> keeps count f) by (intros f Hf'; apply Hf; now apply in_rev).
  rewrite Hl in Hle. assert (Hn := count_lemma _ _ _ _ _ _ _ _ H1 Hv Hc' Hf' (eq_sym Hle)).
  destruct (invert_ldisc_luq R zero x lrn l ratio Hl Hcomp) as (y & d1 & d2 & Hm & Hi).
  assert (Hob : obs_set x <> None) by (rewrite Ho; now apply obs_some).
  destruct (obs_set x) as [ob|]; [|congruence]. rewrite HP in Hi.
  destruct (one_process_lemma V R zero l ratio Hlearned) as (w & rs & ptrs & Hw & Hlen & Ht).
  exists y, d1, d2, w, rs, ptrs. split; [exact Hm|]. split.
  - destruct (discs_lemma _ _ _ _ Hm) as (l' & d & ds & _ & _ & Hin & _). rewrite Hin, Hp.
    destruct (values_lemma _ _ _ Hv Hc') as [V1 V2]. unfold globalized; cbn. destruct (ls_local _) as [b|] eqn:Eb; [|exact V1].
    f_equal. now apply V2.
  - split; [now rewrite Hi|]. split; [lia|exact Ht].
Qed.

(** Observations given by hand. *)
Lemma by_hand_lemma : forall p0 o0 t0 s (x : obj), script E (use_luq p0 o0 t0) [SetObserved s; Setup] = (x, None) ->
  script E (use_luq p0 o0 t0) [Setup] = (x, None).
Proof.
  intros p0 o0 t0 s x H. cbn [script call_step] in *. unfold setup, get_predictions, get_obs, set_observed, use_luq in *.
  cbn -[initialize] in *. destruct (lb_model E (ls_values p0) t0) as [a|e]; [|discriminate]. cbn -[initialize] in *.
  destruct o0 as [o|]; [|discriminate]. destruct (lb_model E (ls_values o) t0) as [b|e]; [|discriminate]. cbn -[initialize] in *. exact H.
Qed.
Lemma by_hand_none_lemma : forall (x : obj) s a, obs_set x = None -> lb_model E (ls_values (predict_set x)) (lo_times x) = Ok a ->
  snd (call_step E (set_observed s x) Setup) = Some PyAttributeError.
Proof.
  intros x s a Ho Hm. cbn [call_step]. unfold setup, get_predictions, get_obs, set_observed. cbn -[initialize]. rewrite Hm. cbn. now rewrite Ho.
Qed.

(** Samples exchanged later. *)
Lemma stale_lemma : forall (x y : obj) d1 d2 s, make_disc E x = (y, Ok (d1, d2)) ->
  exists z, make_disc E (fst (call_step E x (SetPredictValues s))) = (z, Ok (mk_ldisc (globalized s) (ld_output d1) (ld_observed d1), d2)).
Proof.
  intros x y d1 d2 s H. unfold make_disc in *. cbn [call_step fst learn obs_set predict_set] in *.
  destruct (learn x) as [l|]; [|discriminate]. destruct (num_pcs _) as [[|d ds]|]; try discriminate. cbv zeta in *.
  destruct (obs_set x) as [o|]; injection H as <- <- <-; eexists; reflexivity.
Qed.

(** Saving. *)
Lemma save_serial_lemma : forall (x : obj), (forall b, ls_local (predict_set x) = Some b -> length b = 1) ->
  (forall o b, obs_set x = Some o -> ls_local o = Some b -> length b = 1) -> save_load 0 1 x = x.
Proof.
  intros [p o t a b l] Hp Ho. unfold save_load. cbn in *. f_equal.
  - destruct p as [v [lo|]]; [|reflexivity]. unfold loaded_lset; cbn. specialize (Hp lo eq_refl).
    destruct lo as [|u [|]]; try discriminate. reflexivity.
  - destruct o as [[v [lo|]]|]; cbn; [|reflexivity|reflexivity]. specialize (Ho _ lo eq_refl eq_refl).
    destruct lo as [|u [|]]; try discriminate. reflexivity.
Qed.
Lemma repeat_concat_length : forall A (l : list A) n, length (concat (repeat l n)) = n * length l.
Proof. induction n as [|n IH]; [reflexivity|]. cbn. rewrite app_length, IH. reflexivity. Qed.
Lemma saved_lemma : forall (x y : obj) b w d1 d2, ls_local (predict_set x) = Some b ->
  make_disc E (save_load w (procs E) x) = (y, Ok (d1, d2)) ->
  ls_values (ld_input d1) = Some (concat (repeat (nth w b []) (procs E))).
Proof.
  intros x y b w d1 d2 Hb H. destruct (discs_lemma _ _ _ _ H) as (l & d & ds & _ & _ & -> & _).
  unfold save_load, loaded_lset, globalized; cbn. now rewrite Hb.
Qed.
Lemma two_halves : forall A (a c : list A) w, a <> [] -> c <> [] -> w < 2 -> concat (repeat (nth w [a; c] []) 1) <> concat [a; c].
Proof.
  intros A a c w Ha Hc Hw H. apply (f_equal (@length A)) in H. cbn [repeat concat] in H. rewrite !app_nil_r in H. rewrite app_length in H.
  destruct a; [congruence|]. destruct c; [congruence|]. destruct w as [|[|w]]; cbn in H; lia.
Qed.

(** Distributed samples. *)
Lemma distributed_lemma : forall (x : obj) b e, predict_set x = mk_lset None (Some b) -> lb_model E None (lo_times x) = Raise e ->
  call_step E x GetPredictions = (x, Some e).
Proof. intros x b e Hp He. cbn. unfold get_predictions. rewrite Hp. cbn. now rewrite He. Qed.
End Proofs.
