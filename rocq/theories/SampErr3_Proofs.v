(** Zero and the bounds; sets the object refuses. *)
From Coq Require Import List Arith Bool QArith Qcanon Lia.
From Verif Require Import Err Num Ext NumPy Lists SampleSet_Model Disc_Model Disc_Spec Error_Model Error_Spec ErrorDisc_Model ErrorDisc_Spec SampErr_Model SampErr_Spec SampErr_Proofs SampErr2_Proofs.
Import ListNotations.
Local Open Scope nat_scope.
Local Open Scope err_scope.

Lemma bounds_bracket p a c d : (0 < p)%Qc -> (0 <= a)%Qc -> (a <= d)%Qc -> (d <= c)%Qc -> (0 < d \/ c = 0)%Qc -> brackets (fst (bounds_from p a c d)) (snd (bounds_from p a c d)).
Proof.
  intros Hp Ha Had Hdc H. unfold bounds_from, brackets. destruct (qltb 0 a) eqn:Ea.
  - apply qltb_true in Ea. right. cbn [fst snd xleb]. rewrite !qleb_true. assert (Hc : (0 < c)%Qc) by qc_lra.
    assert (A1 : (a / c <= 1)%Qc) by (apply qc_div_le; [exact Hc|qc_lra]). assert (A2 : (1 <= d / a)%Qc) by (apply qc_le_div; [exact Ea|qc_lra]). split; qc_nra.
  - apply qltb_false in Ea. destruct (qltb 0 d) eqn:Ed.
    + right. cbn [fst snd xleb]. split; [apply qleb_true; qc_lra|reflexivity].
    + apply qltb_false in Ed. destruct H as [H| ->]; [qc_lra|]. left. change (qltb 0 0) with false. split; reflexivity.
Qed.
Lemma event_bracket ev nb v seen i p : (forall x, In x v -> (0 <= x)%Qc) ->
  ((0 < p)%Qc -> (0 < cells_vol ev v (fun k => touches ev nb i k && in_ev ev i k))%Qc \/ cells_vol ev v (touches ev nb i) = 0%Qc) ->
  brackets (fst (event_bounds ev nb v seen i p)) (snd (event_bounds ev nb v seen i p)).
Proof.
  intros Nv H. unfold event_bounds. destruct (qltb 0 p) eqn:Ep; [|right; split; reflexivity]. apply qltb_true in Ep. destruct (_ || _); [|left; split; reflexivity]. apply bounds_bracket.
  - exact Ep.
  - apply cells_vol_nonneg. exact Nv.
  - apply cells_vol_le; [exact Nv|]. apply inside_touches.
  - apply cells_vol_le; [exact Nv|]. intros k K. apply andb_true_iff in K. apply K.
  - apply H. exact Ep.
Qed.

Section Contours.
Context (nn : list cell -> cell -> nat) (argsort : list Qc -> list nat) (delaunay : list cell -> result (list (list nat))).
Context (P : nat) (HP : 0 < P) (NN : forall l x, l <> [] -> nn l x < length l).
Lemma bracket_lemma k g nb w d us ls i u l p : proper_survey g -> neighbours_are argsort delaunay g nb -> two_norm k = true -> proper_view g w -> w_seen w = [] -> holds_survey nn P g w d ->
  rmap fst (do m <- new_sampling_error nn argsort delaunay P k d ; srun nn P [SAsk Contours] m) = Ok [(us, ls)] ->
  nth_error us i = Some u -> nth_error ls i = Some l -> nth_error (w_probs w) i = Some p ->
  ((0 < p)%Qc -> (0 < cells_vol (sample_events nn g) (volumes_now nn g w) (fun k => touches (sample_events nn g) nb i k && in_ev (sample_events nn g) i k))%Qc \/
     cells_vol (sample_events nn g) (volumes_now nn g w) (touches (sample_events nn g) nb i) = 0%Qc) ->
  brackets u l.
Proof.
  intros PS NB K PV W HH E Hu Hl Hp H. pose proof HH as (_ & _ & (pr & Ep & _) & _).
  rewrite (replies_lemma nn argsort delaunay P HP NN g PS nb NB k d w pr [SAsk Contours] K PV W HH) in E.
  - cbn [replies reply bind] in E. injection E as <- <-. cbv zeta in *. rewrite map_map in Hu, Hl. rewrite nth_error_map in Hu, Hl.
    assert (Ec : nth_error (combine (seq 0 (length (w_probs w))) (w_probs w)) i = Some (i, p)).
    { rewrite Query_Proofs.nth_error_combine, nth_error_seq, Hp. assert (L : i < length (w_probs w)) by (apply nth_error_Some; congruence). apply Nat.ltb_lt in L. rewrite L. reflexivity. }
    rewrite Ec in Hu, Hl. cbn [option_map fst snd] in Hu, Hl. injection Hu as <-. injection Hl as <-. apply event_bracket; [apply (now_nonneg nn P HP g PS w PV)|exact H].
  - constructor; [exact I|constructor].
  - exact Ep.
  - intros (q & [Hq|[]]). discriminate.
  - right. intros e ps [Hq|[]]. discriminate.
Qed.
Lemma srefused_lemma k d n inp : k <> euclidean -> d_in d = Some inp -> check_nums P d = Ok n -> new_sampling_error nn argsort delaunay P k d = Raise WrongArgumentType.
Proof. intros N E C. assert (K : two_norm k = false).
  { destruct k as [[p| | |]|]; try reflexivity. cbn [two_norm]. destruct (qeqb p (Q2Qc 2)) eqn:Q; [|reflexivity]. apply qeqb_true in Q. subst p. contradiction N. reflexivity. }
  unfold new_sampling_error. rewrite C. cbn [bind]. unfold connectivity. rewrite E. cbn [need bind]. rewrite K. reflexivity. Qed.
End Contours.
