From Coq Require Import String ZArith List Arith Lia Bool QArith Qcanon.
From Verif Require Import Err Num Ext NumPy Lists SampleSet_Model SampleSet_Spec SampleSet_Proofs Disc_Model Disc_Proofs Inverse_Model Inverse_Spec Inverse_Proofs
  Density_Model Density_Spec Density_Proofs Fits_Model Fits_Spec Fits_Proofs Fits2_Proofs Fits3_Proofs Fits4_Proofs Measure_Model Measure_Spec.
Import ListNotations.
Local Open Scope nat_scope.
Local Open Scope err_scope.

Lemma each_same {A B} (f g : A -> result B) l : (forall x, In x l -> f x = g x) -> each f l = each g l.
Proof.
  induction l as [|x l IH]; intros H; [reflexivity|]. cbn [each]. rewrite (H x) by (left; reflexivity). rewrite IH; [reflexivity|]. intros y Hy. apply H. right. exact Hy.
Qed.

Section Calls.
Context (gkde : list cell -> option (list xnum) -> result (cell -> Qc)) (gkde1 : list Qc -> list xnum -> result (Qc -> Qc)).
Context (fit : string -> RvSet_Model.dict -> list Qc -> result (list Qc)).

(** ** A call on data *)
Definition rejection_data (P rank n di : nat) (params : option (arr cell)) (inv : inverted) (draws : nat -> list Qc) : result held :=
  do parts <- keep_clusters inv draws params (seq 0 n) ;
  do a <- subscript params ;
  do s <- resampled_set di parts (tail_shape a) ;
  hold P rank s.
Section Data.
Context (di : nat) (xs : list (list Qc)) (ys zs : list cell) (ls ms : list Z) (p q : nat -> cell -> Qc) (K : nat).
Let the_arr : arr cell := mk_arr (map point_row xs) [di].
Let sol := solution ys p q ls K.
Definition data_law (P : nat) (c : call) : result (option law) :=
  match c with
  | CInvert | CObserve _ => Ok None
  | CKde => do m <- each (fun i => each (marginal_kde gkde1 (Some the_arr) sol i) (seq 0 K)) (seq 0 di) ;
            Ok (Some (LKde (mk_measure m (map (fun j => (qn (length (pointer ms j)) / qn (length zs))%Qc) (seq 0 K)))))
  | CGmm => do cs <- each (gmm_cluster (Some the_arr) sol ms (length zs)) (seq 0 K) ; Ok (Some (LGmm (mk_gmm (map fst cs) (map snd cs))))
  | CGaussian => do tw <- spread_weights sol ms (length zs) (seq 0 K) (repeat (Fin 0) (length xs)) ;
                 do cols <- columns the_arr (rows the_arr) ; Ok (Some (LGmm (mk_gmm [Some (weighted_normal cols tw)] [1%Qc])))
  | CRv rv num => do es <- rv_entries di rv ;
                  do tw <- spread_weights sol ms (length zs) (seq 0 K) (repeat (Fin 0) (length xs)) ;
                  do counts <- each (copies_of num (xsum tw)) tw ;
                  do v <- np_repeat (rows the_arr) counts ;
                  do cols <- each (fun i => coordinates i v) (seq 0 di) ;
                  do fs <- each (fit_one fit) (combine es cols) ; Ok (Some (LRv fs))
  | CReject draws => do hs <- each (fun rank => rejection_data P rank K di (Some the_arr) sol (draws rank)) (seq 0 P) ; Ok None
  end.
Definition law_part (r : result (option law)) : option law := match r with Ok l => l | Raise _ => None end.
Lemma law_part_any P P' c : law_part (data_law P c) = law_part (data_law P' c).
Proof. destruct c; try reflexivity. cbn [data_law]. destruct (each _ (seq 0 P)), (each _ (seq 0 P')); reflexivity. Qed.
End Data.
Definition exn_part {A} (r : result A) : option exn := match r with Ok _ => None | Raise e => Some e end.
Definition refused (di : nat) (c : call) : bool := match c with CRv rv _ => match rv_entries di rv with Ok _ => false | Raise _ => true end | _ => false end.

Section Stored.
Context (P di o oo : nat) (xs : list (list Qc)) (ys zs : list cell) (lo mo : option (list Z)) (w : option (list Qc)) (ls ms : list Z) (p q : nat -> cell -> Qc) (K : nat) (d : rdisc).
Hypothesis HP : 0 < P.
Hypothesis M : matching di xs ys lo zs mo w.
Hypothesis U : used_labels (length ys) (length zs) lo mo = (ls, ms).
Hypothesis St : stores P d di xs o ys lo oo zs mo.
Hypothesis W : weights_init (r_out d) = w.
Hypothesis Es : estimated gkde ys ls w zs ms p q.
Hypothesis HK : clusters ls K.

Lemma all_global_loc e e' a : all_global e = Ok e' -> loc (arrays (r_out e')) a = loc (arrays (r_out e)) a.
Proof.
  unfold all_global. destruct (local_to_global (arrays (r_in e))) as [i|] eqn:Ei; [|discriminate]. cbn [bind]. destruct (local_to_global (arrays (r_out e))) as [s|] eqn:Eo; [|discriminate]. cbn [bind].
  intros [= <-]. cbn [r_out with_arrays arrays]. destruct (local_to_global_spec _ _ Eo) as (_ & D2 & _). rewrite D2. reflexivity.
Qed.
Lemma ensure_loc e e' a : ensure_regions P e = Ok e' -> loc (arrays (r_out e')) a = loc (arrays (r_out e)) a.
Proof.
  unfold ensure_regions. intros E. destruct (glob (arrays (r_out e)) Region), (glob (arrays (r_obs e)) Region).
  1: injection E as <-; reflexivity.
  all: destruct (check_num P (arrays (r_out e))); [|discriminate]; cbn [bind] in E; destruct (check_num P (arrays (r_obs e))); [|discriminate]; cbn [bind] in E; injection E as <-; reflexivity.
Qed.
(** What every call that is not refused leaves. *)
Definition done (d' : rdisc) : Prop :=
  stores P d' di xs o ys (Some ls) oo zs (Some ms) /\ weights_init (r_out d') = w /\ sample_weights (r_in d') = Some (map (weight p q) (combine ys ls)) /\ loc (arrays (r_out d')) Region = loc (arrays (r_out d)) Region.
Lemma start_full : exists d1 d2 d3, all_global d = Ok d1 /\ ensure_regions P d1 = Ok d2 /\ generate_output_kdes gkde P d = Ok (gen_of ys zs p q ls ms K d2) /\
  invert_disc gkde P d2 = Ok (mk_rdisc (set_weights (map (weight p q) (combine ys ls)) (r_in d3)) (r_out d3) (r_obs d3), solution ys p q ls K) /\
  prepared_for P di o oo xs ys zs w ls ms d3 /\ loc (arrays (r_out d3)) Region = loc (arrays (r_out d)) Region /\
  start gkde P d = Ok (K, mk_rdisc (set_weights (map (weight p q) (combine ys ls)) (r_in d3)) (r_out d3) (r_obs d3), solution ys p q ls K, length zs, ms) /\
  invert_disc gkde P d = Ok (mk_rdisc (set_weights (map (weight p q) (combine ys ls)) (r_in d2)) (r_out d2) (r_obs d2), solution ys p q ls K) /\
  prepared_for P di o oo xs ys zs w ls ms d2 /\ loc (arrays (r_out d2)) Region = loc (arrays (r_out d)) Region.
Proof.
  destruct (prepare P di o oo xs ys zs lo mo w ls ms d HP M U St W) as (d1 & d2 & E1 & E2 & Q & SR).
  destruct (prepared_again P di o oo xs ys zs w HP ls ms d2 Q) as (d3 & F1 & F2 & Q3 & SR3).
  exists d1, d2, d3. split; [exact E1|]. split; [exact E2|]. pose proof (generate_from gkde P di o oo xs ys zs lo mo w p q HP M ls ms U Es K HK d1 d2 d E1 E2 Q) as G. split; [exact G|].
  pose proof (invert_from gkde P di o oo xs ys zs lo mo w p q HP M ls ms U Es K HK d3 d3 d2 F1 F2 Q3) as I. split; [exact I|]. split; [exact Q3|].
  assert (L2 : loc (arrays (r_out d2)) Region = loc (arrays (r_out d)) Region) by (rewrite (ensure_loc _ _ Region E2); apply (all_global_loc _ _ Region E1)).
  split; [rewrite (all_global_loc _ _ Region F1); exact L2|]. split; [|split; [exact (invert_from gkde P di o oo xs ys zs lo mo w p q HP M ls ms U Es K HK d1 d2 d E1 E2 Q)|split; [exact Q|exact L2]]].
  unfold start. rewrite G. cbn [bind gen_of g_disc g_num]. rewrite I. cbn [bind fst snd r_in r_out r_obs set_weights arrays].
  destruct Q3 as ((A1 & A2 & A3 & A4 & A5 & A6) & A7 & A8 & A9). rewrite (global_count P _ oo zs (Some ms)); [|exact (proj1 A3)|exact (proj2 A3)|intros l [= <-]; apply (used_lengths _ _ _ _ _ _ _ _ _ M U)]. cbn [bind].
  unfold region_of. rewrite (proj2 A3). cbn [content option_map subscript bind rows]. rewrite labels_lemma. reflexivity.
Qed.
Lemma weighted_done d3 : prepared_for P di o oo xs ys zs w ls ms d3 -> loc (arrays (r_out d3)) Region = loc (arrays (r_out d)) Region ->
  done (mk_rdisc (set_weights (map (weight p q) (combine ys ls)) (r_in d3)) (r_out d3) (r_obs d3)).
Proof. intros Q L. split; [exact (prepared_stores _ _ _ _ _ _ _ _ _ _ _ Q)|]. split; [apply Q|]. split; [reflexivity|exact L]. Qed.
Lemma updated_done m e : done e -> done (mk_rdisc (set_updated m (r_in e)) (r_out e) (r_obs e)).
Proof. intros H. exact H. Qed.
Lemma dim_in : dim (arrays (r_in d)) = di.
Proof. apply St. Qed.

Lemma outcome_lemma c : (forall r, c <> CObserve r) ->
  exists e, left_behind gkde P c d = (if refused di c then d else e) /\ done e /\
    match data_law di xs ys zs ls ms p q K P c with
    | Raise x => outcome gkde gkde1 fit P c d = Raise x
    | Ok l => exists d', outcome gkde gkde1 fit P c d = Ok (d', l) /\ done d' /\ refused di c = false
    end.
Proof.
  intros NO. destruct start_full as (d1 & d2 & d3 & E1 & E2 & G & I & Q3 & L3 & S3 & I2 & Q2 & L2).
  exists (mk_rdisc (set_weights (map (weight p q) (combine ys ls)) (r_in d3)) (r_out d3) (r_obs d3)).
  pose proof (weighted_done d3 Q3 L3) as D3. pose proof (weighted_done d2 Q2 L2) as D2.
  split.
  { unfold left_behind. rewrite E1. cbn [bind]. rewrite E2, I, dim_in. cbn [fst]. destruct c as [| | | |rv num|draws|r]; try reflexivity.
    - cbn [refused]. destruct (rv_entries di rv); reflexivity.
    - destruct (NO r eq_refl). }
  split; [exact D3|].
  pose proof Q3 as ((A1 & A2 & A3 & A4 & A5 & A6) & A7 & A8 & A9).
  destruct (used_lengths _ _ _ _ _ _ _ _ _ M U) as (Ll & Lm).
  assert (CN : forall s, (forall a, glob s a = glob (arrays (r_in d3)) a) -> dim s = di -> check_num P s = Ok (length xs)).
  { intros s Hs Ds. rewrite (global_count P _ di (map point_row xs) None); [rewrite map_length; reflexivity|exact Ds|intros a; rewrite Hs; apply A7|discriminate]. }
  destruct c as [| | | |rv num|draws|r]; cbn [data_law outcome].
  - rewrite I2. cbn [bind fst]. eexists. split; [reflexivity|]. split; [exact D2|reflexivity].
  - unfold invert_to_kde. rewrite G. cbn [bind gen_of g_disc g_num]. rewrite I. cbn [bind fst snd r_in r_out r_obs set_weights arrays].
    rewrite (global_count P _ oo zs (Some ms)); [|exact (proj1 A3)|exact (proj2 A3)|intros l [= <-]; exact Lm]. cbn [bind].
    unfold region_of. rewrite (proj2 A3). cbn [content option_map subscript bind rows]. rewrite labels_lemma. cbn [bind]. rewrite (guard gkde P di xs ys zs lo mo w p q HP M ls ms U Es K HK).
    rewrite (A7 Values). cbn [content]. rewrite (proj1 A1). destruct (each _ (seq 0 di)) as [m|x]; cbn [bind]; [|reflexivity].
    eexists. split; [reflexivity|]. split; [exact D3|reflexivity].
  - unfold invert_to_gmm. rewrite S3. cbn [bind r_in set_weights arrays]. rewrite (A7 Values). cbn [content]. destruct (each _ (seq 0 K)) as [cs|x]; cbn [bind]; [|reflexivity].
    eexists. split; [reflexivity|]. split; [exact D3|reflexivity].
  - unfold invert_to_multivariate_gaussian, fit_weights. rewrite S3. cbn [bind r_in set_weights arrays]. rewrite (CN _ (fun a => eq_refl) (proj1 A1)). cbn [bind].
    destruct (spread_weights _ _ _ _ _) as [tw|x]; cbn [bind fst snd r_in set_weights arrays]; [|reflexivity]. rewrite (A7 Values). cbn [content subscript bind]. destruct (columns _ _) as [cols|x]; cbn [bind fst snd]; [|reflexivity].
    eexists. split; [reflexivity|]. split; [exact D3|reflexivity].
  - cbn [refused]. rewrite dim_in. destruct (rv_entries di rv) as [es|x]; cbn [bind]; [|reflexivity].
    unfold fit_rv, fit_data, fit_weights. rewrite S3. cbn [bind r_in set_weights arrays]. rewrite (CN _ (fun a => eq_refl) (proj1 A1)). cbn [bind].
    destruct (spread_weights _ _ _ _ _) as [tw|x]; cbn [bind fst snd r_in set_weights arrays]; [|reflexivity]. rewrite (A7 Values). cbn [content subscript bind].
    destruct (each (copies_of _ _) tw) as [cn|x]; cbn [bind]; [|reflexivity]. destruct (np_repeat _ cn) as [v|x]; cbn [bind]; [|reflexivity]. rewrite (proj1 A1).
    destruct (each _ (seq 0 di)) as [cols|x]; cbn [bind fst snd]; [|reflexivity]. destruct (each (fit_one fit) _) as [fs|x]; cbn [bind fst snd]; [|reflexivity].
    eexists. split; [reflexivity|]. split; [exact D3|reflexivity].
  - unfold invert_rejection_sampling. rewrite G. cbn [bind gen_of g_disc g_num]. rewrite I. cbn [bind fst snd r_in r_out r_obs set_weights arrays].
    destruct (keeps_gather P _ _ _ _ HP A1) as (s & Es1 & Ks & Gs & Ls). rewrite Es1. cbn [bind].
    match goal with |- context [each (fun rank => rejection_on P rank K ?e ?sl (draws rank)) (seq 0 P)] =>
      rewrite (each_same (fun rank => rejection_on P rank K e sl (draws rank)) (fun rank => rejection_data P rank K di (Some (mk_arr (map point_row xs) [di])) sl (draws rank)) (seq 0 P)) end.
    2:{ intros rank _. unfold rejection_on, rejection_data. cbn [r_in with_arrays arrays]. cbv zeta. rewrite (Gs Values), (proj1 Ks). reflexivity. }
    destruct (each _ (seq 0 P)) as [hs|x]; cbn [bind fst]; [|reflexivity]. eexists. split; [reflexivity|]. split; [|reflexivity].
    unfold done, stores. cbn [r_in r_out r_obs with_arrays arrays sample_weights]. split; [|split; [exact A9|split; [reflexivity|exact L3]]].
    split; [exact Ks|]. do 4 (split; [assumption|]). assumption.
  - destruct (NO r eq_refl).
Qed.
End Stored.

(** ** One call of a history *)
Lemma used_length lo mo di xs ys zs w ls ms : matching di xs ys lo zs mo w -> used_labels (length ys) (length zs) lo mo = (ls, ms) -> matching di xs ys (Some ls) zs (Some ms) w.
Proof.
  intros M U. destruct (used_lengths _ _ _ _ _ _ _ _ _ M U) as (L1 & L2). destruct M as (A & B & C & _ & _ & F).
  split; [exact A|]. split; [exact B|]. split; [exact C|]. split; [intros l [= <-]; exact L1|]. split; [intros l [= <-]; exact L2|exact F].
Qed.
Lemma step_lemma P di o oo xs ys zs lo mo w ls ms p q K d c up ini : inversion gkde P d di o oo xs ys zs lo mo w ls ms p q K -> (forall r, c <> CObserve r) ->
  exists d', step gkde gkde1 fit P c (mk_m d up ini) = (mk_m d' (newer (law_part (data_law di xs ys zs ls ms p q K P c)) up) ini, exn_part (data_law di xs ys zs ls ms p q K P c)) /\
    sample_weights (r_in d') = (if refused di c then sample_weights (r_in d) else Some (map (weight p q) (combine ys ls))) /\
    loc (arrays (r_out d')) Region = loc (arrays (r_out d)) Region /\
    exists lo' mo', inversion gkde P d' di o oo xs ys zs lo' mo' w ls ms p q K /\ (lo' = lo \/ lo' = Some ls).
Proof.
  intros (HP & M & U & St & W & Es & HK) NO.
  destruct (outcome_lemma P di o oo xs ys zs lo mo w ls ms p q K d HP M U St W Es HK c NO) as (e & LB & DE & X).
  assert (IN : forall d', done P di o oo xs ys zs w ls ms p q d d' -> exists lo' mo', inversion gkde P d' di o oo xs ys zs lo' mo' w ls ms p q K /\ (lo' = lo \/ lo' = Some ls)).
  { intros d' (S1 & S2 & _ & _). exists (Some ls), (Some ms). split; [|right; reflexivity]. split; [exact HP|]. split; [exact (used_length _ _ _ _ _ _ _ _ _ M U)|]. split; [reflexivity|]. split; [exact S1|]. split; [exact S2|]. split; assumption. }
  unfold step. cbn [m_disc m_law m_law_init]. destruct (data_law di xs ys zs ls ms p q K P c) as [l|x].
  - destruct X as (d' & -> & D' & R). cbn [law_part exn_part]. exists d'. split; [destruct l; reflexivity|]. rewrite R. split; [apply D'|]. split; [apply D'|apply IN, D'].
  - rewrite X, LB. cbn [law_part exn_part newer]. destruct (refused di c).
    + exists d. split; [reflexivity|]. split; [reflexivity|]. split; [reflexivity|]. exists lo, mo. split; [|left; reflexivity]. exact (conj HP (conj M (conj U (conj St (conj W (conj Es HK)))))).
    + exists e. split; [reflexivity|]. split; [apply DE|]. split; [apply DE|apply IN, DE].
Qed.
Lemma unweighted_inversion P d di o oo xs ys zs lo mo w ls ms p q K : inversion gkde P d di o oo xs ys zs lo mo w ls ms p q K -> inversion gkde P (unweighted d) di o oo xs ys zs lo mo w ls ms p q K.
Proof. intros H. exact H. Qed.
Lemma alone_lemma P di o oo xs ys zs lo mo w ls ms p q K d c : inversion gkde P d di o oo xs ys zs lo mo w ls ms p q K -> (forall r, c <> CObserve r) ->
  sample_weights (r_in (m_disc (fst (alone gkde gkde1 fit P c d)))) = (if refused di c then None else Some (map (weight p q) (combine ys ls))) /\
  m_law (fst (alone gkde gkde1 fit P c d)) = law_part (data_law di xs ys zs ls ms p q K P c) /\ snd (alone gkde gkde1 fit P c d) = exn_part (data_law di xs ys zs ls ms p q K P c).
Proof.
  intros I NO. apply unweighted_inversion in I. destruct (step_lemma P di o oo xs ys zs lo mo w ls ms p q K _ c None None I NO) as (d' & E & SW & _).
  unfold alone. rewrite E. cbn [fst snd m_disc m_law]. split; [exact SW|]. split; [destruct (law_part _); reflexivity|reflexivity].
Qed.

(** ** Histories *)
Lemma not_observe c : (exists r, c = CObserve r) \/ forall r, c <> CObserve r.
Proof. destruct c; try (right; intros r0 H; discriminate H). left. exists r. reflexivity. Qed.
Lemma latest_call P d c h ws l : (forall r, c <> CObserve r) -> latest gkde gkde1 fit P d (c :: h) ws l =
  latest gkde gkde1 fit P d h (newer (sample_weights (r_in (m_disc (fst (alone gkde gkde1 fit P c d))))) ws) (newer (m_law (fst (alone gkde gkde1 fit P c d))) l).
Proof. intros NO. destruct c; try reflexivity. destruct (NO r eq_refl). Qed.
Lemma exceptions_call P d c h : (forall r, c <> CObserve r) -> exceptions gkde gkde1 fit P d (c :: h) = snd (alone gkde gkde1 fit P c d) :: exceptions gkde gkde1 fit P d h.
Proof. intros NO. destruct c; try reflexivity. destruct (NO r eq_refl). Qed.
Lemma observed_call c h : (forall r, c <> CObserve r) -> observed_sets (c :: h) = observed_sets h.
Proof. intros NO. destruct c; try reflexivity. destruct (NO r eq_refl). Qed.

(** The labels of the outputs of the current discretization are those of the
    original one, or are not used. *)
Definition labels_fine (lo lo' : option (list Z)) (ls : list Z) (e : rdisc) (h : list call) : Prop :=
  (loc (arrays (r_out e)) Region = None /\ forall r, In r (observed_sets h) -> glob (arrays r) Region = None) \/
  (lo' = lo /\ lo = Some ls /\ forall r, In r (observed_sets h) -> glob (arrays r) Region <> None).
Lemma region_none (a : sset cell) d xs mo : keeps_global a d xs mo -> glob a Region = None -> mo = None.
Proof. intros (_ & G) E. rewrite G in E. cbn [content] in E. destruct mo; [discriminate|reflexivity]. Qed.
Lemma region_some (a : sset cell) d xs mo : keeps_global a d xs mo -> glob a Region <> None -> exists l, mo = Some l.
Proof. intros (_ & G) E. rewrite G in E. cbn [content] in E. destruct mo as [l|]; [exists l; reflexivity|contradiction]. Qed.

Lemma history_lemma P di o xs ys lo w ini h : forall d e up,
  (exists oo zs mo ls ms p q K lo' mo', inversion gkde P d di o oo xs ys zs lo mo w ls ms p q K /\ inversion gkde P e di o oo xs ys zs lo' mo' w ls ms p q K /\ labels_fine lo lo' ls e h) ->
  (forall r, In r (observed_sets h) -> exists oo zs mo, invertible gkde P (observing r d) di o xs ys lo w oo zs mo) ->
  sample_weights (r_in (m_disc (run gkde gkde1 fit P h (mk_m e up ini)))) = fst (latest gkde gkde1 fit P d h (sample_weights (r_in e)) up) /\
  m_law (run gkde gkde1 fit P h (mk_m e up ini)) = snd (latest gkde gkde1 fit P d h (sample_weights (r_in e)) up) /\
  m_law_init (run gkde gkde1 fit P h (mk_m e up ini)) = ini /\ raised gkde gkde1 fit P h (mk_m e up ini) = exceptions gkde gkde1 fit P d h.
Proof.
  induction h as [|c h IH]; intros d e up (oo & zs & mo & ls & ms & p & q & K & lo' & mo' & Id & Ie & LF) Hr; [repeat split; reflexivity|].
  cbn [run raised]. destruct (not_observe c) as [(r & ->)|NO].
  - cbn [step outcome m_disc m_law m_law_init fst snd latest exceptions].
    destruct (Hr r) as (oo2 & zs2 & mo2 & ls2 & ms2 & p2 & q2 & K2 & I2); [left; reflexivity|].
    assert (X : (loc (arrays (r_out e)) Region = None /\ glob (arrays r) Region = None) \/ (lo' = lo /\ lo = Some ls /\ glob (arrays r) Region <> None)).
    { destruct LF as [(A & B)|(A & A' & B)]; [left|right]; (split; [exact A|]); [|split; [exact A'|]]; apply B; left; reflexivity. }
    assert (Ie2 : inversion gkde P (observing r e) di o oo2 xs ys zs2 lo' mo2 w ls2 ms2 p2 q2 K2 /\ labels_fine lo lo' ls2 (observing r e) h).
    { destruct Ie as (HP & Me & Ue & (B1 & B2 & B3 & B4 & B5 & B6) & We & Ee & Ke). destruct I2 as (_ & M2 & U2 & (C1 & C2 & C3 & C4 & C5 & C6) & W2 & E2 & K2').
      cbn [observing r_in r_out r_obs] in C1, C2, C3, C4, C5, C6. split.
      - split; [exact HP|]. split.
        { destruct M2 as (N1 & N2 & N3 & N4 & N5 & N6). split; [exact N1|]. split; [exact N2|]. split; [exact N3|]. split; [|split; [exact N5|exact N6]]. apply Me. }
        split.
        { destruct X as [(_ & G)|(-> & _)]; [|exact U2]. rewrite (region_none _ _ _ _ C3 G) in *. unfold used_labels in *. destruct lo, lo'; exact U2. }
        split; [|split; [exact We|split; [exact E2|exact K2']]].
        unfold stores. cbn [observing r_in r_out r_obs]. split; [exact B1|]. split; [exact B2|]. split; [exact C3|]. split; [exact B4|]. split; [exact C5|].
        intros Hm. destruct X as [(L & _)|(-> & _ & G)]; [exact L|]. destruct (region_some _ _ _ _ C3 G) as (l & Em). congruence.
      - destruct LF as [(A & B)|(A & A' & B)]; [left|right]; (split; [exact A|]).
        + intros r' H'. apply B. right. exact H'.
        + split; [|intros r' H'; apply B; right; exact H']. destruct (region_some _ _ _ _ C3 (B r (or_introl eq_refl))) as (m & Em). rewrite Em, A' in U2. cbn [used_labels] in U2. injection U2 as <- _. exact A'. }
    destruct Ie2 as (Ie2 & LF').
    destruct (IH (observing r d) (observing r e) up) as (J1 & J2 & J3 & J4).
    + exists oo2, zs2, mo2, ls2, ms2, p2, q2, K2, lo', mo2. split; [exact I2|]. split; [exact Ie2|exact LF'].
    + intros r' H'. destruct (Hr r' (or_intror H')) as (oo3 & zs3 & mo3 & I3). exists oo3, zs3, mo3. exact I3.
    + split; [exact J1|]. split; [exact J2|]. split; [exact J3|]. f_equal. exact J4.
  - destruct (step_lemma P di o oo xs ys zs lo' mo' w ls ms p q K e c up ini Ie NO) as (e' & E & SW & LR & lo2 & mo2 & I2 & L2).
    rewrite E. cbn [fst snd]. rewrite (latest_call _ _ _ _ _ _ NO), (exceptions_call _ _ _ _ NO). destruct (alone_lemma P di o oo xs ys zs lo mo w ls ms p q K d c Id NO) as (-> & -> & ->).
    rewrite (observed_call _ _ NO) in Hr.
    specialize (IH d e' (newer (law_part (data_law di xs ys zs ls ms p q K P c)) up)). destruct IH as (J1 & J2 & J3 & J4).
    + exists oo, zs, mo, ls, ms, p, q, K, lo2, mo2. split; [exact Id|]. split; [exact I2|]. unfold labels_fine in *. rewrite (observed_call _ _ NO) in LF. destruct LF as [(A & B)|(A & A' & B)]; [left|right].
      * split; [rewrite LR; exact A|exact B].
      * split; [destruct L2 as [->| ->]; [exact A|symmetry; exact A']|]. split; [exact A'|exact B].
    + exact Hr.
    + rewrite J1, J2, J3, J4, SW. destruct (refused di c); cbn [newer]; repeat split; reflexivity.
Qed.
Lemma history_from P di o xs ys lo w d up ini h :
  (forall r, In r (r_obs d :: observed_sets h) -> exists oo zs mo, invertible gkde P (observing r d) di o xs ys lo w oo zs mo) -> labels_agree d h ->
  sample_weights (r_in (m_disc (run gkde gkde1 fit P h (mk_m d up ini)))) = fst (latest gkde gkde1 fit P d h (sample_weights (r_in d)) up) /\
  m_law (run gkde gkde1 fit P h (mk_m d up ini)) = snd (latest gkde gkde1 fit P d h (sample_weights (r_in d)) up) /\
  m_law_init (run gkde gkde1 fit P h (mk_m d up ini)) = ini /\ raised gkde gkde1 fit P h (mk_m d up ini) = exceptions gkde gkde1 fit P d h.
Proof.
  intros Hr LA. apply (history_lemma P di o xs ys lo w ini h d d up); [|intros r H; apply Hr; right; exact H].
  destruct (Hr (r_obs d) (or_introl eq_refl)) as (oo & zs & mo & ls & ms & p & q & K & I). exists oo, zs, mo, ls, ms, p, q, K, lo, mo.
  replace (observing (r_obs d) d) with d in I by (destruct d; reflexivity). split; [exact I|]. split; [exact I|].
  destruct I as (_ & _ & U & (C1 & C2 & C3 & C4 & C5 & C6) & _). destruct LA as [A|(A & B)]; [left|right].
  - split; [|intros r H; apply A; right; exact H]. apply C6. apply (region_none _ _ _ _ C3). apply A. left. reflexivity.
  - split; [reflexivity|]. split; [|intros r H; apply B; right; exact H]. destruct (region_some _ _ _ _ C3 (B _ (or_introl eq_refl))) as (m & ->).
    destruct lo as [l|]; [cbn [used_labels] in U; injection U as <- _; reflexivity|]. destruct C2 as (_ & C2). specialize (C2 Region). cbn [content option_map] in C2. destruct C2 as (X & Y). destruct A; contradiction.
Qed.
(** Other numbers of processes *)
Lemma processes_lemma P P' di o xs ys lo w h : forall d d' ws l,
  (exists oo zs mo, both_invertible gkde P P' d d' di o xs ys lo w oo zs mo) ->
  (forall r, In r (observed_sets h) -> exists oo zs mo, both_invertible gkde P P' (observing r d) (observing r d') di o xs ys lo w oo zs mo) ->
  latest gkde gkde1 fit P d h ws l = latest gkde gkde1 fit P' d' h ws l.
Proof.
  induction h as [|c h IH]; intros d d' ws l I Hr; [reflexivity|]. destruct (not_observe c) as [(r & ->)|NO].
  - cbn [latest]. apply IH; [apply Hr; left; reflexivity|]. intros r' H'. apply (Hr r'). right. exact H'.
  - rewrite !(latest_call _ _ _ _ _ _ NO). destruct I as (oo & zs & mo & ls & ms & p & q & K & I & I').
    destruct (alone_lemma P di o oo xs ys zs lo mo w ls ms p q K d c I NO) as (-> & -> & _). destruct (alone_lemma P' di o oo xs ys zs lo mo w ls ms p q K d' c I' NO) as (-> & -> & _).
    rewrite (law_part_any di xs ys zs ls ms p q K P P' c). apply IH; [exists oo, zs, mo, ls, ms, p, q, K; split; assumption|]. intros r H. apply Hr. rewrite (observed_call _ _ NO). exact H.
Qed.
Lemma history_processes P P' di o xs ys lo w d d' up ini h : sample_weights (r_in d') = sample_weights (r_in d) -> r_obs d' = r_obs d ->
  (forall r, In r (r_obs d :: observed_sets h) -> exists oo zs mo, both_invertible gkde P P' (observing r d) (observing r d') di o xs ys lo w oo zs mo) -> labels_agree d h -> labels_agree d' h ->
  m_law (run gkde gkde1 fit P h (mk_m d up ini)) = m_law (run gkde gkde1 fit P' h (mk_m d' up ini)) /\
  sample_weights (r_in (m_disc (run gkde gkde1 fit P h (mk_m d up ini)))) = sample_weights (r_in (m_disc (run gkde gkde1 fit P' h (mk_m d' up ini)))).
Proof.
  intros SW OB H A A'.
  destruct (history_from P di o xs ys lo w d up ini h) as (-> & -> & _); [|exact A|].
  { intros r Hr. destruct (H r Hr) as (oo & zs & mo & ls & ms & p & q & K & I & _). exists oo, zs, mo, ls, ms, p, q, K. exact I. }
  destruct (history_from P' di o xs ys lo w d' up ini h) as (-> & -> & _); [|exact A'|].
  { intros r Hr. rewrite OB in Hr. destruct (H r Hr) as (oo & zs & mo & ls & ms & p & q & K & _ & I). exists oo, zs, mo, ls, ms, p, q, K. exact I. }
  rewrite SW. rewrite (processes_lemma P P' di o xs ys lo w h d d'); [split; reflexivity| |intros r Hr; apply H; right; exact Hr].
  destruct (H (r_obs d) (or_introl eq_refl)) as (oo & zs & mo & ls & ms & p & q & K & I & I'). exists oo, zs, mo, ls, ms, p, q, K. rewrite <- OB in I' at 1. destruct d, d'. split; assumption.
Qed.

(** Fits are pairs of a name and parameters. *)
Lemma each_forall {A B} (f : A -> result B) (Q : B -> Prop) l r : (forall x y, f x = Ok y -> Q y) -> each f l = Ok r -> Forall Q r.
Proof.
  intros H. revert r. induction l as [|x l IH]; intros r E; cbn [each] in E; [injection E as <-; constructor|]. destruct (f x) as [y|] eqn:F; [|discriminate]. cbn [bind] in E. destruct (each f l); [|discriminate]. cbn [bind] in E. injection E as <-.
  constructor; [exact (H x y F)|apply IH; reflexivity].
Qed.
Lemma fit_one_pair e y : fit_one fit e = Ok y -> fitted_entry y.
Proof.
  unfold fit_one. destruct (fst e) as [| |s a|]; try discriminate. destruct (fit s a (snd e)) as [A|]; [|discriminate]. cbn [bind]. destruct (RvSet_Model.fit_parameters A); [|discriminate]. cbn [bind]. intros [= <-]. exact I.
Qed.
Lemma outcome_proper P c d d' l : outcome gkde gkde1 fit P c d = Ok (d', l) -> proper l.
Proof.
  destruct c; cbn [outcome]; intros E.
  - destruct (invert_disc gkde P d); [|discriminate]. injection E as _ <-. exact I.
  - destruct (invert_to_kde gkde gkde1 P d) as [e|]; [|discriminate]. injection E as _ <-. destruct (updated (r_in e)); exact I.
  - destruct (invert_to_gmm gkde P d); [|discriminate]. injection E as _ <-. exact I.
  - destruct (invert_to_multivariate_gaussian gkde P d); [|discriminate]. injection E as _ <-. exact I.
  - destruct (rv_entries _ rv) as [es|]; [|discriminate]. cbn [bind] in E. unfold fit_rv in E. destruct (fit_data gkde num P d); [|discriminate]. cbn [bind] in E. destruct (each _ _) as [fs|] eqn:F; [|discriminate]. injection E as _ <-.
    exact (each_forall _ _ _ _ fit_one_pair F).
  - destruct (invert_rejection_sampling gkde P draws d); [|discriminate]. injection E as _ <-. exact I.
  - injection E as _ <-. exact I.
Qed.
Lemma run_proper P h : forall s, proper (m_law s) -> proper (m_law (run gkde gkde1 fit P h s)).
Proof.
  induction h as [|c h IH]; intros s H; [exact H|]. cbn [run]. apply IH. unfold step. destruct (outcome gkde gkde1 fit P c (m_disc s)) as [[d l]|] eqn:E; [|exact H]. cbn [fst m_law]. destruct l as [l|]; [exact (outcome_proper P c _ _ _ E)|exact H].
Qed.

(** An exception after the weights have been stored *)
Lemma not_atomic P d di o oo xs ys zs lo mo w ls ms p q K up ini j : inversion gkde P d di o oo xs ys zs lo mo w ls ms p q K -> j < K -> members (combine ys ls) j = [] ->
  snd (step gkde gkde1 fit P CGaussian (mk_m d up ini)) = Some PyTypeError /\ m_law (fst (step gkde gkde1 fit P CGaussian (mk_m d up ini))) = up /\
  sample_weights (r_in (m_disc (fst (step gkde gkde1 fit P CGaussian (mk_m d up ini))))) = Some (map (weight p q) (combine ys ls)).
Proof.
  intros I J G. assert (NO : forall r, CGaussian <> CObserve r) by discriminate. destruct (step_lemma P di o oo xs ys zs lo mo w ls ms p q K d CGaussian up ini I NO) as (d' & E & SW & _).
  pose proof I as (HP & M & U & St & W & Es & HK). pose proof (gaussian_gap gkde P di o oo xs ys zs lo mo w ls ms p q K d HP M U St W Es HK j J G) as F.
  assert (D : exn_part (data_law di xs ys zs ls ms p q K P CGaussian) = Some PyTypeError).
  { assert (X : snd (step gkde gkde1 fit P CGaussian (mk_m d up ini)) = Some PyTypeError) by (unfold step; cbn [outcome m_disc]; rewrite F; reflexivity). rewrite E in X. exact X. }
  rewrite E. cbn [fst snd m_law m_disc]. destruct (data_law di xs ys zs ls ms p q K P CGaussian); [discriminate|]. split; [exact D|]. split; [reflexivity|exact SW].
Qed.
End Calls.

(** ** Densities *)
Section Evaluate.
Context (density : option normal -> list Qc -> result Qc) (density1 : xnum -> xnum -> Qc -> result Qc).
Context (rvpdf : string -> RvSet_Model.dict -> Qc -> result Qc) (cells : list Qc -> result Qc) (cells1 : nat -> Qc -> result Qc).
Lemma multiply_holder r di m x : updated r = Some m -> forall i mar, multiply (holder di m) i x mar = multiply r i x mar.
Proof.
  intros E. induction x as [|y x IH]; intros i mar; [reflexivity|]. cbn [multiply]. unfold marginal_pdf. rewrite E. cbn [holder updated].
  match goal with |- bind ?a _ = bind ?b _ => destruct b end; [|reflexivity]. cbn [bind]. apply IH.
Qed.
Lemma kde_density r m x : updated r = Some m -> law_pdf density rvpdf cells (dim (arrays r)) (Some (LKde m)) x = pdf r x.
Proof. intros E. unfold law_pdf, pdf. rewrite (multiply_holder r (dim (arrays r)) m x E). reflexivity. Qed.
Lemma gmm_density di g x : law_pdf density rvpdf cells di (Some (LGmm g)) x = gmm_pdf density di g x.
Proof. reflexivity. Qed.
Lemma drawn_density draws s n t : proper (m_law s) -> sample_from_updated draws s n = Ok t ->
  w_dim t = dim (arrays (r_in (m_disc s))) /\ (forall x, law_pdf_init density rvpdf cells (w_dim t) (w_init t) x = law_pdf density rvpdf cells (dim (arrays (r_in (m_disc s)))) (m_law s) x) /\
  (forall i x, law_marginal_init density1 rvpdf cells1 (w_dim t) (w_init t) i x = law_marginal density1 rvpdf cells1 (dim (arrays (r_in (m_disc s)))) (m_law s) i x).
Proof.
  intros H E. unfold sample_from_updated in E.
  assert (X : w_dim t = dim (arrays (r_in (m_disc s))) /\ w_init t = m_law s /\ m_law s <> Some LVoronoi).
  { destruct (m_law s) as [[m|g|es| |]|]; try discriminate.
    - destruct (draws _ n); [|discriminate]. injection E as <-. repeat split; discriminate.
    - destruct (draws _ n); [|discriminate]. injection E as <-. repeat split; discriminate.
    - cbn [proper] in H. destruct (RvSet_Model.resolve _ None (RvSet_Model.RSeq es)) as [es'|] eqn:R; [|discriminate]. cbn [bind] in E. destruct (draws _ n); [|discriminate]. injection E as <-. cbn [w_dim w_init].
      assert (es' = es); [|subst; repeat split; discriminate]. cbn [RvSet_Model.resolve] in R.
      destruct es as [|[?| |? ?|] [|[|?| |] [|]]]; try (inversion H; contradiction); destruct (_ =? _); try discriminate; injection R as <-; reflexivity. }
  destruct X as (-> & -> & N). split; [reflexivity|]. split.
  - intros x. unfold law_pdf_init. destruct (length x =? _) eqn:L; [|unfold law_pdf; rewrite L; reflexivity]. destruct (m_law s) as [[m|g|es| |]|]; try reflexivity. contradiction.
  - intros i x. unfold law_marginal_init. destruct (m_law s) as [[m|g|es| |]|]; try reflexivity. contradiction.
Qed.
Lemma drawn_refused draws s n : m_law s = None \/ m_law s = Some LVoronoi \/ m_law s = Some LOther -> sample_from_updated draws s n = Raise BadObject.
Proof. intros [E|[E|E]]; unfold sample_from_updated; rewrite E; reflexivity. Qed.
End Evaluate.
Lemma drawn_kde gkde gkde1 fit density density1 rvpdf cells cells1 draws P d di o oo xs ys zs lo mo w ls ms p q K f up ini n t :
  inversion gkde P d di o oo xs ys zs lo mo w ls ms p q K -> estimated_inputs gkde1 di xs ys ls p q f -> (forall j, j < K -> members (combine ys ls) j <> []) ->
  sample_from_updated draws (fst (step gkde gkde1 fit P CKde (mk_m d up ini))) n = Ok t ->
  w_dim t = di /\ (forall x, length x = di -> law_pdf_init density rvpdf cells (w_dim t) (w_init t) x = Ok (product ms K f x)) /\
  (forall i x, i < di -> law_marginal_init density1 rvpdf cells1 (w_dim t) (w_init t) i x = Ok (mixture ms K (f i) x)).
Proof.
  intros (HP & M & U & St & W & Es & HK) Ef N D.
  destruct (pdf_lemma gkde gkde1 P di o oo xs ys zs lo mo w ls ms p q K f d HP M U St W Es HK Ef N) as (d' & E & _ & MP & PD & _).
  destruct (kde_lemma gkde gkde1 P di o oo xs ys zs lo mo w ls ms p q K f d HP M U St W Es HK Ef) as (d'' & E' & _ & UP & St' & _).
  assert (d'' = d') by congruence. subst d''.
  assert (X : step gkde gkde1 fit P CKde (mk_m d up ini) = (mk_m d' (Some (LKde (the_measure di ys zs ls ms K f))) ini, None)) by (unfold step; cbn [outcome m_disc]; rewrite E; cbn [bind]; rewrite UP; reflexivity).
  rewrite X in D. cbn [fst] in D. destruct (drawn_density density density1 rvpdf cells cells1 draws (mk_m d' (Some (LKde (the_measure di ys zs ls ms K f))) ini) n t I D) as (D1 & D2 & D3). cbn [m_disc m_law] in D1, D2, D3.
  assert (DI : dim (arrays (r_in d')) = di) by apply St'. split; [congruence|]. split.
  - intros x L. rewrite D2, (kde_density density rvpdf cells (r_in d') _ x UP). apply PD. exact L.
  - intros i x L. rewrite D3. cbn [law_marginal]. rewrite <- (MP i x L). unfold marginal_pdf. rewrite UP. reflexivity.
Qed.
