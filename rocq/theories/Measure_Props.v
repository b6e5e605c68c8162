From Coq Require Import String ZArith List Arith Bool QArith Qcanon Lia.
From Verif Require Import Err Num Ext NumPy SampleSet_Model Disc_Model Inverse_Model Inverse_Spec Density_Model Density_Spec Density_Examples Fits_Model Fits_Spec Fits_Examples
  Measure_Model Measure_Spec Measure_Proofs Measure2_Proofs Measure_Examples.
Import RvSet_Model(EName, EPair, RName, RSeq, ROther).
Import ListNotations.
Local Open Scope nat_scope.

(** C162: inversions one after another on one discretization, also with other
    observations in between.  Weights, updated measure and exceptions are those of
    the last call on the original data; the initial measure is never touched. *)
Theorem measure_history_partial : forall gkde gkde1 fit P di o xs ys lo w d up ini h,
  (forall r, In r (r_obs d :: observed_sets h) -> exists oo zs mo, invertible gkde P (observing r d) di o xs ys lo w oo zs mo) -> labels_agree d h ->
  let s := run gkde gkde1 fit P h (mk_m d up ini) in
  sample_weights (r_in (m_disc s)) = fst (latest gkde gkde1 fit P d h (sample_weights (r_in d)) up) /\ m_law s = snd (latest gkde gkde1 fit P d h (sample_weights (r_in d)) up) /\
  m_law_init s = ini /\ raised gkde gkde1 fit P h (mk_m d up ini) = exceptions gkde gkde1 fit P d h.
Proof. exact history_from. Qed.
Print Assumptions measure_history_partial.
(** It does not depend on the number of processes. *)
Theorem measure_processes_partial : forall gkde gkde1 fit P P' di o xs ys lo w d d' up ini h, sample_weights (r_in d') = sample_weights (r_in d) -> r_obs d' = r_obs d ->
  (forall r, In r (r_obs d :: observed_sets h) -> exists oo zs mo, both_invertible gkde P P' (observing r d) (observing r d') di o xs ys lo w oo zs mo) -> labels_agree d h -> labels_agree d' h ->
  m_law (run gkde gkde1 fit P h (mk_m d up ini)) = m_law (run gkde gkde1 fit P' h (mk_m d' up ini)) /\
  sample_weights (r_in (m_disc (run gkde gkde1 fit P h (mk_m d up ini)))) = sample_weights (r_in (m_disc (run gkde gkde1 fit P' h (mk_m d' up ini)))).
Proof. exact history_processes. Qed.
Print Assumptions measure_processes_partial.
Example some_history :
  (forall r, In r (r_obs first_disc :: observed_sets some_calls) -> exists oo zs mo, invertible window 2 (observing r first_disc) 1 1 in_points out_points (Some out_labels) None oo zs mo) /\
  labels_agree first_disc some_calls /\ show_law (m_law (run window window1 simple_fit 2 some_calls (mk_m first_disc None None))) = Some [("gamma"%string, [("a", Some 1); ("loc", Some 22); ("scale", Some 11)]%string%Q)] /\
  show_w (run window window1 simple_fit 2 some_calls (mk_m first_disc None None)) = Some [Some (3 # 4); Some (3 # 4); Some (2 # 3); Some (3 # 2); Some (2 # 3)]%Q /\
  raised window window1 simple_fit 2 some_calls (mk_m first_disc None None) = [None; Some PyTypeError; None; None; None; Some WrongInput; Some WrongInput; None].
Proof.
  split; [intros r H; destruct (first_ready 2 ltac:(lia) r H) as (oo & zs & mo & ls & ms & p & q & K & I & _); exists oo, zs, mo, ls, ms, p, q, K; exact I|].
  split; [exact (first_agree 2)|]. split; [vm_compute; reflexivity|]. split; vm_compute; reflexivity.
Qed.
Example three_processes :
  (forall r, In r (r_obs (fit_disc 3 in_points out_points out_labels seen seen_labels) :: observed_sets some_calls) ->
     exists oo zs mo, both_invertible window 3 2 (observing r (fit_disc 3 in_points out_points out_labels seen seen_labels)) (observing r first_disc) 1 1 in_points out_points (Some out_labels) None oo zs mo) /\
  labels_agree (fit_disc 3 in_points out_points out_labels seen seen_labels) some_calls.
Proof. split; [exact (first_ready 3 ltac:(lia))|exact (first_agree 3)]. Qed.
(** An inversion that raises has replaced the weights, but not the measure. *)
Theorem measure_atomic_refuted : forall gkde gkde1 fit P d di o oo xs ys zs lo mo w ls ms p q K up ini j, inversion gkde P d di o oo xs ys zs lo mo w ls ms p q K -> j < K -> members (combine ys ls) j = [] ->
  snd (step gkde gkde1 fit P CGaussian (mk_m d up ini)) = Some PyTypeError /\ m_law (fst (step gkde gkde1 fit P CGaussian (mk_m d up ini))) = up /\
  sample_weights (r_in (m_disc (fst (step gkde gkde1 fit P CGaussian (mk_m d up ini))))) = Some (map (weight p q) (combine ys ls)).
Proof. exact not_atomic. Qed.
Print Assumptions measure_atomic_refuted.
Example gap_weights :
  inversion window 2 gap_disc 1 1 1 in_points out_points seen (Some gap_labels) (Some gap_seen) None gap_labels gap_seen (predicted out_points gap_labels None) (observed seen gap_seen) 3 /\ members (combine out_points gap_labels) 1 = [] /\
  show_w (mk_m gap_disc None None) = None /\ show_w (fst (step window window1 simple_fit 2 CGaussian (mk_m gap_disc None None))) = Some [Some (3 # 2); Some (3 # 2); Some (2 # 3); Some 0; Some (2 # 3)]%Q.
Proof. split; [apply gap_example; lia|]. split; [reflexivity|]. split; [reflexivity|]. vm_compute. reflexivity. Qed.
(** Labels that an inversion without labels has set count in the next one. *)
Theorem measure_labels_refuted : exists gkde gkde1 fit P d r di o xs ys w oo zs oo' zs' ms',
  invertible gkde P d di o xs ys None w oo zs None /\ invertible gkde P (observing r d) di o xs ys None w oo' zs' (Some ms') /\
  m_law (run gkde gkde1 fit P [CInvert; CObserve r; CGmm] (mk_m d None None)) <> m_law (fst (alone gkde gkde1 fit P CGmm (observing r d))).
Proof. exact labels_witness. Qed.
Print Assumptions measure_labels_refuted.

(** C163: sampling from the updated measure.  After any history the initial density
    of the new set and its marginals are the updated ones of the old set. *)
Theorem resampled_density : forall gkde gkde1 fit density density1 rvpdf cells cells1 draws P h s0 n t, proper (m_law s0) ->
  let s := run gkde gkde1 fit P h s0 in
  sample_from_updated draws s n = Ok t ->
  w_dim t = dim (arrays (r_in (m_disc s))) /\
  (forall x, law_pdf_init density rvpdf cells (w_dim t) (w_init t) x = law_pdf density rvpdf cells (dim (arrays (r_in (m_disc s)))) (m_law s) x) /\
  (forall i x, law_marginal_init density1 rvpdf cells1 (w_dim t) (w_init t) i x = law_marginal density1 rvpdf cells1 (dim (arrays (r_in (m_disc s)))) (m_law s) i x).
Proof. intros until t. intros H s. apply drawn_density. apply run_proper. exact H. Qed.
Print Assumptions resampled_density.
(** For kernel density estimates: the product of the mixtures over the clusters. *)
Theorem resampled_kde_partial : forall gkde gkde1 fit density density1 rvpdf cells cells1 draws P d di o oo xs ys zs lo mo w ls ms p q K f up ini n t,
  inversion gkde P d di o oo xs ys zs lo mo w ls ms p q K -> estimated_inputs gkde1 di xs ys ls p q f -> (forall j, j < K -> members (combine ys ls) j <> []) ->
  sample_from_updated draws (fst (step gkde gkde1 fit P CKde (mk_m d up ini))) n = Ok t ->
  w_dim t = di /\ (forall x, length x = di -> law_pdf_init density rvpdf cells (w_dim t) (w_init t) x = Ok (product ms K f x)) /\
  (forall i x, i < di -> law_marginal_init density1 rvpdf cells1 (w_dim t) (w_init t) i x = Ok (mixture ms K (f i) x)).
Proof. exact drawn_kde. Qed.
Print Assumptions resampled_kde_partial.
Example resampled_two :
  (exists oo zs mo, invertible window 2 first_disc 1 1 in_points out_points (Some out_labels) None oo zs mo) /\ (forall j, j < 2 -> members (combine out_points out_labels) j <> []) /\
  rmap (fun t => map (fun z => rmap this (law_pdf_init any_density (fun _ _ _ => Ok 0%Qc) (fun _ => Ok 0%Qc) (w_dim t) (w_init t) [Q2Qc z])) [0; 2; 5]%Q)
    (sample_from_updated (fun _ n => Ok [repeat [0%Qc] n]) (run window window1 simple_fit 2 [CGmm; CKde] (mk_m first_disc None None)) 3) = Ok [Ok (2 # 5); Ok (3 # 10); Ok (3 # 10)]%Q.
Proof.
  split; [exists 1, seen, (Some seen_labels), out_labels, seen_labels, p2, o2, 2; apply (two_example 2); lia|]. split; [exact labels_filled|]. vm_compute. reflexivity.
Qed.
Theorem resampled_refused : forall draws s n, m_law s = None \/ m_law s = Some LVoronoi \/ m_law s = Some LOther -> sample_from_updated draws s n = Raise BadObject.
Proof. exact drawn_refused. Qed.
Print Assumptions resampled_refused.
(** For mixtures of Gaussians: shares of the observations times the densities. *)
Theorem resampled_gmm_partial : forall gkde gkde1 fit density density1 rvpdf cells cells1 draws P d di o oo xs ys zs lo mo w ls ms p q K up ini n t,
  inversion gkde P d di o oo xs ys zs lo mo w ls ms p q K -> (forall j, j < K -> members (combine ys ls) j <> []) ->
  sample_from_updated draws (fst (step gkde gkde1 fit P CGmm (mk_m d up ini))) n = Ok t ->
  exists m, w_init t = Some (LGmm m) /\ w_dim t = di /\
    (forall x f, length x = di -> (forall j g, nth_error (gaussians m) j = Some g -> density g x = Ok (f j)) ->
       law_pdf_init density rvpdf cells (w_dim t) (w_init t) x = Ok (qsum (map (fun j => share ms j * f j) (seq 0 K)))%Qc) /\
    (forall i x f, i < di -> (forall j g mu row v, nth_error (gaussians m) j = Some (Some g) -> nth_error (n_mean g) i = Some mu -> nth_error (n_cov g) i = Some row -> nth_error row i = Some v -> density1 mu v x = Ok (f j)) ->
       law_marginal_init density1 rvpdf cells1 (w_dim t) (w_init t) i x = Ok (qsum (map (fun j => share ms j * f j) (seq 0 K)))%Qc).
Proof. exact drawn_gmm. Qed.
Print Assumptions resampled_gmm_partial.
Example resampled_mixture :
  (exists oo zs mo, invertible window 2 first_disc 1 1 in_points out_points (Some out_labels) None oo zs mo) /\ (forall j, j < 2 -> members (combine out_points out_labels) j <> []) /\
  rmap (fun t => map (fun z => rmap this (law_marginal_init any_density1 (fun _ _ _ => Ok 0%Qc) (fun _ _ => Ok 0%Qc) (w_dim t) (w_init t) 0 (Q2Qc z))) [0; 2]%Q)
    (sample_from_updated (fun _ n => Ok [repeat [0%Qc] n]) (fst (step window window1 simple_fit 2 CGmm (mk_m first_disc None None))) 3) = Ok [Ok (19 # 10); Ok (13 # 10)]%Q.
Proof.
  split; [exists 1, seen, (Some seen_labels), out_labels, seen_labels, p2, o2, 2; apply (two_example 2); lia|]. split; [exact labels_filled|]. vm_compute. reflexivity.
Qed.
(** For random variables: the product of the densities of the stored variables, one
    for each dimension. *)
Theorem variables_density : forall density density1 rvpdf cells cells1 di names, length names = di ->
  (forall x vs, length x = di -> length vs = di -> (forall i s a y, nth_error names i = Some (s, a) -> nth_error x i = Some y -> exists v, nth_error vs i = Some v /\ rvpdf s a y = Ok v) ->
     law_pdf density rvpdf cells di (Some (LRv (stored_pairs names))) x = Ok (qprod vs)) /\
  (forall i s a x, nth_error names i = Some (s, a) -> law_marginal density1 rvpdf cells1 di (Some (LRv (stored_pairs names))) i x = rvpdf s a x).
Proof. exact variables_lemma. Qed.
Print Assumptions variables_density.
Definition triangle (s : string) (a : RvSet_Model.dict) (x : Qc) : result Qc := Ok (if String.eqb s "norm" then x + 1 else x * x)%Qc.
Example two_variables : rmap this (law_pdf any_density triangle (fun _ => Ok 0%Qc) 2 (Some (LRv (stored_pairs [("norm", []); ("gamma", [])]%string))) [Q2Qc 2; Q2Qc 5]) = Ok 75%Q.
Proof. vm_compute. reflexivity. Qed.

(** C159: which random variables are stored.  Dimension i gets the distribution asked
    for in dimension i, with the numbers fitted to the copies of coordinate i. *)
Theorem fitted_variables_partial : forall gkde gkde1 fit P d di o oo xs ys zs lo mo w ls ms p q K num rv names up ini, inversion gkde P d di o oo xs ys zs lo mo w ls ms p q K -> full ys ls p K ->
  (forall e, In e (all_points xs ys ls ms p q) -> 0 <= snd e)%Qc -> mass (all_points xs ys ls ms p q) <> 0%Qc -> di <> 0 -> requested di rv names ->
  exists counts, Forall2 (fun e c => nearest (qn num * snd e / mass (all_points xs ys ls ms p q)) (Z.of_nat c)) (all_points xs ys ls ms p q) counts /\
    forall As, length As = di ->
      (forall i s a, nth_error names i = Some (s, a) -> exists A, nth_error As i = Some A /\ fit s a (map (axis i) (copies xs counts)) = Ok A /\ 2 <= length A <= 4) ->
      snd (step gkde gkde1 fit P (CRv rv num) (mk_m d up ini)) = None /\
      m_law (fst (step gkde gkde1 fit P (CRv rv num) (mk_m d up ini))) = Some (LRv (stored_pairs (map (fun e => (fst (fst e), named (snd e))) (combine names As)))).
Proof. exact fitted_lemma. Qed.
Print Assumptions fitted_variables_partial.
Example even_variables :
  inversion window 2 (fit_disc 2 even_in even_out even_labels even_seen even_seen_labels) 1 1 1 even_in even_out even_seen (Some even_labels) (Some even_seen_labels) None even_labels even_seen_labels even_p even_o 2 /\
  full even_out even_labels even_p 2 /\ (forall e, In e (all_points even_in even_out even_labels even_seen_labels even_p even_o) -> (0 <= snd e)%Qc) /\ mass (all_points even_in even_out even_labels even_seen_labels even_p even_o) <> 0%Qc /\
  requested 1 (RvSet_Model.RSeq [RvSet_Model.EName "gamma"; RvSet_Model.EDict [("floc"%string, Fin 0%Qc)]]) [("gamma", [("floc", Fin 0%Qc)])]%string /\
  (forall s a col, exists A, simple_fit s a col = Ok A) /\
  show_law (m_law (fst (step window window1 simple_fit 2 (CRv (RvSet_Model.RSeq [RvSet_Model.EName "gamma"; RvSet_Model.EDict [("floc"%string, Fin 0%Qc)]]) 12) (mk_m (fit_disc 2 even_in even_out even_labels even_seen even_seen_labels) None None))))
    = Some [("gamma"%string, [("a", Some 1); ("loc", Some 25); ("scale", Some 12)]%string%Q)].
Proof.
  split; [apply even_example; lia|]. split; [exact even_full|]. split; [exact even_nonneg|]. split; [exact even_mass|]. split; [constructor|]. split; [intros s a col; eexists; reflexivity|]. vm_compute. reflexivity.
Qed.
(** Arguments that do not fit the dimension or have another type raise and change
    nothing. *)
Theorem variables_refused : forall gkde gkde1 fit P num s,
  (forall l, length l <> dim (arrays (r_in (m_disc s))) -> (forall n a, l <> [RvSet_Model.EName n; RvSet_Model.EDict a]) -> step gkde gkde1 fit P (CRv (RvSet_Model.RSeq l) num) s = (s, Some DimNotMatching)) /\
  step gkde gkde1 fit P (CRv RvSet_Model.ROther num) s = (s, Some WrongInput).
Proof. intros. split; [intros l; apply refused_length|apply refused_type]. Qed.
Print Assumptions variables_refused.
(** C160: a label that no sample has. *)
Theorem rejection_gap_refuted : forall gkde P d di o oo xs ys zs lo mo w ls ms p q K j draws, inversion gkde P d di o oo xs ys zs lo mo w ls ms p q K -> j < K -> members (combine ys ls) j = [] ->
  invert_rejection_sampling gkde P draws d = Raise PyAttributeError.
Proof. exact rejection_gap_lemma. Qed.
Print Assumptions rejection_gap_refuted.
Example gap_rejection :
  inversion window 2 gap_disc 1 1 1 in_points out_points seen (Some gap_labels) (Some gap_seen) None gap_labels gap_seen (predicted out_points gap_labels None) (observed seen gap_seen) 3 /\ members (combine out_points gap_labels) 1 = [].
Proof. split; [apply gap_example; lia|reflexivity]. Qed.
