From Coq Require Import ZArith List Arith Lia Bool Permutation QArith Qcanon.
From Verif Require Import Err Num Ext NumPy Lists SampleSet_Model SampleSet_Spec SampleSet_Proofs Disc_Model Disc_Proofs Inverse_Model Inverse_Spec Inverse_Proofs Inverse2_Proofs Inverse3_Proofs
  Density_Model Density_Spec Density_Proofs Fits_Model Fits_Spec Fits_Proofs Fits2_Proofs Fits3_Proofs Fits4_Proofs.
Import ListNotations.
Local Open Scope nat_scope.
Local Open Scope err_scope.

Lemma gmm_nth di xs ys ls ms p q K j : j < K -> nth_error (gaussians (gmm_of di xs ys ls ms p q K)) j = Some (if length (members (combine ys ls) j) =? 0 then None else Some (cluster_normal xs ys ls p q di j)).
Proof. intros J. unfold gmm_of. cbn [gaussians]. rewrite nth_error_map, nth_error_seq. destruct (Nat.ltb_spec j K); [reflexivity|lia]. Qed.
Lemma gmm_inv gkde P d di o oo xs ys zs lo mo w ls ms p q K : inversion gkde P d di o oo xs ys zs lo mo w ls ms p q K ->
  exists d', invert_to_gmm gkde P d = Ok (d', gmm_of di xs ys ls ms p q K) /\ sample_weights (r_in d') = Some (map (weight p q) (combine ys ls)) /\
    stores P d' di xs o ys (Some ls) oo zs (Some ms) /\ weights_init (r_out d') = w.
Proof. intros (HP & M & U & St & W & Es & HK). eapply gmm_lemma; eassumption. Qed.
Lemma inv_lengths gkde P d di o oo xs ys zs lo mo w ls ms p q K : inversion gkde P d di o oo xs ys zs lo mo w ls ms p q K -> length xs = length ys /\ length ls = length ys.
Proof. intros (HP & M & U & St & W & Es & HK). split; [apply M|]. apply (used_lengths _ _ _ _ _ _ _ _ _ M U). Qed.
Lemma gmm_moments_lemma : forall gkde P d di o oo xs ys zs lo mo w ls ms p q K, inversion gkde P d di o oo xs ys zs lo mo w ls ms p q K ->
  exists d' m, invert_to_gmm gkde P d = Ok (d', m) /\ gshares m = map (share ms) (seq 0 K) /\ length (gaussians m) = K /\
    sample_weights (r_in d') = Some (map (weight p q) (combine ys ls)) /\ stores P d' di xs o ys (Some ls) oo zs (Some ms) /\
    forall j, j < K -> (members (combine ys ls) j = [] -> nth_error (gaussians m) j = Some None) /\
      (members (combine ys ls) j <> [] -> ratios_defined ys ls p j -> mass (cluster_points xs ys ls p q j) <> 0%Qc ->
        exists mu c, nth_error (gaussians m) j = Some (Some (mk_normal (map Fin mu) (map (map Fin) c))) /\ is_moments di (cluster_points xs ys ls p q j) mu c).
Proof.
  intros gkde P d di o oo xs ys zs lo mo w ls ms p q K H. destruct (inv_lengths _ _ _ _ _ _ _ _ _ _ _ _ _ _ _ _ _ H) as (L1 & L2). destruct (gmm_inv _ _ _ _ _ _ _ _ _ _ _ _ _ _ _ _ _ H) as (d' & E & S1 & S2 & _).
  exists d', (gmm_of di xs ys ls ms p q K). split; [exact E|]. split; [reflexivity|]. split; [unfold gmm_of; cbn [gaussians]; rewrite map_length, seq_length; reflexivity|]. split; [exact S1|]. split; [exact S2|].
  intros j J. rewrite (gmm_nth _ _ _ _ _ _ _ _ _ J). split; [intros ->; reflexivity|]. intros N Df Nm. destruct (Nat.eqb_spec (length (members (combine ys ls) j)) 0) as [Z|_]; [apply length_zero_iff_nil in Z; contradiction|].
  rewrite (cluster_normal_fin xs ys ls p q L1 L2 di j Df Nm). unfold normal_of. eexists. eexists. split; [reflexivity|]. apply normal_moments. exact Nm.
Qed.
Lemma gmm_undefined_lemma : forall gkde P d di o oo xs ys zs lo mo w ls ms p q K j, inversion gkde P d di o oo xs ys zs lo mo w ls ms p q K ->
  j < K -> members (combine ys ls) j <> [] -> ratios_useless ys ls p q j ->
  exists d' m, invert_to_gmm gkde P d = Ok (d', m) /\ nth_error (gaussians m) j = Some (Some (mk_normal (repeat NaN di) (repeat (repeat NaN di) di))).
Proof.
  intros gkde P d di o oo xs ys zs lo mo w ls ms p q K j H J N Ul. destruct (inv_lengths _ _ _ _ _ _ _ _ _ _ _ _ _ _ _ _ _ H) as (L1 & L2). destruct (gmm_inv _ _ _ _ _ _ _ _ _ _ _ _ _ _ _ _ _ H) as (d' & E & _).
  exists d', (gmm_of di xs ys ls ms p q K). split; [exact E|]. rewrite (gmm_nth _ _ _ _ _ _ _ _ _ J). destruct (Nat.eqb_spec (length (members (combine ys ls) j)) 0) as [Z|_]; [apply length_zero_iff_nil in Z; contradiction|].
  rewrite (cluster_normal_useless xs ys ls p q L1 L2 di j N Ul). reflexivity.
Qed.
Lemma terms_sum density (x : list Qc) : forall is (g : nat -> option normal) (s f : nat -> Qc) mar, (forall j, In j is -> density (g j) x = Ok (f j)) ->
  gmm_terms density (map g is) (map s is) x mar = Ok (mar + qsum (map (fun j => s j * f j) is))%Qc.
Proof.
  induction is as [|j is IH]; intros g s f mar H; [cbn; f_equal; ring|]. cbn [map gmm_terms]. rewrite (H j (or_introl eq_refl)). cbn [bind]. rewrite (IH g s f) by (intros k Hk; apply H; right; exact Hk). rewrite qsum_cons. f_equal. ring.
Qed.
Lemma marginal_sum density1 i (x : Qc) : forall is (g : nat -> normal) (s f : nat -> Qc) mar,
  (forall j, In j is -> exists mu row v, nth_error (n_mean (g j)) i = Some mu /\ nth_error (n_cov (g j)) i = Some row /\ nth_error row i = Some v /\ density1 mu v x = Ok (f j)) ->
  gmm_marginal_terms density1 (map (fun j => Some (g j)) is) (map s is) i x mar = Ok (mar + qsum (map (fun j => s j * f j) is))%Qc.
Proof.
  induction is as [|j is IH]; intros g s f mar H; [cbn; f_equal; ring|]. cbn [map gmm_marginal_terms]. destruct (H j (or_introl eq_refl)) as (mu & row & v & E1 & E2 & E3 & E4). unfold at_ at 1. rewrite E1. cbn [bind]. unfold at_ at 1. rewrite E2. cbn [bind]. unfold at_ at 1. rewrite E3. cbn [bind]. rewrite E4. cbn [bind].
  rewrite (IH g s f) by (intros k Hk; apply H; right; exact Hk). rewrite qsum_cons. f_equal. ring.
Qed.
Lemma normal_entry cols w i : i < length cols -> exists mu row v, nth_error (n_mean (weighted_normal cols w)) i = Some mu /\ nth_error (n_cov (weighted_normal cols w)) i = Some row /\ nth_error row i = Some v.
Proof.
  intros I. unfold weighted_normal. cbv zeta. cbn [n_mean n_cov]. assert (L : length (combine cols (map (wmean w) cols)) = length cols) by (rewrite combine_length, map_length; lia).
  assert (B : exists c, nth_error cols i = Some c) by (destruct (nth_error cols i) as [c|] eqn:E; [exists c; reflexivity|apply nth_error_None in E; lia]). destruct B as (c & B).
  assert (C : exists e, nth_error (combine cols (map (wmean w) cols)) i = Some e) by (destruct (nth_error (combine cols (map (wmean w) cols)) i) as [e|] eqn:E; [exists e; reflexivity|apply nth_error_None in E; lia]). destruct C as (e & C).
  eexists. eexists. eexists. split; [rewrite nth_error_map, B; reflexivity|]. split; [rewrite nth_error_map, C; reflexivity|]. rewrite nth_error_map, C. reflexivity.
Qed.
Lemma cluster_entry xs ys ls p q di j i : i < di -> exists mu row v, nth_error (n_mean (cluster_normal xs ys ls p q di j)) i = Some mu /\ nth_error (n_cov (cluster_normal xs ys ls p q di j)) i = Some row /\ nth_error row i = Some v.
Proof. intros I. apply normal_entry. unfold columns_of. rewrite map_length, seq_length. exact I. Qed.
Lemma gmm_pdf_lemma : forall gkde density density1 P d di o oo xs ys zs lo mo w ls ms p q K, inversion gkde P d di o oo xs ys zs lo mo w ls ms p q K -> (forall j, j < K -> members (combine ys ls) j <> []) ->
  exists d' m, invert_to_gmm gkde P d = Ok (d', m) /\ (forall x, length x <> di -> gmm_pdf density di m x = Raise DimNotMatching) /\
    (forall x f, length x = di -> (forall j g, nth_error (gaussians m) j = Some g -> density g x = Ok (f j)) -> gmm_pdf density di m x = Ok (qsum (map (fun j => share ms j * f j) (seq 0 K)))%Qc) /\
    forall i x f, i < di -> (forall j g mu row v, nth_error (gaussians m) j = Some (Some g) -> nth_error (n_mean g) i = Some mu -> nth_error (n_cov g) i = Some row -> nth_error row i = Some v -> density1 mu v x = Ok (f j)) ->
      gmm_marginal_pdf density1 m i x = Ok (qsum (map (fun j => share ms j * f j) (seq 0 K)))%Qc.
Proof.
  intros gkde density density1 P d di o oo xs ys zs lo mo w ls ms p q K H N. destruct (gmm_inv _ _ _ _ _ _ _ _ _ _ _ _ _ _ _ _ _ H) as (d' & E & _).
  exists d', (gmm_of di xs ys ls ms p q K). split; [exact E|]. split.
  { intros x Hx. unfold gmm_pdf. destruct (Nat.eqb_spec (length x) di); [contradiction|reflexivity]. }
  split.
  - intros x f Hx Hf. unfold gmm_pdf. rewrite Hx, Nat.eqb_refl. unfold gmm_of at 1 2. cbn [gaussians gshares]. rewrite (terms_sum density x (seq 0 K) _ (share ms) f).
    + f_equal. ring.
    + intros j J. apply in_seq in J. apply Hf. apply gmm_nth. lia.
  - intros i x f I Hf. unfold gmm_marginal_pdf. unfold gmm_of. cbn [gaussians gshares].
    rewrite (map_ext_in _ (fun j => Some (cluster_normal xs ys ls p q di j))), (marginal_sum density1 i x (seq 0 K) _ (share ms) f).
    + f_equal. ring.
    + intros j J. apply in_seq in J. destruct (cluster_entry xs ys ls p q di j i I) as (mu & row & v & E1 & E2 & E3). exists mu, row, v. do 3 (split; [assumption|]). apply (Hf j (cluster_normal xs ys ls p q di j) mu row v); try assumption.
      rewrite gmm_nth by lia. destruct (Nat.eqb_spec (length (members (combine ys ls) j)) 0) as [Z|_]; [apply length_zero_iff_nil in Z; destruct (N j ltac:(lia) Z)|reflexivity].
    + intros j J. apply in_seq in J. destruct (Nat.eqb_spec (length (members (combine ys ls) j)) 0) as [Z|_]; [apply length_zero_iff_nil in Z; destruct (N j ltac:(lia) Z)|reflexivity].
Qed.
Lemma gmm_gap_lemma : forall gkde density1 P d di o oo xs ys zs lo mo w ls ms p q K j, inversion gkde P d di o oo xs ys zs lo mo w ls ms p q K -> j < K -> members (combine ys ls) j = [] ->
  (forall mu v x, exists y, density1 mu v x = Ok y) -> exists d' m, invert_to_gmm gkde P d = Ok (d', m) /\ forall i x, i < di -> gmm_marginal_pdf density1 m i x = Raise PyTypeError.
Proof.
  intros gkde density1 P d di o oo xs ys zs lo mo w ls ms p q K j H J N T. destruct (gmm_inv _ _ _ _ _ _ _ _ _ _ _ _ _ _ _ _ _ H) as (d' & E & _).
  exists d', (gmm_of di xs ys ls ms p q K). split; [exact E|]. intros i x I. unfold gmm_marginal_pdf, gmm_of. cbn [gaussians gshares].
  assert (G : forall is mar, In j is -> gmm_marginal_terms density1 (map (fun k => if length (members (combine ys ls) k) =? 0 then None else Some (cluster_normal xs ys ls p q di k)) is) (map (share ms) is) i x mar = Raise PyTypeError).
  { induction is as [|k is IH]; intros mar Hj; [destruct Hj|]. cbn [map gmm_marginal_terms]. destruct (Nat.eqb_spec (length (members (combine ys ls) k)) 0) as [Z|Z]; [reflexivity|].
    destruct (cluster_entry xs ys ls p q di k i I) as (mu & row & v & E1 & E2 & E3). unfold at_ at 1. rewrite E1. cbn [bind]. unfold at_ at 1. rewrite E2. cbn [bind]. unfold at_ at 1. rewrite E3. cbn [bind]. destruct (T mu v x) as (y & ->). cbn [bind]. apply IH.
    destruct Hj as [->|Hj]; [rewrite N in Z; destruct (Z eq_refl)|exact Hj]. }
  apply G. apply in_seq. lia.
Qed.
Lemma gmm_processes_lemma : forall gkde P P' d e di o oo xs ys zs lo mo w ls ms p q K, inversion gkde P d di o oo xs ys zs lo mo w ls ms p q K -> inversion gkde P' e di o oo xs ys zs lo mo w ls ms p q K ->
  exists d' d'' e' m, invert_to_gmm gkde P d = Ok (d', m) /\ invert_to_gmm gkde P' e = Ok (e', m) /\ invert_to_gmm gkde P d' = Ok (d'', m).
Proof.
  intros gkde P P' d e di o oo xs ys zs lo mo w ls ms p q K H H'. destruct (gmm_inv _ _ _ _ _ _ _ _ _ _ _ _ _ _ _ _ _ H) as (d' & E & _ & S1 & W1). destruct (gmm_inv _ _ _ _ _ _ _ _ _ _ _ _ _ _ _ _ _ H') as (e' & E' & _).
  assert (H'' : inversion gkde P d' di o oo xs ys zs (Some ls) (Some ms) w ls ms p q K).
  { destruct H as (HP & M & U & St & W & Es & HK). split; [exact HP|]. split; [|split; [reflexivity|split; [exact S1|split; [exact W1|split; assumption]]]].
    destruct (used_lengths _ _ _ _ _ _ _ _ _ M U) as (Ll & Lm). destruct M as (M1 & M2 & M3 & M4 & M5 & M6). split; [exact M1|]. split; [exact M2|]. split; [exact M3|]. split; [intros l [= <-]; exact Ll|]. split; [intros l [= <-]; exact Lm|exact M6]. }
  destruct (gmm_inv _ _ _ _ _ _ _ _ _ _ _ _ _ _ _ _ _ H'') as (d'' & E'' & _). exists d', d'', e', (gmm_of di xs ys ls ms p q K). split; [exact E|]. split; [exact E'|exact E''].
Qed.

(** ** A single Gaussian *)
Lemma gaussian_moments_lemma : forall gkde P d di o oo xs ys zs lo mo w ls ms p q K, inversion gkde P d di o oo xs ys zs lo mo w ls ms p q K -> full ys ls p K -> mass (all_points xs ys ls ms p q) <> 0%Qc ->
  exists d' mu c, invert_to_multivariate_gaussian gkde P d = Ok (d', mk_gmm [Some (mk_normal (map Fin mu) (map (map Fin) c))] [1%Qc]) /\ is_moments di (all_points xs ys ls ms p q) mu c /\
    sample_weights (r_in d') = Some (map (weight p q) (combine ys ls)) /\ stores P d' di xs o ys (Some ls) oo zs (Some ms).
Proof.
  intros gkde P d di o oo xs ys zs lo mo w ls ms p q K (HP & M & U & St & W & Es & HK) F N. destruct (gaussian_lemma gkde P di o oo xs ys zs lo mo w ls ms p q K d HP M U St W Es HK) as (d' & E & L); [intros j J; apply (F j J)|].
  destruct (used_lengths _ _ _ _ _ _ _ _ _ M U) as (Ll & Lm).
  rewrite <- (all_snd xs ys ls ms p q K Ll HK (proj1 (proj2 M))) in E by (intros j J; apply (F j J)). rewrite <- (all_fst xs ys ls ms p q Ll (proj1 (proj2 M))) in E at 1. rewrite (weighted_fin di _ N) in E.
  eexists. eexists. eexists. split; [exact E|]. split; [apply normal_moments, N|]. destruct L as (L1 & L2 & _). split; assumption.
Qed.
Lemma gaussian_represents_lemma : forall di xs ys ls ms p q K m c mj cj, clusters ls K ->
  is_moments di (all_points xs ys ls ms p q) m c -> (forall j, j < K -> is_moments di (cluster_points xs ys ls p q j) (mj j) (cj j)) ->
  (forall i, i < di -> (axis i m * qsum (map (fun j => share ms j * mass (cluster_points xs ys ls p q j)) (seq 0 K)))%Qc = qsum (map (fun j => share ms j * mass (cluster_points xs ys ls p q j) * axis i (mj j))%Qc (seq 0 K))) /\
  ((exists S, S <> 0%Qc /\ forall j, j < K -> mass (cluster_points xs ys ls p q j) = S) -> labelled ms K ->
    (forall i, i < di -> axis i m = mixture_mean ms K mj i) /\ forall a b, a < di -> b < di -> entry c a b = mixture_cov ms K mj cj a b).
Proof. intros di xs ys ls ms p q K m c mj cj HK. apply gaussian_mixture_lemma. apply HK. Qed.
Lemma gaussian_gap_lemma : forall gkde P d di o oo xs ys zs lo mo w ls ms p q K j num, inversion gkde P d di o oo xs ys zs lo mo w ls ms p q K -> j < K -> members (combine ys ls) j = [] ->
  invert_to_multivariate_gaussian gkde P d = Raise PyTypeError /\ fit_data gkde num P d = Raise PyTypeError.
Proof. intros gkde P d di o oo xs ys zs lo mo w ls ms p q K j num (HP & M & U & St & W & Es & HK) J N. split; [eapply gaussian_gap|eapply fit_data_gap]; eassumption. Qed.
Lemma fit_copies_lemma : forall gkde P d di o oo xs ys zs lo mo w ls ms p q K num, inversion gkde P d di o oo xs ys zs lo mo w ls ms p q K -> full ys ls p K ->
  (forall e, In e (all_points xs ys ls ms p q) -> 0 <= snd e)%Qc -> mass (all_points xs ys ls ms p q) <> 0%Qc ->
  exists d' counts, fit_data gkde num P d = Ok (d', map (fun i => map (axis i) (copies xs counts)) (seq 0 di)) /\
    Forall2 (fun e c => nearest (qn num * snd e / mass (all_points xs ys ls ms p q)) (Z.of_nat c)) (all_points xs ys ls ms p q) counts /\
    sample_weights (r_in d') = Some (map (weight p q) (combine ys ls)) /\ stores P d' di xs o ys (Some ls) oo zs (Some ms).
Proof.
  intros gkde P d di o oo xs ys zs lo mo w ls ms p q K num (HP & M & U & St & W & Es & HK) F NN N. destruct (fit_data_lemma gkde P di o oo xs ys zs lo mo w ls ms p q K d HP M U St W Es HK num F NN N) as (d' & counts & E & (L1 & L2 & _) & C).
  exists d', counts. split; [exact E|]. split; [exact C|]. split; assumption.
Qed.
Lemma fit_undefined_lemma : forall gkde P d di o oo xs ys zs lo mo w ls ms p q K num, inversion gkde P d di o oo xs ys zs lo mo w ls ms p q K -> (forall j, j < K -> members (combine ys ls) j <> []) ->
  (exists j y, j < K /\ In y (members (combine ys ls) j) /\ p j y = 0%Qc) \/ (full ys ls p K /\ mass (all_points xs ys ls ms p q) = 0%Qc) ->
  fit_data gkde num P d = Raise PyValueError.
Proof.
  intros gkde P d di o oo xs ys zs lo mo w ls ms p q K num (HP & M & U & St & W & Es & HK) N H. eapply fit_data_useless; try eassumption. destruct H as [H|(F & Z)]; [left; exact H|right; split; [intros j J; apply (F j J)|exact Z]].
Qed.

(** ** Rejection sampling *)
Lemma largest_pos xs ys ls p q j : length xs = length ys -> length ls = length ys -> (exists y, In y (members (combine ys ls) j) /\ (0 < quotient p q j y)%Qc) -> (0 < largest xs ys ls p q j)%Qc.
Proof.
  intros L1 L2 (y & I & Hy). assert (V : In (quotient p q j y) (map snd (cluster_points xs ys ls p q j))).
  { unfold cluster_points. rewrite map_map. cbn [snd]. rewrite (proj1 (pair_members xs ys ls j L1 L2)) in I. apply in_map_iff in I. destruct I as (e & <- & I). apply in_map_iff. exists e. split; [reflexivity|exact I]. }
  unfold largest. destruct (qlist_max_is_max (map snd (cluster_points xs ys ls p q j))) as (_ & B); [intros E; rewrite E in V; exact V|]. exact (Qclt_le_trans _ _ _ Hy (B _ V)).
Qed.
Lemma rejection_ranks_lemma : forall gkde P d di o oo xs ys zs lo mo w ls ms p q K draws, inversion gkde P d di o oo xs ys zs lo mo w ls ms p q K -> 0 < K -> full ys ls p K ->
  (forall j, j < K -> exists y, In y (members (combine ys ls) j) /\ (0 < quotient p q j y)%Qc) ->
  (forall rank j, rank < P -> j < K -> uniform_numbers (draws rank j) (length (members (combine ys ls) j))) ->
  exists d' hs L, invert_rejection_sampling gkde P draws d = Ok (d', hs) /\ length hs = P /\ (forall j, j < K -> is_max (map snd (cluster_points xs ys ls p q j)) (L j)) /\
    sample_weights (r_in d') = Some (map (weight p q) (combine ys ls)) /\ stores P d' di xs o ys (Some ls) oo zs (Some ms) /\
    forall rank h, nth_error hs rank = Some h ->
      let vs := concat (map (fun j => kept (L j) (cluster_points xs ys ls p q j) (draws rank j)) (seq 0 K)) in
      vs <> [] /\ (forall x, In x vs -> In x xs) /\ h_global h = map point_row vs /\ h_probs h = repeat (Num (1 / qn (length vs))%Qc) (length vs) /\ tight di vs (h_domain h) /\
      nth_error (array_split (h_global h) P) rank = Some (h_local h) /\ nth_error (array_split (seq 0 (length vs)) P) rank = Some (h_index h).
Proof.
  intros gkde P d di o oo xs ys zs lo mo w ls ms p q K draws Hi K0 F Hp Ud. pose proof (inv_lengths _ _ _ _ _ _ _ _ _ _ _ _ _ _ _ _ _ Hi) as (L1 & L2). destruct Hi as (HP & M & U & St & W & Es & HK).
  destruct (rejection_held gkde P di o oo xs ys zs lo mo w ls ms p q K d HP M U St W Es HK draws K0) as (d' & E & (S1 & S2 & _) & NE); [|exact Ud|].
  { intros j J. destruct (F j J) as (F1 & F2). split; [exact F1|]. split; [exact F2|]. apply largest_pos; try assumption. apply Hp, J. }
  exists d', (map (fun rank => held_of P rank di (selected xs ys ls p q K (largest xs ys ls p q) (draws rank))) (seq 0 P)), (largest xs ys ls p q). split; [exact E|]. split; [rewrite map_length, seq_length; reflexivity|].
  split; [intros j J; eapply largest_max; try eassumption; apply (F j J)|]. split; [exact S1|]. split; [exact S2|]. intros rank h Hh. apply nth_error_map_seq in Hh. destruct Hh as (R & ->). cbv zeta. fold (selected xs ys ls p q K (largest xs ys ls p q) (draws rank)).
  set (vs := selected xs ys ls p q K (largest xs ys ls p q) (draws rank)). split; [apply NE, R|]. split; [intros x Hx; eapply selected_in; eassumption|]. unfold held_of. cbn [h_global h_probs h_domain h_local h_index].
  split; [reflexivity|]. split; [reflexivity|]. split; [apply bounds_tight, NE, R|]. split; apply nth_error_nth'; rewrite array_split_length by exact HP; exact R.
Qed.
Lemma map_nth_seq {A} (l : list A) d n : length l = n -> map (fun i => nth i l d) (seq 0 n) = l.
Proof.
  intros <-. induction l as [|x l IH]; [reflexivity|]. cbn [length seq map nth]. f_equal. rewrite <- seq_shift, map_map. exact IH.
Qed.
Lemma rejection_processes_lemma : forall gkde P d di o oo xs ys zs lo mo w ls ms p q K draws, inversion gkde P d di o oo xs ys zs lo mo w ls ms p q K -> 0 < K -> full ys ls p K ->
  (forall j, j < K -> exists y, In y (members (combine ys ls) j) /\ (0 < quotient p q j y)%Qc) ->
  (forall j, j < K -> uniform_numbers (draws j) (length (members (combine ys ls) j))) ->
  exists d' hs vs, invert_rejection_sampling gkde P (fun _ => draws) d = Ok (d', hs) /\ vs <> [] /\ (forall x, In x vs -> In x xs) /\ Forall (fun h => h_global h = map point_row vs) hs /\ concat (map h_local hs) = map point_row vs /\
    concat (map h_index hs) = seq 0 (length vs).
Proof.
  intros gkde P d di o oo xs ys zs lo mo w ls ms p q K draws Hi K0 F Hp Ud. pose proof (inv_lengths _ _ _ _ _ _ _ _ _ _ _ _ _ _ _ _ _ Hi) as (L1 & L2). destruct Hi as (HP & M & U & St & W & Es & HK).
  destruct (rejection_held gkde P di o oo xs ys zs lo mo w ls ms p q K d HP M U St W Es HK (fun _ => draws) K0) as (d' & E & (S1 & S2 & _) & NE); [|intros; apply Ud; assumption|].
  { intros j J. destruct (F j J) as (F1 & F2). split; [exact F1|]. split; [exact F2|]. apply largest_pos; try assumption. apply Hp, J. }
  set (vs := selected xs ys ls p q K (largest xs ys ls p q) draws) in *. exists d', (map (fun rank => held_of P rank di vs) (seq 0 P)), vs. split; [exact E|]. split; [apply (NE 0 HP)|]. split; [intros x Hx; eapply selected_in; eassumption|].
  split; [apply Forall_forall; intros h Hh; apply in_map_iff in Hh; destruct Hh as (r & <- & _); reflexivity|]. rewrite !map_map. unfold held_of. cbn [h_local h_index].
  split; rewrite map_nth_seq by (apply array_split_length; exact HP); apply array_split_concat; exact HP.
Qed.
