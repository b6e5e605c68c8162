From Coq Require Import String ZArith List Arith Bool QArith Qcanon Lia.
From Verif Require Import Err Num Ext NumPy Lists SampleSet_Model Disc_Model Inverse_Model Inverse_Spec Inverse3_Proofs Density_Model Density_Spec Density_Proofs
  Fits_Model Fits_Spec Fits_Proofs Fits2_Proofs Fits3_Proofs Fits4_Proofs Fits5_Proofs Measure_Model Measure_Spec Measure_Proofs.
Import RvSet_Model(dict, entry, EName, EDict, EPair, EOther, rv_arg, RName, RSeq, ROther, fit_parameters).
Import ListNotations.
Local Open Scope nat_scope.
Local Open Scope err_scope.

(** ** Mixtures of Gaussians in resampled sets *)
Lemma drawn_gmm gkde gkde1 fit density density1 rvpdf cells cells1 draws P d di o oo xs ys zs lo mo w ls ms p q K up ini n t :
  inversion gkde P d di o oo xs ys zs lo mo w ls ms p q K -> (forall j, j < K -> members (combine ys ls) j <> []) ->
  sample_from_updated draws (fst (step gkde gkde1 fit P CGmm (mk_m d up ini))) n = Ok t ->
  exists m, w_init t = Some (LGmm m) /\ w_dim t = di /\
    (forall x f, length x = di -> (forall j g, nth_error (gaussians m) j = Some g -> density g x = Ok (f j)) ->
       law_pdf_init density rvpdf cells (w_dim t) (w_init t) x = Ok (qsum (map (fun j => share ms j * f j) (seq 0 K)))%Qc) /\
    (forall i x f, i < di -> (forall j g mu row v, nth_error (gaussians m) j = Some (Some g) -> nth_error (n_mean g) i = Some mu -> nth_error (n_cov g) i = Some row -> nth_error row i = Some v -> density1 mu v x = Ok (f j)) ->
       law_marginal_init density1 rvpdf cells1 (w_dim t) (w_init t) i x = Ok (qsum (map (fun j => share ms j * f j) (seq 0 K)))%Qc).
Proof.
  intros Hi N E. destruct (gmm_pdf_lemma gkde density density1 P d di o oo xs ys zs lo mo w ls ms p q K Hi N) as (d' & m & Em & _ & E1 & E2).
  assert (D : dim (arrays (r_in d')) = di).
  { destruct Hi as (HP & M & U & St & W & Es & HK). destruct (gmm_lemma gkde P di o oo xs ys zs lo mo w ls ms p q K d HP M U St W Es HK) as (d2 & E3 & _ & St2 & _). rewrite Em in E3. injection E3 as <- _. destruct St2 as (K1 & _). exact (proj1 K1). }
  unfold step, outcome in E. cbn [m_disc] in E. rewrite Em in E. cbn [bind fst snd] in E. unfold sample_from_updated in E. cbn [m_law m_disc fst] in E. cbv zeta in E.
  destruct (draws (LGmm m) n) as [b|]; [|discriminate]. cbn [bind] in E. injection E as <-. exists m. cbn [w_init w_dim]. split; [reflexivity|]. split; [exact D|]. rewrite D. split.
  - intros x f L F. unfold law_pdf_init, law_pdf. rewrite L, Nat.eqb_refl. specialize (E1 x f L F). unfold gmm_pdf in E1. rewrite L, Nat.eqb_refl in E1. exact E1.
  - intros i x f L F. unfold law_marginal_init, law_marginal. apply E2; assumption.
Qed.

(** ** Products of random variables *)
Lemma rv_product_lemma rvpdf names x vs : forall i0 pre mar, length pre = i0 -> length names = length x -> length vs = length x ->
  (forall i s a y, nth_error names i = Some (s, a) -> nth_error x i = Some y -> exists v, nth_error vs i = Some v /\ rvpdf s a y = Ok v) ->
  rv_product rvpdf (pre ++ stored_pairs names) i0 x mar = Ok (mar * qprod vs)%Qc.
Proof.
  revert names vs. induction x as [|y x IH]; intros names vs i0 pre mar Lp Ln Lv H.
  - destruct vs; [|discriminate]. cbn [rv_product qprod]. f_equal. ring.
  - destruct names as [|[s a] names]; [discriminate|]. destruct vs as [|v vs]; [discriminate|]. cbn [rv_product]. unfold rv_marginal. rewrite nth_error_app2, Lp, Nat.sub_diag by lia. cbn [stored_pairs map nth_error fst snd].
    destruct (H 0 s a y eq_refl eq_refl) as (v' & [= <-] & ->). cbn [bind].
    change (EPair s a :: map (fun e : string * dict => EPair (fst e) (snd e)) names) with ([EPair s a] ++ stored_pairs names). rewrite app_assoc.
    rewrite (IH names vs (S i0) (pre ++ [EPair s a])%list); [| rewrite app_length; cbn; lia| cbn in Ln; lia| cbn in Lv; lia|].
    + f_equal. cbn [qprod]. ring.
    + intros i s' a' y' E1 E2. exact (H (S i) s' a' y' E1 E2).
Qed.
Lemma variables_lemma density density1 rvpdf cells cells1 di names : length names = di ->
  (forall x vs, length x = di -> length vs = di -> (forall i s a y, nth_error names i = Some (s, a) -> nth_error x i = Some y -> exists v, nth_error vs i = Some v /\ rvpdf s a y = Ok v) ->
     law_pdf density rvpdf cells di (Some (LRv (stored_pairs names))) x = Ok (qprod vs)) /\
  (forall i s a x, nth_error names i = Some (s, a) -> law_marginal density1 rvpdf cells1 di (Some (LRv (stored_pairs names))) i x = rvpdf s a x).
Proof.
  intros Ln. split.
  - intros x vs Lx Lv H. unfold law_pdf. rewrite Lx, Nat.eqb_refl. change (stored_pairs names) with ([] ++ stored_pairs names)%list. rewrite (rv_product_lemma rvpdf names x vs 0 [] 1%Qc eq_refl) by (try congruence; exact H). f_equal. ring.
  - intros i s a x E. unfold law_marginal, rv_marginal, stored_pairs. rewrite nth_error_map, E. reflexivity.
Qed.

(** ** The argument rv *)
Lemma requested_entries di rv names : di <> 0 -> requested di rv names -> length names = di /\ rv_entries di rv = Ok (stored_pairs names).
Proof.
  intros N0 H. destruct H as [s|s a|l L].
  - split; [apply repeat_length|]. cbn [rv_entries]. unfold stored_pairs. f_equal. clear N0. induction di as [|k IH]; [reflexivity|]. cbn [repeat map]. rewrite <- IH. reflexivity.
  - split; [apply repeat_length|]. cbn [rv_entries]. unfold stored_pairs. f_equal. clear N0. induction di as [|k IH]; [reflexivity|]. cbn [repeat map]. rewrite <- IH. reflexivity.
  - split; [exact L|]. unfold rv_entries. assert (E : length (map (fun e : string * dict => EPair (fst e) (snd e)) l) = di) by (rewrite map_length; exact L). rewrite E, Nat.eqb_refl.
    destruct l as [|[s a] [|[s' a'] l]]; reflexivity.
Qed.
Lemma named_lemma A : 2 <= length A <= 4 -> fit_parameters A = Ok (named A).
Proof. destruct A as [|a [|b [|c [|e [|f A]]]]]; cbn [length]; intros H; try lia; reflexivity. Qed.
Lemma fits_lemma fit (cols : list (list Qc)) names As : length As = length names -> length cols = length names ->
  (forall i s a col, nth_error names i = Some (s, a) -> nth_error cols i = Some col -> exists A, nth_error As i = Some A /\ fit s a col = Ok A /\ 2 <= length A <= 4) ->
  each (fit_one fit) (combine (stored_pairs names) cols) = Ok (stored_pairs (map (fun e => (fst (fst e), named (snd e))) (combine names As))).
Proof.
  revert cols As. induction names as [|[s a] names IH]; intros [|col cols] [|A As] L1 L2 H; try discriminate; [reflexivity|].
  cbn [stored_pairs map combine each]. unfold fit_one at 1. cbn [fst snd]. destruct (H 0 s a col eq_refl eq_refl) as (A' & [= <-] & -> & LA). cbn [bind]. rewrite (named_lemma A LA). cbn [bind].
  change (map (fun e : string * dict => EPair (fst e) (snd e)) names) with (stored_pairs names). rewrite (IH cols As); [reflexivity|cbn in L1; lia|cbn in L2; lia|].
  intros i s' a' col' E1 E2. exact (H (S i) s' a' col' E1 E2).
Qed.
Lemma fitted_lemma : forall gkde gkde1 fit P d di o oo xs ys zs lo mo w ls ms p q K num rv names up ini, inversion gkde P d di o oo xs ys zs lo mo w ls ms p q K -> full ys ls p K ->
  (forall e, In e (all_points xs ys ls ms p q) -> 0 <= snd e)%Qc -> mass (all_points xs ys ls ms p q) <> 0%Qc -> di <> 0 -> requested di rv names ->
  exists counts, Forall2 (fun e c => nearest (qn num * snd e / mass (all_points xs ys ls ms p q)) (Z.of_nat c)) (all_points xs ys ls ms p q) counts /\
    forall As, length As = di ->
      (forall i s a, nth_error names i = Some (s, a) -> exists A, nth_error As i = Some A /\ fit s a (map (axis i) (copies xs counts)) = Ok A /\ 2 <= length A <= 4) ->
      snd (step gkde gkde1 fit P (CRv rv num) (mk_m d up ini)) = None /\
      m_law (fst (step gkde gkde1 fit P (CRv rv num) (mk_m d up ini))) = Some (LRv (stored_pairs (map (fun e => (fst (fst e), named (snd e))) (combine names As)))).
Proof.
  intros gkde gkde1 fit P d di o oo xs ys zs lo mo w ls ms p q K num rv names up ini Hi F NN N N0 R.
  destruct (fit_copies_lemma gkde P d di o oo xs ys zs lo mo w ls ms p q K num Hi F NN N) as (d' & counts & E & C & _). exists counts. split; [exact C|]. intros As LA H.
  destruct (requested_entries di rv names N0 R) as (Ln & Er).
  assert (D : dim (arrays (r_in d)) = di) by (destruct Hi as (_ & _ & _ & St & _); destruct St as (K1 & _); exact (proj1 K1)).
  unfold step, outcome. cbn [m_disc]. rewrite D, Er. cbn [bind]. unfold fit_rv. rewrite E. cbn [bind fst snd].
  rewrite (fits_lemma fit _ names As); [split; reflexivity|congruence|rewrite map_length, seq_length; congruence|].
  intros i s a col E1 E2. rewrite nth_error_map in E2. assert (Li : i < di) by (rewrite <- Ln; apply nth_error_Some; congruence). rewrite nth_error_seq in E2. destruct (Nat.ltb_spec i di); [|lia].
  cbn [option_map] in E2. injection E2 as <-. apply (H i s a E1).
Qed.
Lemma refused_rv gkde gkde1 fit P rv num s e : rv_entries (dim (arrays (r_in (m_disc s)))) rv = Raise e -> step gkde gkde1 fit P (CRv rv num) s = (s, Some e).
Proof. intros E. unfold step, outcome, left_behind. cbv zeta. rewrite E. cbn [bind]. destruct s; reflexivity. Qed.
Lemma refused_length gkde gkde1 fit P l num s : length l <> dim (arrays (r_in (m_disc s))) -> (forall n a, l <> [EName n; EDict a]) ->
  step gkde gkde1 fit P (CRv (RSeq l) num) s = (s, Some DimNotMatching).
Proof.
  intros L N. apply refused_rv. unfold rv_entries. apply Nat.eqb_neq in L. rewrite L. destruct l as [|[x| | |] [|[|y| |] [|z l]]]; try reflexivity. exfalso. eapply N. reflexivity.
Qed.
Lemma refused_type gkde gkde1 fit P num s : step gkde gkde1 fit P (CRv ROther num) s = (s, Some WrongInput).
Proof. apply refused_rv. reflexivity. Qed.

(** ** Rejection sampling with a label that no sample has *)
Section Gap.
Context (xs : list (list Qc)) (ys : list cell) (ls : list Z) (p q : nat -> cell -> Qc) (K di : nat) (X1 : length xs = length ys) (X2 : length ls = length ys).
Lemma keep_gap draws is j : In j is -> (forall i, In i is -> i < K) -> members (combine ys ls) j = [] ->
  keep_clusters (solution ys p q ls K) draws (Some (mk_arr (map point_row xs) [di])) is = Raise PyAttributeError.
Proof.
  intros I B N. induction is as [|i is IH]; [contradiction|]. cbn [keep_clusters]. destruct (solution_nth ys p q ls K i (B i (or_introl eq_refl))) as (-> & ->). unfold ratios.
  destruct (Nat.eqb_spec (length (members (combine ys ls) i)) 0) as [E|NE]; [reflexivity|].
  destruct I as [->|I]; [rewrite N in NE; cbn in NE; lia|].
  unfold keep_cluster. destruct (members (combine ys ls) i) as [|y0 r0]; [cbn in NE; lia|]. cbn [map xlist_max bind subscript rows]. unfold take.
  assert (LX : length ls = length (map point_row xs)) by (rewrite map_length, X2; symmetry; exact X1).
  rewrite (take_chosen (map point_row xs) (pointer ls i) _ (take_members (map point_row xs) ls i LX)). cbn [bind]. rewrite IH; [reflexivity|exact I|intros k Hk; apply B; right; exact Hk].
Qed.
End Gap.
Lemma rejection_gap_lemma : forall gkde P d di o oo xs ys zs lo mo w ls ms p q K j draws, inversion gkde P d di o oo xs ys zs lo mo w ls ms p q K -> j < K -> members (combine ys ls) j = [] ->
  invert_rejection_sampling gkde P draws d = Raise PyAttributeError.
Proof.
  intros gkde P d di o oo xs ys zs lo mo w ls ms p q K j draws Hi J N. pose proof (inv_lengths _ _ _ _ _ _ _ _ _ _ _ _ _ _ _ _ _ Hi) as (L1 & L2). destruct Hi as (HP & M & U & St & W & Es & HK).
  destruct (prepare P di o oo xs ys zs lo mo w ls ms d HP M U St W) as (d1 & d2 & E1 & E2 & Q & SR).
  destruct (prepared_again P di o oo xs ys zs w HP ls ms d2 Q) as (d3 & F1 & F2 & Q3 & SR3).
  pose proof Q3 as ((A1 & _) & _). destruct (keeps_gather P _ _ _ _ HP A1) as (s & Es1 & Ks & Gs & Ls).
  unfold invert_rejection_sampling. rewrite (generate_from gkde P di o oo xs ys zs lo mo w p q HP M ls ms U Es K HK d1 d2 d E1 E2 Q). cbn [bind gen_of g_disc g_num].
  rewrite (invert_from gkde P di o oo xs ys zs lo mo w p q HP M ls ms U Es K HK d3 d3 d2 F1 F2 Q3). cbn [bind fst snd r_in r_out r_obs set_weights arrays]. rewrite Es1. cbn [bind].
  destruct P as [|k]; [lia|]. cbn [seq each]. unfold rejection_on at 1. cbn [r_in with_arrays arrays]. cbv zeta. rewrite (Gs Values). cbn [content].
  rewrite (keep_gap xs ys ls p q K di L1 L2 _ (seq 0 K) j); [reflexivity|apply in_seq; lia|intros i Hi; apply in_seq in Hi; lia|exact N].
Qed.
