From Coq Require Import ZArith List Arith Lia Bool Permutation QArith Qcanon.
From Verif Require Import Err Num Ext NumPy Lists SampleSet_Model SampleSet_Spec SampleSet_Proofs Disc_Model Disc_Proofs Inverse_Model Inverse_Spec Inverse_Proofs Inverse2_Proofs Inverse3_Proofs
  Density_Model Density_Spec Density_Proofs Fits_Model Fits_Spec Fits_Proofs Fits2_Proofs Fits3_Proofs.
Import ListNotations.
Local Open Scope nat_scope.
Local Open Scope err_scope.

(** ** Rejection on one process *)
Lemma xlist_max_fin r x : fold_left xmax (map Fin r) (Fin x) = Fin (fold_left qmax r x).
Proof.
  revert x. induction r as [|y r IH]; intros x; [reflexivity|]. cbn [map fold_left]. rewrite <- IH. f_equal. unfold xmax, xleb, qmax. destruct (qleb x y); reflexivity.
Qed.
Lemma take_chosen {A} (l : list A) ptr vs : take_idx l ptr = Some vs -> forall flags, take_idx l (chosen ptr flags) = Some (map fst (filter snd (combine vs flags))).
Proof.
  revert vs. induction ptr as [|i ptr IH]; intros vs H flags.
  - cbn in H. injection H as <-. destruct flags; reflexivity.
  - cbn [take_idx] in H. destruct (nth_error l i) as [x|] eqn:E; [|discriminate]. destruct (take_idx l ptr) as [v|] eqn:E2; [|discriminate]. injection H as <-.
    destruct flags as [|b flags]; [reflexivity|]. unfold chosen. cbn [combine filter]. destruct b; cbn [snd map fst take_idx]; [rewrite E|]; fold (chosen ptr flags); rewrite (IH v eq_refl flags); reflexivity.
Qed.
Lemma kept_filter {A} (f : list Qc -> A) (pts : list (list Qc * Qc)) us m : (0 < m)%Qc ->
  map fst (filter snd (combine (map f (map fst pts)) (map (fun e => xleb (Fin (snd e)) (xdiv (fst e) (Fin m))) (combine (map Fin (map snd pts)) us)))) = map f (kept m pts us).
Proof.
  intros Hm. unfold kept. revert us. induction pts as [|(x & v) pts IH]; intros us; [destruct us; reflexivity|]. destruct us as [|u us]; [reflexivity|]. cbn [map combine filter fst snd xdiv].
  pose proof (kept_iff u v m Hm) as K. destruct (Qclt_le_dec v (u * m)) as [B|B].
  - destruct (xleb (Fin u) (xdivq v m)) eqn:E; [exfalso; apply (Qclt_not_le _ _ B), K; reflexivity|]. cbn [snd]. apply IH.
  - rewrite (proj2 K B). cbn [snd map fst]. f_equal. apply IH.
Qed.
Lemma kept_in {A} m (pts : list (A * Qc)) us x : In x (kept m pts us) -> In x (map fst pts).
Proof. unfold kept. intros H. apply in_map_iff in H. destruct H as ((e & u) & <- & H). apply filter_In in H. destruct H as (H & _). apply in_combine_l in H. apply in_map. exact H. Qed.
Lemma kept_some {A} m (pts : list (A * Qc)) us : is_max (map snd pts) m -> (0 < m)%Qc -> uniform_numbers us (length pts) -> kept m pts us <> [].
Proof.
  intros (I & _) Hm (L & U) E. apply in_map_iff in I. destruct I as ((x & v) & Ev & I). cbn [snd] in Ev. subst v. apply In_nth_error in I. destruct I as (k & I).
  assert (B : k < length us) by (rewrite L; apply nth_error_Some; rewrite I; discriminate). destruct (nth_error us k) as [u|] eqn:Eu; [|apply nth_error_None in Eu; lia].
  assert (C : In ((x, m), u) (combine pts us)).
  { clear - I Eu. revert pts us I Eu. induction k as [|k IH]; intros [|e pts] [|w us] I Eu; try discriminate; cbn [nth_error combine] in *; [left; congruence|right; apply IH; assumption]. }
  assert (In x (kept m pts us)).
  { unfold kept. apply in_map_iff. exists (x, m, u). split; [reflexivity|]. apply filter_In. split; [exact C|]. cbn [fst snd]. destruct (Qclt_le_dec m (u * m)) as [X|_]; [|reflexivity]. exfalso. destruct (U u (nth_error_In _ _ Eu)) as (U0 & U1). qc_nra. }
  rewrite E in H. exact H.
Qed.
Lemma qlist_min_in l : l <> [] -> In (qlist_min l) l.
Proof.
  destruct l as [|x r]; [congruence|]. intros _. cbn [qlist_min]. revert x. induction r as [|y r IH]; intros x; [left; reflexivity|]. cbn [fold_left]. destruct (IH (qmin x y)) as [E|E]; [|right; right; exact E].
  rewrite <- E. unfold qmin. destruct (qleb x y); [left; reflexivity|right; left; reflexivity].
Qed.
Definition bounds_for (di : nat) (vs : list (list Qc)) : list (Qc * Qc) := map (fun i => (qlist_min (map (axis i) vs), qlist_max (map (axis i) vs))) (seq 0 di).
Lemma bounds_tight di vs : vs <> [] -> tight di vs (bounds_for di vs).
Proof.
  intros N. split; [unfold bounds_for; rewrite map_length, seq_length; reflexivity|]. intros i lo hi H. apply nth_error_map_seq in H. destruct H as (_ & H). injection H as -> ->.
  assert (N' : map (axis i) vs <> []) by (intros E; apply map_eq_nil in E; contradiction). destruct (qlist_max_is_max _ N') as (M1 & M2). pose proof (qlist_min_in _ N') as M3.
  split; [intros x Hx; split; [apply qlist_min_le|apply M2]; apply in_map, Hx|]. apply in_map_iff in M1, M3. destruct M1 as (x1 & E1 & I1), M3 as (x3 & E3 & I3). split; [exists x3|exists x1]; split; assumption.
Qed.
Definition held_of (P rank di : nat) (vs : list (list Qc)) : held :=
  mk_held (map point_row vs) (repeat (Num (1 / qn (length vs))%Qc) (length vs)) (bounds_for di vs) (nth rank (array_split (map point_row vs) P) []) (nth rank (array_split (seq 0 (length vs)) P) []).
Lemma hold_lemma P rank di parts vs : rank < P -> parts <> [] -> concat parts = map point_row vs -> vs <> [] -> (forall x, In x vs -> length x = di) ->
  bind (resampled_set di parts [di]) (hold P rank) = Ok (held_of P rank di vs).
Proof.
  intros R Np E N H. unfold resampled_set. destruct parts as [|pt parts]; [contradiction|]. cbv zeta. rewrite E, map_length. clear E Np pt parts. unfold set_values. cbn [tail_shape new_sset dim]. destruct (shape_eq_dec [di] [di]) as [_|X]; [|contradiction]. cbn [bind].
  rewrite (each_map _ (fun i => (qlist_min (map (axis i) vs), qlist_max (map (axis i) vs)))).
  - cbn [bind]. unfold hold, global_to_local.
    match goal with |- context [check_num P ?s] => assert (C : check_num P s = Ok (length vs)) end.
    { unfold check_num. match goal with |- context [scan_lengths ?l None] => replace (scan_lengths l None) with (@Ok (option nat) (Some (length vs))) end.
      - cbn [bind]. unfold check_width. cbn. rewrite Nat.eqb_refl. reflexivity.
      - cbn. rewrite map_length, repeat_length, Nat.eqb_refl. reflexivity. }
    rewrite C. clear C. assert (P0 : 0 < P) by lia. cbn [bind glob loc local_index domain].
    change (upd (glob (set_glob Values (Some (mk_arr (map point_row vs) [di])) (new_sset di))) Probabilities) with (upd (upd (fun _ => None) Values (Some (mk_arr (map point_row vs) [di]))) Probabilities).
    cbn [set_glob new_sset glob upd attr_eq_dec]. unfold upd. destruct (attr_eq_dec Values Probabilities) as [X|_]; [discriminate|]. destruct (attr_eq_dec Values Values) as [_|X]; [|contradiction]. destruct (attr_eq_dec Probabilities Probabilities) as [_|X]; [|contradiction].
    unfold split_arr. cbn [rows tail_shape]. rewrite nth_error_map.
    rewrite (nth_error_nth' (array_split (map point_row vs) P) [] (eq_ind_r (fun n => rank < n) R (array_split_length (map point_row vs) P P0))), (nth_error_nth' (array_split (seq 0 (length vs)) P) [] (eq_ind_r (fun n => rank < n) R (array_split_length (seq 0 (length vs)) P P0))). reflexivity.
  - intros i Hi. apply in_seq in Hi. rewrite coordinates_lemma by (intros x Hx; rewrite (H x Hx); lia). cbn [bind]. unfold bounds_of. destruct vs as [|x vs]; [contradiction|]. reflexivity.
Qed.

(** ** On stored samples *)
Section Stored.
Context (gkde : list cell -> option (list xnum) -> result (cell -> Qc)) (P di o oo : nat) (xs : list (list Qc)) (ys zs : list cell) (lo mo : option (list Z)) (w : option (list Qc)) (ls ms : list Z) (p q : nat -> cell -> Qc) (K : nat) (d : rdisc).
Hypothesis HP : 0 < P.
Hypothesis M : matching di xs ys lo zs mo w.
Hypothesis U : used_labels (length ys) (length zs) lo mo = (ls, ms).
Hypothesis St : stores P d di xs o ys lo oo zs mo.
Hypothesis W : weights_init (r_out d) = w.
Hypothesis Es : estimated gkde ys ls w zs ms p q.
Hypothesis HK : clusters ls K.
Let X1 : length xs = length ys. Proof. apply M. Qed.
Let X2 : length ls = length ys. Proof. apply (used_lengths _ _ _ _ _ _ _ _ _ M U). Qed.
(** *** The data of the fit methods *)
Lemma fit_data_lemma num : (forall j, j < K -> members (combine ys ls) j <> [] /\ ratios_defined ys ls p j) ->
  (forall e, In e (all_points xs ys ls ms p q) -> 0 <= snd e)%Qc -> mass (all_points xs ys ls ms p q) <> 0%Qc ->
  exists d' counts, fit_data gkde num P d = Ok (d', map (fun i => map (axis i) (copies xs counts)) (seq 0 di)) /\ leaving P di o oo xs ys zs w ls ms p q d' /\
    Forall2 (fun e c => nearest (qn num * snd e / mass (all_points xs ys ls ms p q)) (Z.of_nat c)) (all_points xs ys ls ms p q) counts.
Proof.
  intros H NN N. destruct (fit_weights_lemma gkde P di o oo xs ys zs lo mo w ls ms p q K d HP M U St W Es HK) as (d' & E & L); [intros j J; apply (H j J)|].
  rewrite <- (all_snd xs ys ls ms p q K X2 HK X1) in E by (intros j J; apply (H j J)). set (pts := all_points xs ys ls ms p q) in *.
  assert (T : (0 < mass pts)%Qc).
  { apply Qcnot_le_lt. intros Q. apply N. apply Qcle_antisym; [exact Q|]. apply qsum_nonneg. intros v Hv. apply in_map_iff in Hv. destruct Hv as (e & <- & He). apply NN, He. }
  exists d', (map (count_for num (mass pts)) (map snd pts)). pose proof L as (_ & _ & _ & G & D). split; [|split; [exact L|]].
  - unfold fit_data. rewrite E. cbn [bind fst snd]. rewrite (G Values). cbn [content subscript bind rows]. rewrite xsum_fin. fold (mass pts).
    assert (C : each (copies_of num (Fin (mass pts))) (map Fin (map snd pts)) = Ok (map (count_for num (mass pts)) (map snd pts))).
    { assert (V : forall v, In v (map snd pts) -> (0 <= v)%Qc) by (intros v Hv; apply in_map_iff in Hv; destruct Hv as (e & <- & He); apply NN, He). clear - V T. induction (map snd pts) as [|v l IH]; [reflexivity|].
      cbn [map each]. rewrite (copies_of_fin num (mass pts) v (V v (or_introl eq_refl)) T). cbn [bind]. rewrite IH by (intros u Hu; apply V; right; exact Hu). reflexivity. }
    rewrite C. cbn [bind]. rewrite np_repeat_copies; [cbn [bind]; rewrite copies_map, D|].
    + rewrite (each_map _ (fun i => map (axis i) (copies xs (map (count_for num (mass pts)) (map snd pts))))); [reflexivity|]. intros i Hi. apply in_seq in Hi. apply coordinates_lemma. intros x Hx. apply copies_in in Hx. rewrite (proj1 (proj2 (proj2 M)) x Hx). lia.
    + rewrite !map_length. unfold pts, all_points. rewrite map_length, !combine_length. lia.
  - revert T NN. generalize (mass pts). intros c T NN. clear - T NN. revert NN. clearbody pts. induction pts as [|e l IH]; intros NN; [constructor|]. cbn [map]. constructor; [apply count_nearest; [apply NN; left; reflexivity|exact T]|].
    apply IH. intros e' H'. apply NN. right. exact H'.
Qed.
Lemma fit_data_useless num : (forall j, j < K -> members (combine ys ls) j <> []) ->
  (exists j y, j < K /\ In y (members (combine ys ls) j) /\ p j y = 0%Qc) \/ ((forall j, j < K -> ratios_defined ys ls p j) /\ mass (all_points xs ys ls ms p q) = 0%Qc) ->
  fit_data gkde num P d = Raise PyValueError.
Proof.
  intros N H. destruct (fit_weights_lemma gkde P di o oo xs ys zs lo mo w ls ms p q K d HP M U St W Es HK N) as (d' & E & L). pose proof L as (_ & _ & _ & G & D).
  unfold fit_data. rewrite E. cbn [bind fst snd]. rewrite (G Values). cbn [content subscript bind rows].
  assert (R : each (copies_of num (xsum (map (total_weight ms p q) (combine ys ls)))) (map (total_weight ms p q) (combine ys ls)) = Raise PyValueError).
  { destruct H as [(j & y & J & I & Z)|(Df & Z)].
    - assert (F : exists v, In v (map (total_weight ms p q) (combine ys ls)) /\ forall u, v <> Fin u).
      { unfold members in I. apply in_map_iff in I. destruct I as ((y' & l) & Ey & I). cbn [fst] in Ey. subst y'. apply filter_In in I. destruct I as (I & El). cbn [snd] in El. apply Z.eqb_eq in El. subst l.
        exists (total_weight ms p q (y, Z.of_nat j)). split; [apply in_map, I|]. intros u. unfold total_weight. cbn [fst snd]. destruct (Z.ltb_spec (Z.of_nat j) 0) as [X|_]; [lia|]. rewrite Nat2Z.id. unfold ratio, xdivq. rewrite Z. replace (qeqb 0 0) with true by reflexivity.
        destruct (qeqb (q j y) 0); [discriminate|]. unfold sgn_inf. destruct (qltb 0 (q j y)); cbn [xmul]; destruct (qeqb (share ms j) 0); try discriminate; unfold sgn_inf; destruct (qltb 0 (share ms j)); discriminate. }
      apply each_raise; [|intros v _; apply copies_of_cases]. destruct F as (v & Iv & Fv). exists v. split; [exact Iv|]. apply copies_of_useless; [|exact Fv]. apply xsum_nonfinite. exists v. split; assumption.
    - rewrite <- (all_snd xs ys ls ms p q K X2 HK X1 Df), xsum_fin. fold (mass (all_points xs ys ls ms p q)). rewrite Z. apply each_raise; [|intros v _; apply copies_of_cases].
      destruct (all_points xs ys ls ms p q) as [|e r] eqn:Ea.
      + exfalso. assert (L0 : length (all_points xs ys ls ms p q) = length ys) by (unfold all_points; rewrite map_length, !combine_length; lia). rewrite Ea in L0. destruct ys; [apply (proj1 M); reflexivity|discriminate].
      + exists (Fin (snd e)). split; [left; reflexivity|]. unfold copies_of. cbn [xmul xdiv]. unfold xdivq. replace (qeqb 0 0) with true by reflexivity. destruct (qeqb (qn num * snd e) 0); [reflexivity|]. unfold sgn_inf. destruct (qltb 0 _); reflexivity. }
  rewrite R. reflexivity.
Qed.
Lemma fit_data_gap num j : j < K -> members (combine ys ls) j = [] -> fit_data gkde num P d = Raise PyTypeError.
Proof. intros J N. unfold fit_data. rewrite (fit_weights_gap gkde P di o oo xs ys zs lo mo w ls ms p q K d HP M U St W Es HK j J N). reflexivity. Qed.
Lemma gaussian_gap j : j < K -> members (combine ys ls) j = [] -> invert_to_multivariate_gaussian gkde P d = Raise PyTypeError.
Proof. intros J N. unfold invert_to_multivariate_gaussian. rewrite (fit_weights_gap gkde P di o oo xs ys zs lo mo w ls ms p q K d HP M U St W Es HK j J N). reflexivity. Qed.

(** *** Rejection *)
Definition selected (L : nat -> Qc) (draws : nat -> list Qc) : list (list Qc) := concat (map (fun j => kept (L j) (cluster_points xs ys ls p q j) (draws j)) (seq 0 K)).
Definition largest (j : nat) : Qc := qlist_max (map snd (cluster_points xs ys ls p q j)).
Lemma points_len j : length (cluster_points xs ys ls p q j) = length (members (combine ys ls) j).
Proof. unfold cluster_points. rewrite map_length, (proj1 (pair_members xs ys ls j X1 X2)), map_length. reflexivity. Qed.
Lemma largest_max j : members (combine ys ls) j <> [] -> is_max (map snd (cluster_points xs ys ls p q j)) (largest j).
Proof. intros N. apply qlist_max_is_max. intros E. apply map_eq_nil in E. apply N. apply length_zero_iff_nil. rewrite <- points_len, E. reflexivity. Qed.
Lemma keep_lemma params draws is : params = Some (mk_arr (map point_row xs) [di]) -> (forall j, In j is -> j < K /\ members (combine ys ls) j <> [] /\ ratios_defined ys ls p j /\ (0 < largest j)%Qc) ->
  keep_clusters (solution ys p q ls K) draws params is = Ok (map (fun j => map point_row (kept (largest j) (cluster_points xs ys ls p q j) (draws j))) is).
Proof.
  intros -> H. induction is as [|j is IH]; [reflexivity|]. destruct (H j (or_introl eq_refl)) as (J & N & Df & Pos). cbn [keep_clusters]. destruct (solution_nth ys p q ls K j J) as (-> & ->). unfold ratios.
  destruct (Nat.eqb_spec (length (members (combine ys ls) j)) 0) as [E|_]; [apply length_zero_iff_nil in E; contradiction|]. rewrite <- (points_snd xs ys ls p q X1 X2 j Df). unfold keep_cluster.
  assert (Mx : xlist_max (map Fin (map snd (cluster_points xs ys ls p q j))) = Ok (Fin (largest j))).
  { unfold largest. destruct (map snd (cluster_points xs ys ls p q j)) as [|v r] eqn:E; [|cbn [map xlist_max]; rewrite xlist_max_fin; reflexivity]. exfalso. apply map_eq_nil in E. apply N. apply length_zero_iff_nil. rewrite <- points_len, E. reflexivity. }
  rewrite Mx. cbn [bind subscript rows]. unfold take.
  assert (LX : length ls = length (map point_row xs)) by (rewrite map_length, X2; symmetry; exact X1).
  rewrite (take_chosen (map point_row xs) (pointer ls j) _ (take_members (map point_row xs) ls j LX)). rewrite members_map, <- (points_fst xs ys ls p q X1 X2 j), kept_filter by exact Pos. cbn [bind].
  rewrite IH by (intros k Hk; apply H; right; exact Hk). reflexivity.
Qed.
Lemma selected_in L draws x : In x (selected L draws) -> In x xs.
Proof.
  unfold selected. intros H. apply in_concat in H. destruct H as (l & Hl & H). apply in_map_iff in Hl. destruct Hl as (j & <- & _). apply kept_in in H. rewrite (points_fst xs ys ls p q X1 X2 j) in H. apply members_sub in H. exact H.
Qed.
Lemma rejection_held draws : 0 < K -> (forall j, j < K -> members (combine ys ls) j <> [] /\ ratios_defined ys ls p j /\ (0 < largest j)%Qc) ->
  (forall rank j, rank < P -> j < K -> uniform_numbers (draws rank j) (length (members (combine ys ls) j))) ->
  exists d', invert_rejection_sampling gkde P draws d = Ok (d', map (fun rank => held_of P rank di (selected largest (draws rank))) (seq 0 P)) /\ leaving P di o oo xs ys zs w ls ms p q d' /\
    forall rank, rank < P -> selected largest (draws rank) <> [].
Proof.
  intros K0 H Ud.
  assert (NE : forall rank, rank < P -> selected largest (draws rank) <> []).
  { intros rank R E. unfold selected in E. destruct K as [|k] eqn:EK; [lia|]. cbn [seq map concat] in E. apply app_eq_nil in E. destruct E as (E & _). revert E. apply kept_some; [apply largest_max; apply (H 0 K0)|apply (H 0 K0)|].
    rewrite points_len. apply (Ud rank 0 R K0). }
  destruct (prepare P di o oo xs ys zs lo mo w ls ms d HP M U St W) as (d1 & d2 & E1 & E2 & Q & SR).
  destruct (prepared_again P di o oo xs ys zs w HP ls ms d2 Q) as (d3 & F1 & F2 & Q3 & SR3).
  pose proof Q3 as ((A1 & A2 & A3 & A4 & A5 & A6) & A7 & A8 & A9). destruct (keeps_gather P _ _ _ _ HP A1) as (s & Es1 & Ks & Gs & Ls).
  eexists. split; [|split; [|exact NE]].
  - unfold invert_rejection_sampling. rewrite (generate_from gkde P di o oo xs ys zs lo mo w p q HP M ls ms U Es K HK d1 d2 d E1 E2 Q). cbn [bind gen_of g_disc g_num].
    rewrite (invert_from gkde P di o oo xs ys zs lo mo w p q HP M ls ms U Es K HK d3 d3 d2 F1 F2 Q3). cbn [bind fst snd r_in r_out r_obs set_weights arrays]. rewrite Es1. cbn [bind].
    rewrite (each_map _ (fun rank => held_of P rank di (selected largest (draws rank)))); [reflexivity|]. intros rank R. apply in_seq in R. unfold rejection_on. cbn [r_in with_arrays arrays]. cbv zeta. rewrite (Gs Values). cbn [content].
    rewrite (keep_lemma _ (draws rank) (seq 0 K) eq_refl) by (intros j J; apply in_seq in J; split; [lia|apply H; lia]). cbn [bind subscript tail_shape]. rewrite (proj1 Ks).
    apply hold_lemma; [lia|destruct K; [lia|discriminate]| |apply NE; lia|].
    + unfold selected. rewrite concat_map, map_map. reflexivity.
    + intros x Hx. apply selected_in in Hx. apply M. exact Hx.
  - unfold leaving. cbn [r_in r_out r_obs with_arrays sample_weights arrays]. split; [reflexivity|]. split; [|split; [exact A9|split; [exact Gs|exact (proj1 Ks)]]].
    unfold stores. cbn [r_in r_out r_obs with_arrays arrays]. split; [exact Ks|]. do 4 (split; [assumption|]). assumption.
Qed.
End Stored.
