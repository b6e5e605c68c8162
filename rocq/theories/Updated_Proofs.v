From Coq Require Import ZArith List Arith Lia Bool QArith Qcanon.
From Verif Require Import Err Num Ext Show NumPy Lists Layout_Model Layout_Proofs Inverse_Model Inverse_Spec Inverse_Proofs Inverse2_Proofs Inverse3_Proofs Updated_Model Updated_Spec.
Import ListNotations.
Local Open Scope nat_scope.

(** ** Counts *)
Lemma list_sum_swap (f : nat -> Qc -> nat) l ws : list_sum (map (fun r => list_sum (map (f r) ws)) l) = list_sum (map (fun w => list_sum (map (fun r => f r w) l)) ws).
Proof.
  induction l as [|r l IH]; cbn [map].
  - simpl. induction ws as [|w ws IHw]; simpl; auto.
  - change (list_sum (list_sum (map (f r) ws) :: map (fun r => list_sum (map (f r) ws)) l)) with (list_sum (map (f r) ws) + list_sum (map (fun r => list_sum (map (f r) ws)) l)).
    rewrite IH. clear. induction ws as [|w ws IHw]; [reflexivity|]. cbn [map list_sum fold_right] in *. unfold list_sum in *. cbn [map fold_right] in *. lia.
Qed.
Lemma rank_counts_sum n P : 0 < P -> list_sum (map (fun r => Z.to_nat (draw_count n P r)) (seq 0 P)) = n.
Proof.
  intro HP. pose proof (draw_count_sum n P HP) as H. apply Nat2Z.inj. rewrite <- H. clear H.
  induction (seq 0 P) as [|r l IH]; [reflexivity|]. cbn [map fold_right]. unfold list_sum in *. cbn [fold_right]. rewrite Nat2Z.inj_add, IH, Z2Nat.id; [reflexivity|].
  apply (draw_count_balanced n P r r HP).
Qed.
Lemma updated_count_lemma : forall ws n P, 0 < P -> updated_count ws n P = list_sum (map (fun w => cluster_count w n) ws).
Proof.
  intros ws n P HP. unfold updated_count, local_counts. rewrite (list_sum_swap (fun r w => Z.to_nat (draw_count (cluster_count w n) P r))).
  f_equal. apply map_ext. intro w. apply rank_counts_sum, HP.
Qed.
Lemma count_rounds ws n : (forall w, In w ws -> (0 <= w)%Qc) ->
  Z.of_nat (list_sum (map (fun w => cluster_count w n) ws)) = fold_right Z.add 0%Z (map round_half_even (map (fun w => (w * qn n)%Qc) ws)).
Proof.
  induction ws as [|w ws IH]; intro H; [reflexivity|]. cbn [map fold_right]. unfold list_sum in *. cbn [fold_right]. rewrite Nat2Z.inj_add, IH by (intros; apply H; right; assumption).
  unfold cluster_count. rewrite Z2Nat.id; [reflexivity|]. apply round_nonneg, qc_mul_nonneg; [apply H; left; reflexivity | apply qn_nonneg].
Qed.
Lemma updated_partial_lemma : forall ws n P, 0 < P -> weights_ok ws ->
  (qabs (qn n - qn (updated_count ws n P)) <= qn (length ws) / qn 2)%Qc /\
  ((forall w, In w ws -> integral (w * qn n)%Qc) -> updated_count ws n P = n).
Proof.
  intros ws n P HP [W1 W2]. rewrite updated_count_lemma by exact HP.
  assert (E : qn (list_sum (map (fun w => cluster_count w n) ws)) = Q2Qc (inject_Z (fold_right Z.add 0%Z (map round_half_even (map (fun w => (w * qn n)%Qc) ws))))).
  { unfold qn at 1. rewrite count_rounds by exact W1. reflexivity. }
  assert (S : qsum (map (fun w => (w * qn n)%Qc) ws) = qn n).
  { rewrite (qsum_map_mul_r (qn n) (fun w => w)), map_id, W2. ring. }
  split.
  - rewrite E. pose proof (sum_rounds (map (fun w => (w * qn n)%Qc) ws)) as H. rewrite S, map_length in H. exact H.
  - intro H. apply qn_inj. rewrite E, sum_rounds_exact; [exact S|]. intros q Hq. apply in_map_iff in Hq. destruct Hq as (w & <- & Hw). apply H, Hw.
Qed.
Lemma updated_refuted_lemma : forall P, 0 < P -> weights_ok [Q2Qc (1 # 2); Q2Qc (1 # 2)] /\
  updated_count [Q2Qc (1 # 2); Q2Qc (1 # 2)] 1 P = 0 /\ updated_count [Q2Qc (1 # 2); Q2Qc (1 # 2)] 3 P = 4.
Proof.
  intros P HP. split; [|split].
  - split; [|apply Qc_is_canon; reflexivity]. intros w [<-|[<-|[]]]; discriminate.
  - rewrite updated_count_lemma by exact HP. vm_compute. reflexivity.
  - rewrite updated_count_lemma by exact HP. vm_compute. reflexivity.
Qed.
Lemma gmm_1D_lemma : forall pieces, 2 <= length pieces ->
  (exists r, gmm_values_local_1D pieces = Ok r) <-> (forall p, In p pieces -> length p = 1).
Proof.
  intros pieces H. destruct pieces as [|p ps]; [simpl in H; lia|]. unfold gmm_values_local_1D. split.
  - intros [r E]. destruct (forallb _ (p :: ps)) eqn:F; [|discriminate]. destruct (Nat.eqb_spec (length p) 1) as [L|L].
    + intros q Hq. apply (proj1 (forallb_forall _ _) F) in Hq. apply Nat.eqb_eq in Hq. congruence.
    + destruct (Nat.eqb_spec (length (p :: ps)) 1); [lia | discriminate].
  - intro A. replace (forallb (fun q => length q =? length p) (p :: ps)) with true.
    + rewrite (A p) by (left; reflexivity). simpl. eauto.
    + symmetry. apply forallb_forall. intros q Hq. rewrite (A p (or_introl eq_refl)), (A q Hq). reflexivity.
Qed.

(** ** Order of the kde samples *)
Lemma stream_eq draw j counts : concat (map (fun ic : nat * nat => draw (fst ic) j (snd ic)) (combine (seq 0 (length counts)) counts)) = stream draw j 0 counts.
Proof.
  assert (G : forall a, concat (map (fun ic : nat * nat => draw (fst ic) j (snd ic)) (combine (seq a (length counts)) counts)) = stream draw j a counts).
  { induction counts as [|c counts IH]; intro a; simpl; [reflexivity|]. rewrite IH. reflexivity. }
  apply G.
Qed.
Lemma kde_rows_eq dim counts draw : kde_rows dim counts draw = map (fun j => stream draw j 0 counts) (seq 0 dim).
Proof. unfold kde_rows. apply map_ext. intro j. apply stream_eq. Qed.
Lemma kde_columns_lemma : forall dim counts draw, list_sum counts <> dim -> (forall i j c, length (draw i j c) = c) ->
  length (kde_values_local dim counts draw) = list_sum counts /\
  forall k j, k < list_sum counts -> j < dim ->
    exists row, nth_error (kde_values_local dim counts draw) k = Some row /\ length row = dim /\ nth_error row j = nth_error (stream draw j 0 counts) k.
Proof.
  intros dim counts draw N D. unfold kde_values_local. destruct (Nat.eqb_spec (list_sum counts) dim) as [E|_]; [contradiction|].
  rewrite kde_rows_eq. unfold transpose_rows. rewrite map_length, seq_length. split; [reflexivity|]. intros k j Hk Hj.
  assert (L : forall j a cs, length (stream draw j a cs) = list_sum cs).
  { intros j' a cs; revert a; induction cs as [|c cs IH]; intro a; simpl; [reflexivity|]. rewrite app_length, D, IH. reflexivity. }
  eexists. split; [|split].
  - rewrite nth_error_map, nth_error_seq. apply Nat.ltb_lt in Hk. rewrite Hk. simpl. reflexivity.
  - rewrite !map_length, seq_length. reflexivity.
  - rewrite map_map, nth_error_map, nth_error_seq. apply Nat.ltb_lt in Hj. rewrite Hj. simpl. symmetry. apply nth_error_nth'. rewrite L. exact Hk.
Qed.
Lemma kde_columns_refuted_lemma : forall dim counts draw k, list_sum counts = dim -> k < dim ->
  nth_error (kde_values_local dim counts draw) k = Some (stream draw k 0 counts).
Proof.
  intros dim counts draw k N Hk. unfold kde_values_local. rewrite N, Nat.eqb_refl, kde_rows_eq, nth_error_map, nth_error_seq.
  apply Nat.ltb_lt in Hk. rewrite Hk. reflexivity.
Qed.

(** ** Density of the kde measure *)
Lemma kde_marginal_eq K ws i x : kde_marginal K ws i x = mixture (fun j => K i j x) 0 ws.
Proof.
  unfold kde_marginal. assert (G : forall a, qsum (map (fun jw => (K i (fst jw) x * snd jw)%Qc) (combine (seq a (length ws)) ws)) = mixture (fun j => K i j x) a ws).
  { induction ws as [|w ws IH]; intro a; simpl; [reflexivity|]. rewrite IH. ring. }
  apply G.
Qed.
Lemma kde_pdf_prod K ws x : kde_pdf K ws x = prod_density (kde_marginal K ws) 0 x.
Proof.
  unfold kde_pdf. assert (G : forall a acc, fold_left (fun mar ix => (mar * kde_marginal K ws (fst ix) (snd ix))%Qc) (combine (seq a (length x)) x) acc = (acc * prod_density (kde_marginal K ws) a x)%Qc).
  { induction x as [|y x IH]; intros a acc; cbn [length seq combine fold_left prod_density fst snd]; [ring|]. rewrite IH. ring. }
  rewrite G. ring.
Qed.
Lemma prod_density_ext f g x : (forall i y, f i y = g i y) -> forall a, prod_density f a x = prod_density g a x.
Proof. intro H. induction x as [|y x IH]; intro a; simpl; [reflexivity|]. rewrite IH, H. reflexivity. Qed.
Lemma mixture_ext f g ws : (forall j, f j = g j) -> forall a, mixture f a ws = mixture g a ws.
Proof. intro H. induction ws as [|w ws IH]; intro a; simpl; [reflexivity|]. rewrite IH, H. reflexivity. Qed.
Lemma kde_pdf_partial_lemma : forall K ws x, (length x = 1 \/ ws = [1%Qc]) -> kde_pdf K ws x = sampled_density K ws x.
Proof.
  intros K ws x H. rewrite kde_pdf_prod. unfold sampled_density. destruct H as [H| ->].
  - destruct x as [|a [|b x]]; try discriminate. simpl. rewrite Qcmult_1_r, kde_marginal_eq. apply mixture_ext. intro j. ring.
  - rewrite (prod_density_ext _ (fun i => K i 0)); [simpl; ring|]. intros i y. rewrite kde_marginal_eq. simpl. ring.
Qed.
Lemma kde_pdf_gap_lemma : forall K w0 w1 x y, (w0 + w1 = 1)%Qc ->
  (kde_pdf K [w0; w1] [x; y] = sampled_density K [w0; w1] [x; y] - w0 * w1 * ((K 0%nat 0%nat x - K 0%nat 1%nat x) * (K 1%nat 0%nat y - K 1%nat 1%nat y)))%Qc.
Proof.
  intros K w0 w1 x y H. rewrite kde_pdf_prod. unfold sampled_density. cbn [prod_density mixture]. rewrite !kde_marginal_eq. cbn [mixture].
  assert (E : (w1 = 1 - w0)%Qc) by (rewrite <- H; ring). rewrite E. ring.
Qed.
Lemma gmm_pdf_lemma : forall N ws x, gmm_pdf N ws x = mixture (fun j => N j x) 0 ws.
Proof.
  intros N ws x. unfold gmm_pdf.
  assert (G : forall a acc, fold_left (fun mar jw => (mar + snd jw * N (fst jw) x)%Qc) (combine (seq a (length ws)) ws) acc = (acc + mixture (fun j => N j x) a ws)%Qc).
  { induction ws as [|w ws IH]; intros a acc; cbn [length seq combine fold_left mixture fst snd]; [ring|]. rewrite IH. ring. }
  rewrite G. ring.
Qed.

(** ** Densities of Voronoi sets *)
Lemma domain_volume_eq d : domain_volume (Some d) = box_volume d.
Proof. unfold domain_volume, box_volume. induction d as [|ab d IH]; simpl; [reflexivity|]. rewrite IH. reflexivity. Qed.
Lemma box_volume_pos d : positive_box d -> (0 < box_volume d)%Qc.
Proof.
  unfold box_volume. induction d as [|ab d IH]; intro H; simpl; [reflexivity|]. apply qc_mul_pos; [|apply IH; intros ab' Hab'; apply H; right; exact Hab'].
  specialize (H ab (or_introl eq_refl)). apply Qclt_minus_iff in H. exact H.
Qed.
Lemma integral_lemma probs vols V W : length probs = length vols -> (forall v, In v vols -> (0 < v)%Qc) -> (0 < V)%Qc ->
  integral_of (map (fun pv => xdivq (fst pv) (snd pv * V)%Qc) (combine probs vols)) vols W = Some (qsum probs * (W / V))%Qc.
Proof.
  intros L P HV. revert vols L P; induction probs as [|p probs IH]; intros [|v vols] L P; try discriminate; cbn [combine map integral_of fst snd qsum].
  - f_equal. ring.
  - assert (Pv : (0 < v)%Qc) by (apply P; left; reflexivity). rewrite xdivq_fin by (apply Qclt_neq0, qc_mul_pos; assumption).
    rewrite IH; [|simpl in L; lia | intros; apply P; right; assumption]. f_equal. field. split; apply Qclt_neq0; assumption.
Qed.
Lemma set_densities_lemma : forall d probs vols, positive_box d -> length probs = length vols -> (forall v, In v vols -> (0 < v)%Qc) ->
  integral_of (set_densities (Some d) probs vols) vols (box_volume d) = Some (qsum probs).
Proof.
  intros d probs vols B L P. unfold set_densities. rewrite domain_volume_eq, integral_lemma; [|exact L | exact P | apply box_volume_pos, B].
  f_equal. field. apply Qclt_neq0, box_volume_pos, B.
Qed.
Lemma no_domain_lemma : forall probs vols, length probs = length vols -> (forall v, In v vols -> (0 < v)%Qc) ->
  integral_of (set_densities None probs vols) vols 1%Qc = Some (qsum probs).
Proof.
  intros probs vols L P. unfold set_densities, domain_volume. rewrite integral_lemma; [|exact L | exact P | reflexivity]. f_equal. field. discriminate.
Qed.
Lemma pdf_densities_lemma : forall d probs vols, length probs = length vols -> (forall v, In v vols -> (0 < v)%Qc) ->
  integral_of (set_densities_local probs vols) vols (box_volume d) = Some (qsum probs * box_volume d)%Qc.
Proof.
  intros d probs vols L P. pose proof (integral_lemma probs vols 1%Qc (box_volume d) L P eq_refl) as H.
  unfold set_densities_local. rewrite (map_ext _ (fun pv => xdivq (fst pv) (snd pv * 1)%Qc)) by (intro; rewrite Qcmult_1_r; reflexivity).
  rewrite H. f_equal. field. discriminate.
Qed.

(** ** pdf and histories *)
Lemma vpdf_stale_lemma : forall query s x y s' p, vpdf query s x = Ok (y, s') ->
  forall z, exists y' s'', vpdf query (set_probs_local s' p) x = Ok (y', s'') /\ y' = y /\
  (forall r, vpdf query (set_probs_local s' p) z = r -> forall q, match vpdf query (set_probs_local s' q) z, r with
      | Ok (a, _), Ok (b, _) => a = b | Raise e, Raise e' => e = e' | _, _ => False end).
Proof.
  intros query s x y s' p H z. unfold vpdf in H.
  assert (G : exists d, nth_error d (query x) = Some y /\ s' = mk_vset (v_probs s) (v_probs_local s) (v_vols_local s) (Some d)).
  { destruct (v_probs_local s) as [pl|], (v_probs s) as [pg|]; try discriminate; destruct (v_dens_local s) as [d|]; simpl in H; try discriminate;
    match type of H with context [nth_error ?d (query x)] => destruct (nth_error d (query x)) eqn:E; [|discriminate]; injection H as -> <-; exists d; auto end. }
  destruct G as (d & Hd & ->). unfold set_probs_local, vpdf. simpl. rewrite Hd. eexists _, _. split; [reflexivity|]. split; [reflexivity|].
  intros r <- q. destruct (nth_error d (query z)); reflexivity.
Qed.
Lemma vpdf_fresh_lemma : forall query probs probs_local vols x p v, nth_error probs_local (query x) = Some p -> nth_error vols (query x) = Some v -> (0 < v)%Qc ->
  exists s', vpdf query (mk_vset probs (Some probs_local) vols None) x = Ok (Fin (p / v)%Qc, s').
Proof.
  intros query probs pl vols x p v Hp Hv Pv. unfold vpdf. simpl.
  assert (E : nth_error (set_densities_local pl vols) (query x) = Some (Fin (p / v)%Qc)).
  { unfold set_densities_local. rewrite nth_error_map, Query_Proofs.nth_error_combine, Hp, Hv. cbn -[xdivq]. f_equal. apply xdivq_fin, Qclt_neq0, Pv. }
  rewrite E. eauto.
Qed.
Lemma vpdf_global_only_lemma : forall query probs vols x, vpdf query (mk_vset (Some probs) None vols None) x = Raise PyTypeError.
Proof. reflexivity. Qed.

(** ** Marginals *)
Lemma marginal_partial_lemma : forall t f ncol rows i, t <> Voronoi \/ ncol = 1 -> i < ncol ->
  evaluate_pdf_marginal t f (V2 ncol rows) i = Ok (map (fun row => f i (nth i row 0%Qc)) rows).
Proof.
  intros t f ncol rows i H Hi. assert (E : marginal_x (V2 ncol rows) i = column i rows).
  { simpl. destruct (Nat.eqb_spec ncol 1) as [->|]; [replace i with 0 by lia|]; reflexivity. }
  destruct t; unfold evaluate_pdf_marginal; try (rewrite E; unfold column; rewrite map_map; reflexivity).
  destruct H as [H|H]; [congruence|]. subst ncol. simpl. replace i with 0 by lia. unfold column. rewrite map_map. reflexivity.
Qed.
Lemma marginal_one_column_lemma : forall t f rows l i,
  evaluate_pdf_marginal t f (V2 1 rows) i = Ok (map (fun row => f i (nth 0 row 0%Qc)) rows) /\ evaluate_pdf_marginal t f (V1 l) i = Ok (map (f i) l).
Proof. intros t f rows l i. destruct t; split; cbn; unfold column; rewrite ?map_map; reflexivity. Qed.
Lemma marginal_refuted_lemma : forall f ncol rows i, 2 <= ncol -> evaluate_pdf_marginal Voronoi f (V2 ncol rows) i = Raise PyValueError.
Proof. intros f ncol rows i H. simpl. destruct (Nat.eqb_spec ncol 1); [lia | reflexivity]. Qed.
