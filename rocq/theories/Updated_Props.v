From Coq Require Import ZArith List Arith QArith Qcanon.
From Verif Require Import Err Num Ext Show Inverse_Model Inverse_Spec Updated_Model Updated_Spec Updated_Proofs.
Import ListNotations.
Local Open Scope nat_scope.

(** C40 *)
Theorem updated_count_refuted : forall P, 0 < P -> weights_ok [Q2Qc (1 # 2); Q2Qc (1 # 2)] /\
  updated_count [Q2Qc (1 # 2); Q2Qc (1 # 2)] 1 P = 0 /\ updated_count [Q2Qc (1 # 2); Q2Qc (1 # 2)] 3 P = 4.
Proof. exact updated_refuted_lemma. Qed.
Print Assumptions updated_count_refuted.
Theorem updated_count_partial : forall ws n P, 0 < P -> weights_ok ws ->
  (qabs (qn n - qn (updated_count ws n P)) <= qn (length ws) / qn 2)%Qc /\
  ((forall w, In w ws -> integral (w * qn n)%Qc) -> updated_count ws n P = n).
Proof. exact updated_partial_lemma. Qed.
Print Assumptions updated_count_partial.
Theorem updated_count_process_independent : forall ws n P, 0 < P -> updated_count ws n P = list_sum (map (fun w => cluster_count w n) ws).
Proof. exact updated_count_lemma. Qed.
Print Assumptions updated_count_process_independent.
Example updated_count_ex : updated_count [Q2Qc (3 # 10); Q2Qc (7 # 10)] 10 3 = 10 /\ local_counts [Q2Qc (3 # 10); Q2Qc (7 # 10)] 10 3 0 = [1; 3].
Proof. split; vm_compute; reflexivity. Qed.
(** A mixture in one dimension only works if every cluster gets one sample. *)
Theorem gmm_1D_refuted : forall pieces, 2 <= length pieces ->
  (exists r, gmm_values_local_1D pieces = Ok r) <-> (forall p, In p pieces -> length p = 1).
Proof. exact gmm_1D_lemma. Qed.
Print Assumptions gmm_1D_refuted.
Example gmm_1D_ex : gmm_values_local_1D [[qn 1; qn 2]; [qn 3]] = Raise PyValueError /\ gmm_values_local_1D [[qn 1; qn 2]; [qn 3; qn 4]] = Raise DimNotMatching.
Proof. split; reflexivity. Qed.

(** C74 *)
Theorem kde_columns_partial : forall dim counts draw, list_sum counts <> dim -> (forall i j c, length (draw i j c) = c) ->
  length (kde_values_local dim counts draw) = list_sum counts /\
  forall k j, k < list_sum counts -> j < dim ->
    exists row, nth_error (kde_values_local dim counts draw) k = Some row /\ length row = dim /\ nth_error row j = nth_error (stream draw j 0 counts) k.
Proof. exact kde_columns_lemma. Qed.
Print Assumptions kde_columns_partial.
(** With as many local samples as dimensions sample k consists of the numbers
    drawn for dimension k. *)
Theorem kde_columns_refuted : forall dim counts draw k, list_sum counts = dim -> k < dim ->
  nth_error (kde_values_local dim counts draw) k = Some (stream draw k 0 counts).
Proof. exact kde_columns_refuted_lemma. Qed.
Print Assumptions kde_columns_refuted.
(** Marginal 0 is concentrated at 1 and marginal 1 at 5. *)
Example kde_columns_ex : kde_values_local 2 [1; 1] (fun i j c => repeat (if j =? 0 then qn 1 else qn 5) c) = [[qn 1; qn 1]; [qn 5; qn 5]] /\
  kde_values_local 2 [1; 2] (fun i j c => repeat (if j =? 0 then qn 1 else qn 5) c) = [[qn 1; qn 5]; [qn 1; qn 5]; [qn 1; qn 5]].
Proof. split; reflexivity. Qed.

(** C75 *)
Theorem kde_density_partial : forall K ws x, (length x = 1 \/ ws = [1%Qc]) -> kde_pdf K ws x = sampled_density K ws x.
Proof. exact kde_pdf_partial_lemma. Qed.
Print Assumptions kde_density_partial.
Theorem kde_density_refuted : forall K w0 w1 x y, (w0 + w1 = 1)%Qc ->
  (kde_pdf K [w0; w1] [x; y] = sampled_density K [w0; w1] [x; y] - w0 * w1 * ((K 0%nat 0%nat x - K 0%nat 1%nat x) * (K 1%nat 0%nat y - K 1%nat 1%nat y)))%Qc.
Proof. exact kde_pdf_gap_lemma. Qed.
Print Assumptions kde_density_refuted.
(** Cluster 0 lives on [0,1] x [0,1], cluster 1 on [2,3] x [2,3]; the point lies
    in neither. *)
Example kde_density_ex :
  let K (i j : nat) (x : Qc) := if qleb (qn (2 * j)) x && qleb x (qn (2 * j + 1)) then 1%Qc else 0%Qc in
  kde_pdf K [Q2Qc (1 # 2); Q2Qc (1 # 2)] [Q2Qc (1 # 2); Q2Qc (5 # 2)] = Q2Qc (1 # 4) /\
  sampled_density K [Q2Qc (1 # 2); Q2Qc (1 # 2)] [Q2Qc (1 # 2); Q2Qc (5 # 2)] = 0%Qc.
Proof. split; qc_compute. Qed.
Theorem gmm_density : forall N ws x, gmm_pdf N ws x = mixture (fun j => N j x) 0 ws.
Proof. exact gmm_pdf_lemma. Qed.
Print Assumptions gmm_density.

(** C62 *)
Theorem set_densities_integrate : forall d probs vols, positive_box d -> length probs = length vols -> (forall v, In v vols -> (0 < v)%Qc) ->
  integral_of (set_densities (Some d) probs vols) vols (box_volume d) = Some (qsum probs).
Proof. exact set_densities_lemma. Qed.
Print Assumptions set_densities_integrate.
(** Without a domain the volumes themselves are meant. *)
Theorem set_densities_integrate_no_domain : forall probs vols, length probs = length vols -> (forall v, In v vols -> (0 < v)%Qc) ->
  integral_of (set_densities None probs vols) vols 1%Qc = Some (qsum probs).
Proof. exact no_domain_lemma. Qed.
Print Assumptions set_densities_integrate_no_domain.
(** The density that pdf stores integrates to the total probability times the
    volume of the domain. *)
Theorem pdf_integrates_refuted : forall d probs vols, length probs = length vols -> (forall v, In v vols -> (0 < v)%Qc) ->
  integral_of (set_densities_local probs vols) vols (box_volume d) = Some (qsum probs * box_volume d)%Qc.
Proof. exact pdf_densities_lemma. Qed.
Print Assumptions pdf_integrates_refuted.
Example densities_ex : integral_of (set_densities_local [Q2Qc (1 # 4); Q2Qc (3 # 4)] [Q2Qc (1 # 2); Q2Qc (1 # 2)]) [Q2Qc (1 # 2); Q2Qc (1 # 2)] (box_volume [(0%Qc, qn 5)]) = Some (qn 5) /\
  integral_of (set_densities (Some [(0%Qc, qn 5)]) [Q2Qc (1 # 4); Q2Qc (3 # 4)] [Q2Qc (1 # 2); Q2Qc (1 # 2)]) [Q2Qc (1 # 2); Q2Qc (1 # 2)] (box_volume [(0%Qc, qn 5)]) = Some 1%Qc.
Proof. split; qc_compute. Qed.

(** C76 *)
Theorem marginal_density_partial : forall t f ncol rows i, t <> Voronoi \/ ncol = 1 -> i < ncol ->
  evaluate_pdf_marginal t f (V2 ncol rows) i = Ok (map (fun row => f i (nth i row 0%Qc)) rows).
Proof. exact marginal_partial_lemma. Qed.
Print Assumptions marginal_density_partial.
(** One column, or a flat array, holds points of the marginal asked for. *)
Theorem marginal_density_one_column : forall t f rows l i,
  evaluate_pdf_marginal t f (V2 1 rows) i = Ok (map (fun row => f i (nth 0 row 0%Qc)) rows) /\ evaluate_pdf_marginal t f (V1 l) i = Ok (map (f i) l).
Proof. exact marginal_one_column_lemma. Qed.
Print Assumptions marginal_density_one_column.
Theorem marginal_density_refuted : forall f ncol rows i, 2 <= ncol -> evaluate_pdf_marginal Voronoi f (V2 ncol rows) i = Raise PyValueError.
Proof. exact marginal_refuted_lemma. Qed.
Print Assumptions marginal_density_refuted.
Example marginal_ex : evaluate_pdf_marginal KDE (fun _ x => x) (V2 2 [[qn 1; qn 2]; [qn 3; qn 4]]) 1 = Ok [qn 2; qn 4].
Proof. reflexivity. Qed.

(** C77 *)
Theorem pdf_current_refuted : forall query s x y s' p, vpdf query s x = Ok (y, s') ->
  forall z, exists y' s'', vpdf query (set_probs_local s' p) x = Ok (y', s'') /\ y' = y /\
  (forall r, vpdf query (set_probs_local s' p) z = r -> forall q, match vpdf query (set_probs_local s' q) z, r with
      | Ok (a, _), Ok (b, _) => a = b | Raise e, Raise e' => e = e' | _, _ => False end).
Proof. exact vpdf_stale_lemma. Qed.
Print Assumptions pdf_current_refuted.
Theorem pdf_current_partial : forall query probs probs_local vols x p v, nth_error probs_local (query x) = Some p -> nth_error vols (query x) = Some v -> (0 < v)%Qc ->
  exists s', vpdf query (mk_vset probs (Some probs_local) vols None) x = Ok (Fin (p / v)%Qc, s').
Proof. exact vpdf_fresh_lemma. Qed.
Print Assumptions pdf_current_partial.
Theorem pdf_global_only_refuted : forall query probs vols x, vpdf query (mk_vset (Some probs) None vols None) x = Raise PyTypeError.
Proof. exact vpdf_global_only_lemma. Qed.
Print Assumptions pdf_global_only_refuted.
Example pdf_current_ex : exists s', vpdf (fun _ => 1) (mk_vset None (Some [Q2Qc (1 # 4); Q2Qc (3 # 4)]) [Q2Qc (1 # 2); Q2Qc (1 # 2)] None) [] = Ok (Fin (Q2Qc (3 # 4) / Q2Qc (1 # 2))%Qc, s').
Proof. apply (pdf_current_partial (fun _ => 1) None [Q2Qc (1 # 4); Q2Qc (3 # 4)] [Q2Qc (1 # 2); Q2Qc (1 # 2)] [] (Q2Qc (3 # 4)) (Q2Qc (1 # 2))); reflexivity. Qed.
