From Coq Require Import List Arith QArith Qcanon.
From Verif Require Import Err Num Ext Show Util_Model Gradient_Model Gradient_Spec Gradient_Proofs Gradient_Examples.
Import ListNotations.
Local Open Scope nat_scope.

(** C52: for every map the entries are the difference quotients, hence exact
    for affine (forward) and quadratic (centered) maps. *)
Theorem ffd_is_forward_difference : forall mf d o f cs r, points d cs -> good_radii d r -> 0 < d -> cs <> [] ->
  exists pts g, pick_ffd_points d (Some cs) r = Ok pts /\
    calculate_gradients_ffd mf d o (Some pts) (Some (map (outputs o f) pts)) false = Ok g /\
    g_in g = cs /\ has_shape (g_jac g) (length cs) o d /\
    forall c x a b, nth_error cs c = Some x -> a < o -> b < d ->
      entry (g_jac g) c a b = Some (Fin ((f a (moved x b (radius r b)) - f a x) / radius r b)%Qc).
Proof. exact ffd_lemma. Qed.
Print Assumptions ffd_is_forward_difference.
Theorem cfd_is_centered_difference : forall mf d o f cs r, points d cs -> good_radii d r -> 0 < d -> cs <> [] ->
  exists pts g, pick_cfd_points d (Some cs) r = Ok pts /\
    calculate_gradients_cfd mf d o (Some pts) (Some (map (outputs o f) pts)) false = Ok g /\
    g_in g = cs /\ has_shape (g_jac g) (length cs) o d /\
    forall c x a b, nth_error cs c = Some x -> a < o -> b < d ->
      entry (g_jac g) c a b =
      Some (Fin ((f a (moved x b (radius r b)) - f a (moved x b (- radius r b))) / (qn 2 * radius r b))%Qc).
Proof. exact cfd_lemma. Qed.
Print Assumptions cfd_is_centered_difference.
Theorem ffd_exact_on_affine : forall mf d o c0 A cs r, points d cs -> good_radii d r -> 0 < d -> cs <> [] ->
  exists pts g, pick_ffd_points d (Some cs) r = Ok pts /\
    calculate_gradients_ffd mf d o (Some pts) (Some (map (outputs o (affine d c0 A)) pts)) false = Ok g /\
    g_in g = cs /\ has_shape (g_jac g) (length cs) o d /\
    forall c a b, c < length cs -> a < o -> b < d -> entry (g_jac g) c a b = Some (Fin (A a b)).
Proof. exact ffd_affine_lemma. Qed.
Print Assumptions ffd_exact_on_affine.
Theorem cfd_exact_on_quadratic : forall mf d o c0 A Q cs r, points d cs -> good_radii d r -> 0 < d -> cs <> [] ->
  exists pts g, pick_cfd_points d (Some cs) r = Ok pts /\
    calculate_gradients_cfd mf d o (Some pts) (Some (map (outputs o (quadratic d c0 A Q)) pts)) false = Ok g /\
    g_in g = cs /\ has_shape (g_jac g) (length cs) o d /\
    forall c x a b, nth_error cs c = Some x -> a < o -> b < d ->
      entry (g_jac g) c a b = Some (Fin (quadratic_partial d A Q a b x)).
Proof. exact cfd_quadratic_lemma. Qed.
Print Assumptions cfd_exact_on_quadratic.
(** quadratic_partial is the linear coefficient of the increment. *)
Theorem quadratic_partial_is_derivative : forall d c A Q a x b h, length x = d -> b < d ->
  quadratic d c A Q a (moved x b h) =
  (quadratic d c A Q a x + h * quadratic_partial d A Q a b x + h * h * Q a b b)%Qc.
Proof. exact quadratic_partial_lemma. Qed.
Print Assumptions quadratic_partial_is_derivative.
Theorem ffd_normalized_rows : forall mf d o f cs r, points d cs -> good_radii d r -> 0 < d -> cs <> [] ->
  exists pts g, pick_ffd_points d (Some cs) r = Ok pts /\
    calculate_gradients_ffd mf d o (Some pts) (Some (map (outputs o f) pts)) true = Ok g /\
    g_in g = cs /\
    forall c x a, nth_error cs c = Some x -> a < o ->
      exists w, row_of (g_jac g) c a = Some (map Fin w) /\
        normalized_of (map (fun b => (f a (moved x b (radius r b)) - f a x) / radius r b)%Qc (seq 0 d)) w.
Proof. exact ffd_normalized_lemma. Qed.
Print Assumptions ffd_normalized_rows.
Theorem cfd_normalized_rows : forall mf d o f cs r, points d cs -> good_radii d r -> 0 < d -> cs <> [] ->
  exists pts g, pick_cfd_points d (Some cs) r = Ok pts /\
    calculate_gradients_cfd mf d o (Some pts) (Some (map (outputs o f) pts)) true = Ok g /\
    g_in g = cs /\
    forall c x a, nth_error cs c = Some x -> a < o ->
      exists w, row_of (g_jac g) c a = Some (map Fin w) /\
        normalized_of (map (fun b => (f a (moved x b (radius r b)) - f a (moved x b (- radius r b))) / (qn 2 * radius r b))%Qc (seq 0 d)) w.
Proof. exact cfd_normalized_lemma. Qed.
Print Assumptions cfd_normalized_rows.
Example stencil_ex : points 2 ex_centers /\ good_radii 2 ex_radii /\ ex_centers <> [].
Proof. exact ex_stencil. Qed.
Example cfd_ex : let pts := ex_pts (pick_cfd_points 2 (Some ex_centers) ex_radii) in
  jac_rows (calculate_gradients_cfd 0%Qc 2 2 (Some pts) (Some (map (outputs 2 ex_qoi) pts)) false) =
  [Fin 1; Fin 0; Fin 1; Fin 0; Fin (qn 3); Fin (qn 2); Fin 1; Fin 0]%Qc.
Proof. cbv zeta. qc_compute. Qed.

(** C89 *)
Theorem ffd_center_values : forall mf d o f cs r nrm, points d cs -> good_radii d r -> 0 < d -> cs <> [] ->
  exists pts g, pick_ffd_points d (Some cs) r = Ok pts /\
    calculate_gradients_ffd mf d o (Some pts) (Some (map (outputs o f) pts)) nrm = Ok g /\
    g_out g = map (outputs o f) cs.
Proof. exact ffd_center_values_lemma. Qed.
Print Assumptions ffd_center_values.
(** Centered differences return the outputs of stencil points instead. *)
Theorem cfd_center_values_shifted : forall mf d o f cs r nrm x0, points d cs -> good_radii d r -> 0 < d -> nth_error cs 0 = Some x0 ->
  exists pts g, pick_cfd_points d (Some cs) r = Ok pts /\
    calculate_gradients_cfd mf d o (Some pts) (Some (map (outputs o f) pts)) nrm = Ok g /\
    nth_error (g_out g) 0 = Some (outputs o f (moved x0 0 (radius r 0))).
Proof. exact cfd_center_values_actual. Qed.
Print Assumptions cfd_center_values_shifted.
Theorem cfd_center_values_refuted : ~ (forall mf d o f cs r nrm pts g, points d cs -> good_radii d r -> 0 < d ->
  pick_cfd_points d (Some cs) r = Ok pts ->
  calculate_gradients_cfd mf d o (Some pts) (Some (map (outputs o f) pts)) nrm = Ok g ->
  g_out g = map (outputs o f) cs).
Proof. exact Gradient_Proofs.cfd_center_values_refuted. Qed.
Print Assumptions cfd_center_values_refuted.

(** C90 *)
Theorem gradient_data_kept_partial : forall mf d o ss dd nrm g, all_finite dd ->
  calculate_gradients_ffd mf d o (Some ss) (Some dd) nrm = Ok g \/ calculate_gradients_cfd mf d o (Some ss) (Some dd) nrm = Ok g ->
  g_data g = dd.
Proof. exact data_kept_lemma. Qed.
Print Assumptions gradient_data_kept_partial.
Theorem gradient_data_kept_refuted : ~ (forall mf d o ss dd nrm g,
  calculate_gradients_ffd mf d o (Some ss) (Some dd) nrm = Ok g -> g_data g = dd).
Proof. exact data_kept_refuted. Qed.
Print Assumptions gradient_data_kept_refuted.
Example gradient_data_ex : all_finite [[Fin 0%Qc]; [Fin 1%Qc]].
Proof. intros r [<-|[<-|[]]] x [<-|[]]; eexists; reflexivity. Qed.

(** C93 *)
Theorem lp_ball_clusters : forall (Ball : list Qc -> list Qc -> Prop) dom m cs draws vals,
  (dom = None -> forall bs b rest, In bs draws -> bs = b :: rest -> length b = m) ->
  (forall k c bs b x, nth_error cs k = Some c -> nth_error draws k = Some bs -> In b bs -> In x b -> length x = length c /\ Ball c x) ->
  (forall d c, dom = Some d -> In c cs -> length c = length d) ->
  sample_lp_ball dom m (Some cs) draws = Ok (Some vals) ->
  length vals = length cs * (m + 1) /\ firstn (length cs) vals = cs /\
  forall k c, nth_error cs k = Some c ->
    length (cluster (length cs) m k vals) = m /\
    forall x, In x (cluster (length cs) m k vals) -> Ball c x /\ (forall d, dom = Some d -> in_box d x).
Proof. exact sample_lp_ball_lemma. Qed.
Print Assumptions lp_ball_clusters.
Theorem lp_ball_terminates : forall dom m cs draws, 0 < m -> length draws = length cs ->
  (forall bs, In bs draws -> exists b, In b bs /\
     (forall d, dom = Some d -> exists good, length good = m /\ incl good b /\ NoDup good /\ forall x, In x good -> length x = length d /\ in_box d x)) ->
  exists vals, sample_lp_ball dom m (Some cs) draws = Ok (Some vals).
Proof. exact sample_lp_ball_total_lemma. Qed.
Print Assumptions lp_ball_terminates.
Theorem lp_ball_zero_points : forall dom cs draws, cs <> [] -> sample_lp_ball dom 0 (Some cs) draws = Raise PyNameError.
Proof. exact sample_lp_ball_empty_lemma. Qed.
Print Assumptions lp_ball_zero_points.
(** One center; the first batch has only one point in the unit interval, the
    second has enough. *)
Example lp_ball_ex : sample_lp_ball (Some [(0, 1)]%Qc) 2 (Some [[1]]%Qc)
  [[[[qn 2]; [1]]; [[qn 2]; [1]; [0]; [Q2Qc (1 # 2)]]]]%Qc = Ok (Some [[1]; [1]; [0]]%Qc).
Proof. reflexivity. Qed.
