From Coq Require Import List Arith Lia Reals Lra.
From Verif Require Import NumPy GradientR_Model GradientR_Spec GradientR_Proofs Gradient_Examples.
Import ListNotations.
Local Open Scope R_scope.

(** C53: for all distances, zero included. *)
Theorem rbf_dxi_is_derivative : forall k ep x y i, length x = length y -> (i < length x)%nat ->
  has_partial (fun z => radial_basis_function (dist z y) k ep) x i
    (radial_basis_function_dxi (dist x y) (nth i x 0 - nth i y 0) k ep).
Proof. exact rbf_partial_lemma. Qed.
Print Assumptions rbf_dxi_is_derivative.
Example rbf_dxi_ex : length [1; 2] = length [0; 2] /\ (0 < length [1; 2])%nat.
Proof. simpl. lia. Qed.

(** C91: proved for the default shape parameter. *)
Theorem rbf_gradient_partial : forall solve kernel_arg ep samples data nearest c i a g coef pts,
  solves solve -> NoDup nearest -> length data = length samples -> take_idx samples nearest = Some pts ->
  (forall q, In q pts -> length q = length c) -> (i < length c)%nat -> (ep = None \/ ep = Some 1) ->
  rbf_entry solve kernel_arg ep samples data nearest c i a = Some g ->
  length coef = length pts ->
  interpolates (kernel_sum (fun r => radial_basis_function r (Some (match kernel_arg with Some k => k | None => Gaussian end)) ep) pts coef)
     pts (map (fun j => nth a (nth j data []) 0) nearest) ->
  has_partial (kernel_sum (fun r => radial_basis_function r (Some (match kernel_arg with Some k => k | None => Gaussian end)) ep) pts coef) c i g.
Proof. exact rbf_gradient_lemma. Qed.
Print Assumptions rbf_gradient_partial.
Theorem rbf_gradient_refuted : ~ (forall solve kernel_arg ep samples data nearest c i a g coef pts,
  solves solve -> NoDup nearest -> length data = length samples -> take_idx samples nearest = Some pts ->
  (forall q, In q pts -> length q = length c) -> (i < length c)%nat ->
  rbf_entry solve kernel_arg ep samples data nearest c i a = Some g ->
  length coef = length pts ->
  interpolates (kernel_sum (fun r => radial_basis_function r (Some (match kernel_arg with Some k => k | None => Gaussian end)) ep) pts coef)
     pts (map (fun j => nth a (nth j data []) 0) nearest) ->
  has_partial (kernel_sum (fun r => radial_basis_function r (Some (match kernel_arg with Some k => k | None => Gaussian end)) ep) pts coef) c i g).
Proof. exact rbf_gradient_refuted_lemma. Qed.
Print Assumptions rbf_gradient_refuted.
Example rbf_gradient_ex : exists g, rbf_entry ex_solve (Some Multiquadric) None [[0]; [3 / 4]] [[0]; [1]] [0%nat; 1%nat] [0] 0 0 = Some g /\ g = 16 / 15 /\
  interpolates (kernel_sum (fun r => radial_basis_function r (Some Multiquadric) None) [[0]; [3 / 4]] [20 / 9; - (16 / 9)])
     [[0]; [3 / 4]] [0; 1].
Proof. exact ex_rbf. Qed.

(** C92 *)
Theorem lp_uniform_in_ball : forall p z r scale loc, 0 < p -> 0 <= r <= 1 -> (exists x, In x z /\ x <> 0) ->
  (forall s, In s scale -> 0 < s) -> length scale = length z -> length loc = length z ->
  in_lp_ball p scale loc (lp_uniform p z r scale loc).
Proof. exact lp_uniform_lemma. Qed.
Print Assumptions lp_uniform_in_ball.
Theorem lp_beta_in_ball : forall p z b scale loc, 0 < p -> 0 <= b <= 1 -> (exists x, In x z /\ x <> 0) ->
  (forall s, In s scale -> 0 < s) -> length scale = length z -> length loc = length z ->
  in_lp_ball p scale loc (lp_beta p z b scale loc).
Proof. exact lp_beta_lemma. Qed.
Print Assumptions lp_beta_in_ball.
Theorem linf_uniform_in_ball : forall u scale loc, (forall x, In x u -> 0 <= x <= 1) ->
  (forall s, In s scale -> 0 < s) -> length scale = length u -> length loc = length u ->
  in_linf_ball scale loc (linf_uniform u scale loc).
Proof. exact linf_uniform_lemma. Qed.
Print Assumptions linf_uniform_in_ball.
Theorem linf_uniform_onto : forall scale loc y, (forall s, In s scale -> 0 < s) -> length scale = length loc ->
  in_linf_ball scale loc y ->
  exists u, length u = length loc /\ (forall x, In x u -> 0 <= x <= 1) /\ linf_uniform u scale loc = y.
Proof. exact linf_uniform_onto_lemma. Qed.
Print Assumptions linf_uniform_onto.
Example linf_uniform_onto_ex : in_linf_ball [1; 2] [0; 0] [1; -2].
Proof. split; [reflexivity|]. intros [|[|j]] Hj; cbn in Hj; [| |exfalso; lia]; cbn [nth]; apply Rabs_le; lra. Qed.
Example lp_uniform_ex : (exists x, In x [3; 0] /\ x <> 0) /\ (forall s, In s [1; 2] -> 0 < s).
Proof. split; [exists 3; split; [left; reflexivity | lra]|]. intros s [<-|[<-|[]]]; lra. Qed.
