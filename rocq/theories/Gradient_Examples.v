(** Concrete cases of the hypotheses in Gradient_Props and GradientR_Props. *)
From Coq Require Import List Arith Lia QArith Qcanon Reals Lra.
From Verif Require Import Err Num Ext Show NumPy Gradient_Model Gradient_Spec GradientR_Model GradientR_Spec GradientR_Proofs.
Import ListNotations.
Local Open Scope nat_scope.

Definition ex_centers : mat := [[0; 1]; [qn 2; qn 3]]%Qc.
Definition ex_radii : list Qc := [1%Qc; Q2Qc (1 # 2)].
Lemma ex_stencil : points 2 ex_centers /\ good_radii 2 ex_radii /\ ex_centers <> [].
Proof.
  split; [intros x [<-|[<-|[]]]; reflexivity|]. split; [|discriminate]. split; [left; reflexivity|]. intros h [<-|[<-|[]]]; discriminate.
Qed.
(** f(x,y) = (x*y, x + 3) *)
Definition ex_qoi : qoi := fun a x => if Nat.eqb a 0 then (nth 0 x 0 * nth 1 x 0)%Qc else (nth 0 x 0 + qn 3)%Qc.
Definition jac_rows (r : result grad_out) : list xnum := match r with Ok g => concat (concat (g_jac g)) | Raise _ => [] end.
Definition ex_pts (r : result mat) : mat := match r with Ok m => m | Raise _ => [] end.

(** Two interpolation points on the line. *)
Local Open Scope R_scope.
Lemma ex_rbf : exists g, rbf_entry ex_solve (Some Multiquadric) None [[0]; [3 / 4]] [[0]; [1]] [0%nat; 1%nat] [0] 0 0 = Some g /\ g = 16 / 15 /\
  interpolates (kernel_sum (fun r => radial_basis_function r (Some Multiquadric) None) [[0]; [3 / 4]] [20 / 9; - (16 / 9)])
     [[0]; [3 / 4]] [0; 1].
Proof.
  assert (D00 : dist [0] [0] = 0) by (apply sqrt_eq; [lra|]; cbn; unfold Rsqr; lra).
  assert (D11 : dist [3 / 4] [3 / 4] = 0) by (apply sqrt_eq; [lra|]; cbn; unfold Rsqr; lra).
  assert (D01 : dist [0] [3 / 4] = 3 / 4) by (apply sqrt_eq; [lra|]; cbn; unfold Rsqr; lra).
  assert (D10 : dist [3 / 4] [0] = 3 / 4) by (apply sqrt_eq; [lra|]; cbn; unfold Rsqr; lra).
  assert (Q0 : forall e, sqrt (1 + (e * 0)²) = 1) by (intro; apply sqrt_eq; [lra|]; unfold Rsqr; lra).
  assert (Q1 : sqrt (1 + (1 * (3 / 4))²) = 5 / 4) by (apply sqrt_eq; [lra|]; unfold Rsqr; lra).
  eexists. split; [|split].
  - unfold rbf_entry. cbn [take_idx nth_error]. unfold rbf_matrix, rbf_rhs. cbn [map nth].
    rewrite D00, D11, D01, D10. unfold radial_basis_function, radial_basis_function_dxi, the_ep. rewrite !Q0, Q1. unfold ex_solve.
    destruct (Req_EM_T (1 * 1 - 5 / 4 * (5 / 4)) 0) as [Z|Z]; [lra|]. cbn. reflexivity.
  - unfold rdot, Rsqr. cbn. field; lra.
  - unfold interpolates, kernel_sum. cbn [map combine fst snd nth rsum fold_right]. rewrite D00, D11, D01, D10.
    unfold radial_basis_function, the_ep. rewrite !Q0, Q1. f_equal; [lra|f_equal; lra].
Qed.
