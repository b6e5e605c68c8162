(** C19 for the norms p = 1, 2 and inf. *)
From Coq Require Import List Arith Reals QArith Qcanon.
From Verif Require Import Err Num Ext Query_Model Query_Spec QueryR_Spec QueryR_Proofs.
Import ListNotations.
Local Open Scope nat_scope.

Theorem ball_query_norms : forall d cs rs s x, ball_setup d cs rs = Ok s -> length x = d ->
  forall p lt, (p, lt) = (One, norm1_lt) \/ (p, lt) = (Two, norm2_lt) \/ (p, lt) = (Inf, norminf_lt) ->
  exists i dist, ball_query lt s x 1 = Ok [(i, dist)] /\
    cell_answer (length cs) (fun i => exists c r, nth_error cs i = Some c /\ nth_error rs i = Some r /\ in_ball p x c r) i dist.
Proof.
  intros d cs rs s x HS HX p lt H.
  assert (E : lt = decide p) by (destruct H as [H|[H|H]]; injection H as -> ->; reflexivity). subst lt. exact (ball_norm_lemma p d cs rs s x HS HX).
Qed.
Print Assumptions ball_query_norms.
(** Two unit balls around 0 and (1, 0): (1/2, 1/2) is in the first for p = 2 and p = inf and in none for p = 1. *)
Example ball_query_norms_ex : exists s, ball_setup 2 [[0; 0]; [1; 0]]%Qc [1; 1]%Qc = Ok s /\
  ball_query norm2_lt s [Q2Qc (1#2); Q2Qc (1#2)] 1 = Ok [(0, Fin 0%Qc)] /\
  ball_query norminf_lt s [Q2Qc (1#2); Q2Qc (1#2)] 1 = Ok [(0, Fin 0%Qc)] /\
  ball_query norm1_lt s [Q2Qc (1#2); Q2Qc (1#2)] 1 = Ok [(2, PInf)].
Proof. eexists. split; [reflexivity|]. repeat split; reflexivity. Qed.
