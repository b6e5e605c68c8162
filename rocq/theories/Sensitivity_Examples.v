From Coq Require Import List Arith Bool Lia Permutation QArith Qcanon Reals Qreals Lra.
From Verif Require Import Err Num Ext Show NumPy Lists Gradient_Model Gradient_Spec ChooseQoIs_Model ChooseQoIs_Spec ChooseQoIs_Examples ChooseAvg_Proofs
  UniqueVecs_Model UniqueVecs_Spec UniqueVecs_Proofs UniqueVecs_Examples Sensitivity_Model Sensitivity_Spec Sensitivity_Proofs.
Import ListNotations.
Local Open Scope nat_scope.

(** Two inputs: the volume of one row is its 1-norm, of two rows the absolute
    value of their determinant. *)
Definition det2 (v w : list Qc) : Qc := (nth 0 v 0 * nth 1 w 0 - nth 1 v 0 * nth 0 w 0)%Qc.
Definition sv_ex (M : list (list Qc)) : list Qc :=
  match M with [] => [] | [v] => [norm1 v] | [v; w] => [qabs (det2 v w); 1%Qc] | _ => map (fun _ => 0%Qc) M end.
Lemma norm1_nonneg v : (0 <= norm1 v)%Qc.
Proof. apply qsum_nonneg. intros x Hx. apply in_map_iff in Hx. destruct Hx as (y & <- & _). apply qabs_nonneg. Qed.
Lemma det2_swap v w : qabs (det2 w v) = qabs (det2 v w).
Proof. replace (det2 w v) with (- det2 v w)%Qc by (unfold det2; ring). apply qabs_opp. Qed.
Lemma sv_ex_ok : singular_values 2 sv_ex.
Proof.
  intros M L. destruct M as [|v [|w [|x M]]]; [| | |simpl in L; lia]; cbn [sv_ex length].
  - do 2 (split; [try reflexivity; intros ? []|]). intros M' P. apply Permutation_nil in P. subst. reflexivity.
  - split; [reflexivity|]. split; [intros x [<-|[]]; apply norm1_nonneg|]. intros M' P. apply Permutation_length_1_inv in P. subst. reflexivity.
  - split; [reflexivity|]. split; [intros x [<-|[<-|[]]]; [apply qabs_nonneg | discriminate]|]. intros M' P. apply Permutation_length_2_inv in P. destruct P as [->| ->]; [reflexivity|].
    cbn [sv_ex]. rewrite det2_swap. reflexivity.
Qed.
Lemma norm1_two v : (qabs (nth 0 v 0) + qabs (nth 1 v 0) <= norm1 v)%Qc.
Proof.
  assert (Z : qabs 0 = 0%Qc) by reflexivity. destruct v as [|a [|b v]]; cbn [nth].
  - rewrite Z. discriminate.
  - rewrite Z. unfold norm1. cbn [map qsum fold_right]. apply Qcle_refl.
  - change (norm1 (a :: b :: v)) with (qabs a + (qabs b + norm1 v))%Qc. pose proof (norm1_nonneg v) as H. generalize dependent (norm1 v). intros t H. qc_lra.
Qed.
Lemma det2_bound v w : (qabs (det2 v w) <= norm1 v * norm1 w)%Qc.
Proof.
  assert (T : forall a b, (qabs (a - b) <= qabs a + qabs b)%Qc).
  { intros a b. replace (a - b)%Qc with (a + - b)%Qc by ring. rewrite <- (qabs_opp b). apply qabs_triangle. }
  pose proof (norm1_two v) as Hv. pose proof (norm1_two w) as Hw. eapply Qcle_trans; [apply T|]. rewrite !qabs_mul.
  pose proof (qabs_nonneg (nth 0 v 0%Qc)). pose proof (qabs_nonneg (nth 1 v 0%Qc)). pose proof (qabs_nonneg (nth 0 w 0%Qc)). pose proof (qabs_nonneg (nth 1 w 0%Qc)).
  generalize dependent (qabs (nth 0 v 0%Qc)). generalize dependent (qabs (nth 1 v 0%Qc)). generalize dependent (qabs (nth 0 w 0%Qc)). generalize dependent (qabs (nth 1 w 0%Qc)).
  intros a Ha b Hw Hb c Hc e Hv He. apply Qcle_trans with ((e + c) * (b + a))%Qc; [qc_nra|].
  apply Qcle_trans with (norm1 v * (b + a))%Qc; [apply Qcmult_le_compat_r; [exact Hv | qc_lra]|]. rewrite (Qcmult_comm (norm1 v)), (Qcmult_comm (norm1 v) (norm1 w)). apply Qcmult_le_compat_r; [exact Hw | apply norm1_nonneg].
Qed.
Lemma sv_ex_lengths : row_lengths 2 sv_ex norm1.
Proof.
  intros M1 v M2 L. destruct M1 as [|w [|x M1]].
  - destruct M2 as [|w [|x M2]]; [| |simpl in L; lia]; cbn [app sv_ex product fold_right].
    + rewrite !Qcmult_1_r. apply Qcle_refl.
    + rewrite !Qcmult_1_r. apply det2_bound.
  - destruct M2 as [|x M2]; [|simpl in L; rewrite ?app_length in L; simpl in L; lia]. cbn [app sv_ex product fold_right]. rewrite !Qcmult_1_r, det2_swap. apply det2_bound.
  - rewrite app_length in L. simpl in L. lia.
Qed.

(** Three QoIs of two inputs with gradients (1,0), (0,2), (1,1). *)
Definition A_ex (a b : nat) : Qc := nth b (nth a [[1; 0]; [0; qn 2]; [1; 1]]%Qc []) 0%Qc.
Definition c_ex (a : nat) : Qc := qn (S a).
Definition cs_ex : list (list Qc) := [[0%Qc; qn 3]; [qn 2; 1%Qc]].
Lemma cs_ex_ok : points 2 cs_ex /\ good_radii 2 [qn 2] /\ good_radii 2 [1%Qc; qn 3].
Proof.
  split; [intros x [<-|[<-|[]]]; reflexivity|]. split; (split; [|intros h H; simpl in H; intuition (subst; discriminate)]); [right; reflexivity | left; reflexivity].
Qed.
Definition run_ex (s : scheme) : result (list (xnum * list nat)) :=
  run_sensitivity sv_ex norm1 isort set_list s 1%Qc 2 3 (Some cs_ex) [qn 2] false (outputs 3 (affine 2 c_ex A_ex)) 2 (Some [0; 1]) None (Some 1) (1 / 2)%R true false.
Lemma run_ex_value s : run_ex s = Ok [(Fin (/ qn 2)%Qc, [0; 1])].
Proof.
  destruct cs_ex_ok as (P & R & _).
  destruct (run_reduces sv_ex norm1 isort set_list 2 s 1%Qc 3 c_ex A_ex cs_ex [qn 2] false 2 (Some [0; 1]) None (Some 1) (1 / 2)%R true false P R) as (M & C & E); [lia | discriminate|].
  unfold run_ex. rewrite E. clear E.
  assert (EM : M = [[1; 0]; [0; qn 2]; [1; 1]]%Qc).
  { apply (coefficients_unique A_ex 3 2 false); [exact C|]. split; [reflexivity|]. intros [|[|[|a]]] w H; try (injection H as <-; reflexivity). destruct a; discriminate H. }
  subst M. clear C.
  assert (U : find_unique_vecs set_list (Some [to_R [[1; 0]; [0; qn 2]; [1; 1]]%Qc]) 3 (1 / 2)%R (Some [0; 1]) false = Ok [0; 1]).
  { unfold find_unique_vecs. change (set_list (set_diff [0; 1] [])) with [0; 1]. cbn [pairs map app pair_loop existsb orb].
    destruct (too_similar_spec [to_R [[1; 0]; [0; qn 2]; [1; 1]]%Qc] 3 (1 / 2)%R 0 1) as (b & -> & H); [lia | lia|]. cbn [bind].
    assert (b = false); [|subst; reflexivity]. destruct b; [|reflexivity]. exfalso. assert (S1 : similar [to_R [[1; 0]; [0; qn 2]; [1; 1]]%Qc] (1 / 2)%R 0 1) by (apply H; reflexivity).
    unfold similar, average_cosine, gradient, to_R in S1. cbn [map total nth length INR] in S1.
    replace (Q2R 1%Qc) with 1%R in S1 by (unfold Q2R; simpl; lra). replace (Q2R 0%Qc) with 0%R in S1 by (unfold Q2R; simpl; lra). replace (Q2R (qn 2)) with 2%R in S1 by (unfold Q2R; simpl; lra).
    unfold cosine in S1. rewrite (vlength_sq [1%R; 0%R] 1), (vlength_sq [0%R; 2%R] 2) in S1 by (simpl; lra).
    destruct (Req_EM_T 1 0); [lra|]. destruct (Req_EM_T 2 0); [lra|]. cbn [inner] in S1.
    replace ((1 * 0 + (0 * 2 + 0)) / (1 * 2) + 0)%R with 0%R in S1 by field. replace (0 / 1)%R with 0%R in S1 by field. rewrite Rabs_R0 in S1. lra. }
  rewrite U. cbn [bind]. vm_compute. reflexivity.
Qed.
