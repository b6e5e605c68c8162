From Coq Require Import List Arith Bool Lia Reals Lra.
From Verif Require Import Err ChooseQoIs_Model ChooseQoIs_Spec ChooseQoIs_Examples UniqueVecs_Model UniqueVecs_Spec UniqueVecs_Proofs.
Import ListNotations.
Local Open Scope R_scope.

(** One center, four QoIs with gradients (1,0), (2,0), (0,1), (0,0). *)
Definition jac_ex : list (list (list R)) := [[[1; 0]; [2; 0]; [0; 1]; [0; 0]]].
Lemma vlength_sq v r : 0 <= r -> inner v v = r * r -> vlength v = r.
Proof. intros H E. unfold vlength. rewrite E. apply sqrt_square, H. Qed.
Lemma cos01 : average_cosine jac_ex 0 1 = 1.
Proof.
  unfold average_cosine, jac_ex, gradient. cbn [map total nth length INR]. unfold cosine.
  rewrite (vlength_sq [1; 0] 1), (vlength_sq [2; 0] 2) by (simpl; lra).
  destruct (Req_EM_T 1 0); [lra|]. destruct (Req_EM_T 2 0); [lra|]. simpl. field.
Qed.
Lemma cos02 : average_cosine jac_ex 0 2 = 0.
Proof.
  unfold average_cosine, jac_ex, gradient. cbn [map total nth length INR]. unfold cosine.
  rewrite (vlength_sq [1; 0] 1), (vlength_sq [0; 1] 1) by (simpl; lra).
  destruct (Req_EM_T 1 0); [lra|]. simpl. field.
Qed.
Lemma zero_ex i : (i < 4)%nat -> zero_somewhere jac_ex i = (i =? 3)%nat.
Proof.
  intro H. destruct (i =? 3)%nat eqn:E.
  - apply Nat.eqb_eq in E. subst. apply zero_somewhere_spec. exists [[1; 0]; [2; 0]; [0; 1]; [0; 0]]. split; [left; reflexivity|]. intros x [<-|[<-|[]]]; reflexivity.
  - apply not_true_is_false. intro Z. apply zero_somewhere_spec in Z. destruct Z as (m & [<-|[]] & Z). unfold gradient in Z. apply Nat.eqb_neq in E.
    destruct i as [|[|[|[|i]]]]; cbn [nth] in Z; try lia.
    + specialize (Z 1 (or_introl eq_refl)). lra.
    + specialize (Z 2 (or_introl eq_refl)). lra.
    + specialize (Z 1 (or_intror (or_introl eq_refl))). lra.
Qed.
Lemma unique_ex : find_unique_vecs set_list (Some jac_ex) 4 (1 / 2) None true = Ok [0%nat; 2%nat].
Proof.
  unfold find_unique_vecs. cbn [seq filter]. rewrite !zero_ex by lia. cbn [Nat.eqb]. change (set_diff [0; 1; 2; 3]%nat [3%nat]) with [0; 1; 2]%nat. change (set_list [0; 1; 2]%nat) with [0; 1; 2]%nat.
  cbn [pairs map app pair_loop existsb orb].
  destruct (too_similar_spec jac_ex 4 (1 / 2) 0 1) as (b1 & -> & H1); [lia | lia|]. cbn [bind].
  assert (b1 = true) by (apply H1; unfold similar; rewrite cos01, Rabs_R1; lra). subst b1. cbn [app existsb Nat.eqb orb].
  destruct (too_similar_spec jac_ex 4 (1 / 2) 0 2) as (b2 & -> & H2); [lia | lia|]. cbn [bind].
  assert (b2 = false) by (destruct b2; [|reflexivity]; exfalso; assert (S : similar jac_ex (1 / 2) 0 2) by (apply H2; reflexivity); unfold similar in S; rewrite cos02, Rabs_R0 in S; lra). subst b2.
  reflexivity.
Qed.
