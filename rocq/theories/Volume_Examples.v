From Coq Require Import List Arith NArith QArith Qcanon Permutation Lia.
From Verif Require Import Err Num Ext Query_Model Query_Spec Volume_Model Volume_Spec.
Import ListNotations.
Local Open Scope nat_scope.

(** Three samples in [0,1]: 1/2, 9/10, 1/10. *)
Definition samples3 : list Qc := [Q2Qc (1#2); Q2Qc (9#10); Q2Qc (1#10)].
Definition argsort3 (l : list Qc) : list nat := [2; 0; 1].
Lemma argsort3_ok : is_argsort samples3 (argsort3 samples3).
Proof.
  split.
  - unfold argsort3. simpl. apply Permutation_sym. apply (Permutation_cons_app [2] [1] 0 (l := [1; 2])). apply perm_swap.
  - intros i j a b L Ha Hb. unfold argsort3 in *.
    destruct i as [|[|[|i]]], j as [|[|[|j]]]; simpl in Ha, Hb; try discriminate; try lia;
      try (injection Ha as <-); try (injection Hb as <-); try discriminate;
      try (destruct i; discriminate); try (destruct j; discriminate).
Qed.
Lemma samples3_in : forall w, In w samples3 -> (0 <= w)%Qc /\ (w <= 1)%Qc.
Proof. intros w [<-|[<-|[<-|[]]]]; split; discriminate. Qed.
Lemma samples3_NoDup : NoDup samples3.
Proof. repeat constructor; simpl; intuition discriminate. Qed.

(** Two disjoint boxes in [0,2] x [0,2]. *)
Definition dom2 : list (Qc * Qc) := [(0, Q2Qc 2); (0, Q2Qc 2)]%Qc.
Definition boxes_lo : list (list Qc) := [[0; 0]; [1; 1]]%Qc.
Definition boxes_hi : list (list Qc) := [[1; Q2Qc 2]; [Q2Qc 2; Q2Qc 2]]%Qc.
Lemma dom2_proper : proper_domain dom2.
Proof. intros d [<-|[<-|[]]]; reflexivity. Qed.
Lemma boxes_sub : forall l r, In (l, r) (combine boxes_lo boxes_hi) -> sub_box dom2 l r.
Proof.
  intros l r [E|[E|[]]]; injection E as <- <-; (split; [reflexivity|]; split; [reflexivity|]);
  intros [|[|[|j]]] d u v Hd Hu Hv; simpl in *; try discriminate;
  injection Hd as <-; injection Hu as <-; injection Hv as <-; repeat split; discriminate.
Qed.
Lemma boxes_disjoint : disjoint_boxes boxes_lo boxes_hi.
Proof.
  assert (H : forall x, box_contains boxes_lo boxes_hi x 0 -> box_contains boxes_lo boxes_hi x 1 -> False).
  { intros x (l & r & Hl & Hr & L1 & L2 & B) (l' & r' & Hl' & Hr' & L1' & L2' & B').
    simpl in Hl, Hr, Hl', Hr'. injection Hl as <-. injection Hr as <-. injection Hl' as <-. injection Hr' as <-.
    destruct x as [|a x]; [discriminate|].
    destruct (B 0 a 0%Qc 1%Qc eq_refl eq_refl eq_refl) as [_ P]. destruct (B' 0 a 1%Qc (Q2Qc 2) eq_refl eq_refl eq_refl) as [Q _].
    apply (Qclt_not_le _ _ Q P). }
  intros i j x Hi Hj.
  assert (D : forall k, box_contains boxes_lo boxes_hi x k -> k = 0 \/ k = 1).
  { intros k (l & _ & Hl & _). destruct k as [|[|k]]; auto. destruct k; discriminate. }
  destruct (D i Hi) as [->| ->], (D j Hj) as [->| ->]; try reflexivity; exfalso; eapply H; eassumption.
Qed.
