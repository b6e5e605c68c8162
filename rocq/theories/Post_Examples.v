From Coq Require Import List Arith Lia Permutation QArith Qcanon.
From Verif Require Import Err Num Ext Show Post_Model Post_Spec Post_Proofs.
Import ListNotations.
Local Open Scope nat_scope.

(** Three samples with volumes; the densities are 2, 0 and 1. *)
Definition ex_set : pset nat nat := mk_p [10; 20; 30] [Q2Qc (1 # 2); 0%Qc; Q2Qc (1 # 2)] (Some [Q2Qc (1 # 4); Q2Qc (1 # 4); Q2Qc (1 # 2)]) (Some [7; 8; 9]).
Lemma ex_set_argsort : is_xargsort (rho (p_prob ex_set) (p_vol ex_set)) [1; 2; 0].
Proof.
  split.
  - simpl. apply Permutation_sym. apply (perm_trans (l' := [1; 0; 2])); [apply perm_swap | apply perm_skip, perm_swap].
  - intros [|[|[|i]]] [|[|[|j]]] a b x y L Ha Hb Hx Hy; try lia; try (destruct j; discriminate); injection Ha as <-; injection Hb as <-; injection Hx as <-; injection Hy as <-; vm_compute; reflexivity.
Qed.
(** A sample of probability and volume zero. *)
Definition nan_set : pset nat nat := mk_p [10; 20] [1%Qc; 0%Qc] (Some [1%Qc; 0%Qc]) None.
Lemma nan_set_argsort : is_xargsort (rho (p_prob nan_set) (p_vol nan_set)) [0; 1].
Proof.
  split; [apply Permutation_refl|]. intros [|[|i]] [|[|j]] a b x y L Ha Hb Hx Hy; try lia; try (destruct j; discriminate); injection Ha as <-; injection Hb as <-; injection Hx as <-; injection Hy as <-; vm_compute; reflexivity.
Qed.
