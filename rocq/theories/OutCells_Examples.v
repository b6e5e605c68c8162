From Coq Require Import List Arith ZArith QArith Qcanon.
From Verif Require Import Err Num Prob_Model Prob_Spec OutCells_Spec.
Import ListNotations.
Local Open Scope nat_scope.

Definition oc_coarse : list Qc := [Q2Qc (1 # 2); Q2Qc (1 # 2)].
Definition oc_fine : list Qc := [Q2Qc (1 # 4); Q2Qc (1 # 4); Q2Qc (1 # 4); Q2Qc (1 # 4)].
Definition oc_ptrs : list (list nat) := [[0; 1]; [2; 2]].
Definition oc_vols : list (list Qc) := [[Q2Qc (1 # 4); Q2Qc (1 # 4)]; [Q2Qc (1 # 8); Q2Qc (3 # 8)]].
Definition oc_shown (r : result (list (list Qc))) : list (list Q) := match r with Ok l => map (map this) l | Raise _ => [] end.
Lemma oc_case : subdivides Nat.div2 oc_coarse oc_fine /\ nonneg oc_fine /\ nonneg (concat oc_vols) /\ same_lengths oc_ptrs oc_vols /\
  oc_shown (prob oc_fine oc_ptrs oc_vols) = [[1 # 4; 1 # 4]; [1 # 16; 3 # 16]]%Q /\
  oc_shown (prob oc_coarse (map (map Nat.div2) oc_ptrs) oc_vols) = [[1 # 4; 1 # 4]; [1 # 8; 3 # 8]]%Q.
Proof.
  split; [|split; [|split; [|split; [repeat constructor|split; vm_compute; reflexivity]]]].
  - split.
    + intros [|[|[|[|k]]]] H; cbn in *; try (repeat constructor; fail). exfalso. do 4 apply Nat.succ_lt_mono in H. inversion H.
    + intros [|[|i]] p E; cbn in E; try discriminate E; [| |destruct i; discriminate E]; injection E as <-; apply Qc_is_canon; vm_compute; reflexivity.
  - intros x [<-|[<-|[<-|[<-|[]]]]]; discriminate.
  - intros x [<-|[<-|[<-|[<-|[]]]]]; discriminate.
Qed.
