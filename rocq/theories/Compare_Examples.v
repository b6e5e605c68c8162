From Coq Require Import List Arith Lia QArith Qcanon.
From Verif Require Import Err Num Ext Show Inverse_Model Compare_Model Compare_Spec Compare_Proofs.
Import ListNotations.
Local Open Scope nat_scope.

(** Densities at the points 0 and 1 (and at other numbers). *)
Definition f_ex (x : nat) : Qc := if x =? 0 then qn 1 else qn 3.
Definition g_ex (x : nat) : Qc := if x =? 2 then qn 3 else qn 2.
Definition value {A B} (r : result (option A * B)) : option A := match r with Ok (v, _) => v | Raise _ => None end.
Lemma tv_value_ex : value (distance f_ex g_ex tv false (set_compare [0; 1] new_cmp)) = Some (Q2Qc (1 # 2)) /\
  value (distance f_ex g_ex tv true (set_compare [0; 1] new_cmp)) = Some (Q2Qc (1 # 4)).
Proof. split; qc_compute. Qed.
Lemma history_ex : value (distance f_ex g_ex tv false (run f_ex g_ex [Dist tv true] (set_compare [0; 1] new_cmp))) = Some (Q2Qc (1 # 8)).
Proof. vm_compute. reflexivity. Qed.
Lemma stale_points_ex : value (distance f_ex g_ex tv false (run f_ex g_ex [Dist tv false; Points [2; 2; 2]] (set_compare [0; 1] new_cmp))) = Some (Q2Qc (1 # 2)) /\
  value (distance f_ex g_ex tv false (set_compare [2; 2; 2] new_cmp)) = Some 0%Qc.
Proof. split; qc_compute. Qed.
(** Two columns: (0,0) and (100,1).  All points are drawn from [0,1] x [0,1]. *)
Lemma ranges_ex : compare_ranges 2 [[0%Qc; 0%Qc]] [[qn 100; 1%Qc]] 0%Qc = Ok [(0%Qc, 1%Qc); (0%Qc, 1%Qc)] /\
  ~ covers 0%Qc 0%Qc 1%Qc (map (fun r => nth 0 r 0%Qc) [[0%Qc; 0%Qc]; [qn 100; 1%Qc]]).
Proof.
  split; [vm_compute; reflexivity|]. intro C. destruct (C (qn 100) 0%Qc 0%Qc) as [_ H]; [right; left; reflexivity | left; reflexivity | left; reflexivity|]. revert H. vm_compute. intro H. apply H. reflexivity.
Qed.
(** One column, factor 1: the range is not enlarged at the top. *)
Lemma ranges_top_ex : compare_ranges 1 [[0%Qc]] [[1%Qc]] 1%Qc = Ok [((- (1))%Qc, 1%Qc)] /\ ~ covers 1%Qc (- (1))%Qc 1%Qc [0%Qc; 1%Qc].
Proof.
  split; [vm_compute; reflexivity|]. intro C. destruct (C 1%Qc 0%Qc 1%Qc) as [_ H]; [right; left; reflexivity | left; reflexivity | right; left; reflexivity|]. revert H. vm_compute. intro H. apply H. reflexivity.
Qed.
Lemma interval_ex : marginal_interval (Some (Fin 0%Qc, Fin 1%Qc)) (Some (Fin 0%Qc, Fin (qn 5))) [] [] 0%Qc = Ok (0%Qc, 1%Qc).
Proof. vm_compute. reflexivity. Qed.
