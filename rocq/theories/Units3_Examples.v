From Coq Require Import List Arith ZArith QArith Qcanon.
From Verif Require Import Err Num Ext Gradient_Model Gradient_Spec Units_Spec Units3_Spec.
Import ListNotations.
Local Open Scope nat_scope.

(** The sum of two parameters; the first one in other units *)
Definition ug_f : qoi := fun _ x => (nth 0 x 0 + nth 1 x 0)%Qc.
Definition ug_f' : qoi := fun _ x => (nth 0 x 0 / Q2Qc 3 + nth 1 x 0)%Qc.
Definition ug_u : list Qc := [Q2Qc 3; Q2Qc 1].
Definition ug_c : list Qc := [0%Qc; 0%Qc].
Definition ug_cs : mat := [[Q2Qc 1; Q2Qc 2]].
Definition ug_r : list Qc := [Q2Qc (1 # 2); Q2Qc (1 # 4)].
Definition ug_jac (normalize : bool) (f : qoi) (cs : mat) (r : list Qc) : list (list (list Q)) :=
  match pick_ffd_points 2 (Some cs) r with
  | Ok pts => match calculate_gradients_ffd (Q2Qc 1000) 2 1 (Some pts) (Some (map (outputs 1 f) pts)) normalize with
              | Ok g => map (map (map (fun x => match x with Fin q => this q | _ => 0%Q end))) (g_jac g)
              | Raise _ => [] end
  | Raise _ => [] end.
Lemma ug_same : same_model 2 1 ug_u ug_c (fun _ => Q2Qc 1) (fun _ => 0%Qc) ug_f ug_f'.
Proof.
  intros [|x [|y [|v l]]] i L _; try discriminate L. unfold ug_f, ug_f', in_units, ug_u, ug_c. cbn [combine map nth fst snd]. replace (Q2Qc 1) with 1%Qc by (apply Qc_is_canon; reflexivity). field. discriminate.
Qed.
Lemma ug_case : ug_jac false ug_f ug_cs ug_r = [[[1 # 1; 1 # 1]]]%Q /\ ug_jac false ug_f' (map (in_units ug_u ug_c) ug_cs) (length_in_units ug_u ug_r) = [[[1 # 3; 1 # 1]]]%Q /\
  ug_jac true ug_f ug_cs ug_r = [[[1 # 2; 1 # 2]]]%Q /\ ug_jac true ug_f' (map (in_units ug_u ug_c) ug_cs) (length_in_units ug_u ug_r) = [[[1 # 4; 3 # 4]]]%Q.
Proof. repeat split; vm_compute; reflexivity. Qed.
