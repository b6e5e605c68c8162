From Coq Require Import List Arith ZArith QArith Qcanon Lia.
From Verif Require Import Err Num Ext SampleSet_Spec Query_Model SimpleInputs_Model SimpleFun_Model OutGrid_Spec Units_Spec.
Import ListNotations.
Local Open Scope nat_scope.

(** Degrees Celsius and metres, then degrees Fahrenheit and millimetres *)
Definition un_a : list Qc := [Q2Qc (9 # 5); Q2Qc 1000].
Definition un_b : list Qc := [Q2Qc 32; 0%Qc].
Definition un_ref : list Qc := [Q2Qc 20; Q2Qc (1 # 2)].
Definition un_size : list Qc := [Q2Qc 10; Q2Qc 1].
Definition un_x : list Qc := [Q2Qc 20; Q2Qc (3 # 4)].
Definition un_cell (r : result (rset * list xnum)) (x : list Qc) : list nat := match r with Ok (s, _) => match rect_query s x 1 with Ok l => map fst l | Raise _ => [] end | Raise _ => [] end.
Lemma un_case : map this (in_units un_a un_b un_x) = [68 # 1; 750 # 1]%Q /\ un_cell (regular_partition 2 un_ref un_size [2; 3]) un_x = [2] /\
  un_cell (regular_partition 2 (in_units un_a un_b un_ref) (length_in_units un_a un_size) [2; 3]) (in_units un_a un_b un_x) = [2].
Proof. repeat split; vm_compute; reflexivity. Qed.
(** A coordinate with the opposite sign *)
Lemma un_reversed : un_cell (regular_partition 1 [Q2Qc 1] [Q2Qc 2] [2]) [Q2Qc 1] = [0] /\
  un_cell (regular_partition 1 (in_units [Q2Qc (-1)] [0%Qc] [Q2Qc 1]) [Q2Qc 2] [2]) (in_units [Q2Qc (-1)] [0%Qc] [Q2Qc 1]) = [0] /\
  un_cell (regular_partition 1 [Q2Qc 1] [Q2Qc 2] [2]) [Q2Qc (1 # 2)] = [0] /\
  un_cell (regular_partition 1 (in_units [Q2Qc (-1)] [0%Qc] [Q2Qc 1]) [Q2Qc 2] [2]) (in_units [Q2Qc (-1)] [0%Qc] [Q2Qc (1 # 2)]) = [1].
Proof. repeat split; vm_compute; reflexivity. Qed.
(** Two values; the point is next to the first in one system of units and next
    to the second in the other. *)
Definition un_values : list (list Qc) := [[Q2Qc 1; 0%Qc]; [0%Qc; Q2Qc 2]].
Definition un_zero : list Qc := [0%Qc; 0%Qc].
Definition un_three : list Qc := [Q2Qc 3; Q2Qc 1].
Lemma un_voronoi nn : nn_contract distance2 nn -> nn un_values un_zero = 0 /\ nn (map (in_units un_three un_zero) un_values) (in_units un_three un_zero un_zero) = 1.
Proof.
  intros H. split.
  - destruct (H un_values un_zero) as (v & E & M); [discriminate|]. destruct (nn un_values un_zero) as [|[|k]]; [reflexivity| |destruct k; discriminate E]. injection E as <-. specialize (M _ (or_introl eq_refl)). exfalso. apply (Qcle_not_lt _ _ M). vm_compute. reflexivity.
  - destruct (H (map (in_units un_three un_zero) un_values) (in_units un_three un_zero un_zero)) as (v & E & M); [discriminate|]. destruct (nn _ _) as [|[|k]]; [|reflexivity|destruct k; discriminate E]. injection E as <-. specialize (M _ (or_intror (or_introl eq_refl))). exfalso. apply (Qcle_not_lt _ _ M). vm_compute. reflexivity.
Qed.
Lemma un_draws : map this (rect_point (Q2Qc (3 # 2)) un_size un_ref [Q2Qc (3 # 4); Q2Qc (1 # 4)]) = [95 # 4; 1 # 8]%Q /\
  map this (rect_point (Q2Qc (3 # 2)) (length_in_units un_a un_size) (in_units un_a un_b un_ref) [Q2Qc (3 # 4); Q2Qc (1 # 4)]) = [299 # 4; 125 # 1]%Q.
Proof. split; vm_compute; reflexivity. Qed.
