From Coq Require Import List Arith ZArith QArith Qcanon.
From Verif Require Import Err Num Ext Prob_Model Query_Model SimpleFun_Model OutCells_Spec OutGrid_Spec.
Import ListNotations.
Local Open Scope nat_scope.

(** Two by one cells around (1/2, 1/2) with sides 1, then two by two; the last cell is not hit. *)
Definition og_ref : list Qc := [Q2Qc (1 # 2); Q2Qc (1 # 2)].
Definition og_size : list Qc := [Q2Qc 1; Q2Qc 1].
Definition og_cells : list nat := [2; 1].
Definition og_times : list nat := [1; 2].
Definition og_points : list (list (list Qc)) := map (map (map Q2Qc)) [[[1 # 4; 1 # 4]; [1 # 4; 3 # 4]]; [[3 # 4; 1 # 4]; [3 # 4; 1 # 3]]]%Q.
Definition og_vols : list (list Qc) := map (map Q2Qc) [[1 # 4; 1 # 4]; [1 # 4; 1 # 4]]%Q.
Definition og_find (s : rset) (x : list Qc) : nat := match rect_query s x 1 with Ok ((k, _) :: _) => k | _ => 0 end.
Definition og_fin (x : xnum) : Qc := match x with Fin q => q | _ => 0%Qc end.
Definition og_part (cs : list nat) : rset * list Qc := match regular_partition 2 og_ref og_size cs with Ok (s, p) => (s, map og_fin p) | Raise _ => (mk_rset 0 [] [] [], []) end.
Definition og_ptrs (cs : list nat) : list (list nat) := map (map (og_find (fst (og_part cs)))) og_points.
Definition og_shown (r : result (list (list Qc))) : list (list Q) := match r with Ok l => map (map this) l | Raise _ => [] end.
Lemma og_case : og_ptrs og_cells = [[0; 0]; [1; 1]] /\ og_ptrs (multiplied og_times og_cells) = [[0; 1]; [2; 2]] /\
  og_shown (prob (snd (og_part og_cells)) (og_ptrs og_cells) og_vols) = [[1 # 4; 1 # 4]; [1 # 4; 1 # 4]]%Q /\
  og_shown (prob (snd (og_part (multiplied og_times og_cells))) (og_ptrs (multiplied og_times og_cells)) og_vols) = [[1 # 4; 1 # 4]; [1 # 8; 1 # 8]]%Q.
Proof. repeat split; vm_compute; reflexivity. Qed.
Lemma og_regular cs : cs = og_cells \/ cs = multiplied og_times og_cells -> regular_partition 2 og_ref og_size cs = Ok (fst (og_part cs), map Fin (snd (og_part cs))).
Proof. intros [->| ->]; vm_compute; reflexivity. Qed.
Lemma og_found cs : cs = og_cells \/ cs = multiplied og_times og_cells -> found_in (fst (og_part cs)) og_points (og_ptrs cs).
Proof. intros [->| ->]; repeat constructor; eexists; vm_compute; reflexivity. Qed.
