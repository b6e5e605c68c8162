(** The clusters of Density_Examples, learned. *)
From Coq Require Import ZArith List Arith Bool QArith Qcanon Lia.
From Verif Require Import Err Num Ext NumPy SampleSet_Model Disc_Model Disc_Examples Inverse_Model Inverse_Spec Density_Model Density_Spec Density_Proofs Density_Examples Learned_Spec.
Import ListNotations.
Local Open Scope nat_scope.

Definition labels_set (P : nat) (local : bool) (ls : list Z) : sset cell :=
  mk_sset 1 (fun a => match a with Region => content 1 [] (Some ls) a | _ => None end)
            (fun a => match a with Region => if local then option_map (split_arr P) (content 1 [] (Some ls) a) else None | _ => None end) None None None None.
Definition out_maps : list (list cell) := [map (fun z => pt (Q2Qc z)) [0; 1 # 2; 3]%Q; map (fun z => pt (Q2Qc z)) [5; 6]%Q].
Definition seen_maps : list (list cell) := [map (fun z => pt (Q2Qc z)) [0; 1 # 4]%Q; map (fun z => pt (Q2Qc z)) [5; 5; 8]%Q].
Definition learned_disc (P : nat) (local : bool) (w : option (list Qc)) (ls ms : list Z) (pm om : list (list cell)) : rdisc :=
  mk_rdisc (mk_rset (stored P false false 1 (map point_row in_points) None) None None None None)
           (mk_rset (labels_set P local ls) (Some pm) w None None) (mk_rset (labels_set P local ms) (Some om) None None None).
Definition value_disc (P : nat) (w : option (list Qc)) : rdisc := cluster_disc P false false in_points out_points (Some out_labels) w seen (Some seen_labels).
Lemma labels_keep P local ls : keeps_labels P (labels_set P local ls) ls.
Proof. split; [reflexivity|]. split; [destruct local; [right|left]; reflexivity|]. intros a N. destruct a; try (split; reflexivity). contradiction. Qed.
Lemma learned_learns P local w ls ms pm om : learns P (learned_disc P local w ls ms pm om) 1 in_points ls ms pm om.
Proof. split; [apply stored_keeps; left; reflexivity|]. split; [apply labels_keep|]. split; [apply labels_keep|]. split; reflexivity. Qed.
Lemma learned_twins P local w : w = None \/ w = Some some_weights -> twins P (learned_disc P local w out_labels seen_labels out_maps seen_maps) (value_disc P w) 1 1 1 2 in_points out_points seen out_labels seen_labels out_maps seen_maps.
Proof.
  intros H. split; [apply learned_learns|]. split; [apply cluster_stores; left; reflexivity|]. split; [destruct H as [-> | ->]; [exact two_matching|exact weighted_matching]|]. split; [reflexivity|]. split; [reflexivity|].
  split; [split; [reflexivity|]; intros [|[|[|j]]] m E; cbn in E; try discriminate; injection E as <-; reflexivity|].
  split; [split; [reflexivity|]; intros [|[|[|j]]] m E; cbn in E; try discriminate; injection E as <-; reflexivity|]. split; [reflexivity|]. split; [cbn; lia|].
  split; [exact labels_two|]. intros [|[|j]] J; [vm_compute; lia|vm_compute; lia|lia].
Qed.
