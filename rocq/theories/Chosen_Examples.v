(** Five samples with two coordinates; the model returns sum, difference and double *)
From Coq Require Import List Arith QArith Qcanon Lia.
From Verif Require Import Err Num SampleSet_Model SampleSet_Spec Disc_Model Disc_Spec Disc_Examples Workflow_Model Workflow_Spec Workflow_Examples Chosen_Model Chosen_Spec.
Import ListNotations.
Local Open Scope nat_scope.

Definition three_outputs (c : cell) : cell := match c with Vec [Num a; Num b] => Vec [Num (a + b)%Qc; Num (a - b)%Qc; Num (a + a)%Qc] | _ => c end.
Definition three_model (b : arr cell) : arr cell := mk_arr (map three_outputs (rows b)) [3].
Definition plane : list cell := map (fun a => Vec [Num a; Num (1 - a)%Qc]) [0%Qc; Q2Qc (1 # 4); Q2Qc (3 # 4); Q2Qc (1 # 3); 1%Qc].
Definition square : option (list (Qc * Qc)) := Some [(0%Qc, 1%Qc); (0%Qc, 1%Qc)].
Lemma plane_choice P : 0 < P -> choice P 2 3 three_outputs three_model square [1] [2] plane two thirds.
Proof.
  intros H. split; [exact H|]. split; [intros b; reflexivity|]. split; [discriminate|]. split.
  { intros x Hx. apply in_map_iff in Hx. destruct Hx as (a & <- & _). split; eexists; split; reflexivity. }
  split; [intros r [= <-]; reflexivity|]. do 2 (split; [intros i [<-|[]]; lia|]). do 3 (split; [discriminate|]). split; [reflexivity|exact thirds_nonneg].
Qed.
(** The model that computes only the double of the first coordinate *)
Definition one_model (b : arr cell) : arr cell := mk_arr (map (fun x => only [2] (three_outputs x)) (rows b)) [1].
Definition show_rows (r : result (disc cell)) : option (list (list Q)) := option_map (map (fun c => match c with Vec l => map (fun e => match e with Num q => this q | _ => 0%Q end) l | _ => [] end)) (sample_of r).
