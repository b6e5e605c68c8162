(** The five samples of Workflow_Examples, and a finer list of seven. *)
From Coq Require Import List Arith QArith Qcanon Lia.
From Verif Require Import Err Num Lists SampleSet_Model SampleSet_Spec Disc_Model Prob_Spec Disc_Spec Disc_Examples Workflow_Model Workflow_Spec Workflow_Examples Stable_Spec Show.
Import ListNotations.
Local Open Scope nat_scope.

Definition other_way : list Qc := [Q2Qc (2 # 3); Q2Qc (1 # 3)].
Definition more : list Qc := [Q2Qc (1 # 2); Q2Qc (2 # 3)].
Lemma five_posed : posed near 2 1 1 double doubling (Given five_volumes) true five two.
Proof.
  split; [lia|]. split; [exact doubling_rows|]. split; [discriminate|]. split; [discriminate|]. split; [exact near_two|]. split; [|discriminate]. intros v [= <-]. exact five_volumes_ok.
Qed.
Lemma five_posed_mc : posed near 2 1 1 double doubling MonteCarlo false five two.
Proof. split; [lia|]. split; [exact doubling_rows|]. split; [discriminate|]. split; [discriminate|]. split; [exact near_two|]. split; [discriminate|reflexivity]. Qed.
Lemma on_two : on_cells two thirds /\ on_cells two other_way /\ on_cells two more.
Proof. split; [split; [reflexivity|exact thirds_nonneg]|]. split; (split; [reflexivity|]); intros x [<-|[<-|[]]]; discriminate. Qed.
Definition seven : list cell := map pt [0%Qc; Q2Qc (1 # 5); Q2Qc (1 # 4); Q2Qc (1 # 3); Q2Qc (3 # 4); Q2Qc (4 # 5); 1%Qc].
Definition seven_volumes : list Qc := map (fun n => Q2Qc (n # 20)) [2; 3; 1; 8; 1; 1; 4]%Z.
Definition seven_parts : list nat := [0; 1; 1; 2; 3; 3; 4].
Lemma seven_posed : posed near 3 1 1 double doubling (Given seven_volumes) true seven two.
Proof.
  split; [lia|]. split; [exact doubling_rows|]. split; [discriminate|]. split; [discriminate|]. split; [exact near_two|]. split; [|discriminate]. intros v [= <-].
  split; [reflexivity|]. intros x Hx. repeat (destruct Hx as [<-|Hx]; [discriminate|]). destruct Hx.
Qed.
Lemma seven_cells : forall j i, nth_error seven_parts j = Some i -> exists c, nth_error (cells_of near double two seven) j = Some c /\ nth_error (cells_of near double two five) i = Some c.
Proof.
  assert (E : cells_of near double two seven = [0; 0; 0; 0; 1; 1; 1]) by (vm_compute; reflexivity). assert (E' : cells_of near double two five = [0; 0; 0; 1; 1]) by (vm_compute; reflexivity). rewrite E, E'.
  intros j i H. do 7 (destruct j as [|j]; [injection H as <-; eexists; split; reflexivity|]). destruct j; discriminate.
Qed.
Lemma seven_totals : forall i v, nth_error five_volumes i = Some v -> v = parts_of seven_parts seven_volumes i.
Proof. intros i v H. do 5 (destruct i as [|i]; [injection H as <-; apply Qc_is_canon; vm_compute; reflexivity|]). destruct i; discriminate. Qed.
