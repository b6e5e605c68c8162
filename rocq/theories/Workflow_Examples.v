(** A small inverse problem: five samples of an interval, the model doubles. *)
From Coq Require Import List Arith QArith Qcanon Lia.
From Verif Require Import Err Num Lists SampleSet_Model SampleSet_Spec Disc_Model Prob_Spec Disc_Spec Disc_Examples Workflow_Model Workflow_Spec Show.
Import ListNotations.
Local Open Scope nat_scope.

Definition double (c : cell) : cell := match c with Vec [Num a] => Vec [Num (a + a)%Qc] | _ => c end.
Definition doubling (a : arr cell) : arr cell := mk_arr (map double (rows a)) [1].
(** The same numbers in a one-dimensional array *)
Definition flat_doubling (a : arr cell) : arr cell := mk_arr (map (fun c => match c with Vec [Num a] => Num (a + a)%Qc | _ => c end) (rows a)) [].
Lemma doubling_rows : row_model 1 1 double doubling.
Proof. intros xs. reflexivity. Qed.
Definition five : list cell := map pt [0%Qc; Q2Qc (1 # 4); Q2Qc (1 # 3); Q2Qc (3 # 4); 1%Qc].
Definition two : list cell := map pt [0%Qc; Q2Qc (2 # 1)].
Definition thirds : list Qc := [Q2Qc (1 # 3); Q2Qc (2 # 3)].
Definition five_volumes : list Qc := map (fun n => Q2Qc (n # 10)) [1; 2; 4; 1; 2]%Z.
Definition show_global (r : result (disc cell)) : option (list Q) := option_map (fun l => concat (map show_cell l)) (global_probabilities r).
Definition show_local (r : result (disc cell)) : option (list (list Q)) := option_map (map (fun l => concat (map show_cell l))) (local_probabilities r).
Lemma thirds_nonneg : nonneg thirds.
Proof. intros x [<-|[<-|[]]]; discriminate. Qed.
Lemma five_volumes_ok : length five_volumes = length five /\ nonneg five_volumes.
Proof. split; [reflexivity|]. intros x [<-|[<-|[<-|[<-|[<-|[]]]]]]; discriminate. Qed.
Lemma near_two y : near two y < length two.
Proof.
  unfold near. destruct (argmin_spec (map (line_dist y) two)) as (d & E & _); [discriminate|]. rewrite <- (map_length (line_dist y) two). apply nth_error_Some. rewrite E. discriminate.
Qed.
Lemma five_solved : show_global (solve near 3 doubling MonteCarlo false true (values_set 1 None five) (probability_set 1 None two thirds)) = Some [1 # 9; 1 # 9; 1 # 9; 1 # 3; 1 # 3]%Q /\
  show_local (solve near 3 doubling MonteCarlo true false (values_set 1 None five) (probability_set 1 None two thirds)) = Some [[1 # 9; 1 # 9]; [1 # 9; 1 # 3]; [1 # 3]]%Q /\
  show_local (solve_local near 3 doubling false (values_set 1 None five) (probability_set 1 None two thirds)) = Some [[1 # 9; 1 # 9]; [1 # 9; 1 # 3]; [1 # 3]]%Q /\
  show_global (solve near 2 doubling (Given five_volumes) true false (values_set 1 None five) (probability_set 1 None two thirds)) = Some [1 # 21; 2 # 21; 4 # 21; 2 # 9; 4 # 9]%Q.
Proof. repeat split; vm_compute; reflexivity. Qed.
