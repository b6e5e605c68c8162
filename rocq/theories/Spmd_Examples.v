(** Concrete runs for Spmd_Props.v. *)
From Coq Require Import List Arith QArith Qcanon.
From Verif Require Import Err Num SampleSet_Model Spmd_Model.
Import ListNotations.
Local Open Scope nat_scope.

(** Two processes with two and one sample, two output cells. *)
Definition ex_probs : list Qc := [Q2Qc (1 # 4); Q2Qc (3 # 4)].
Definition ex_ptrs : list (list nat) := [[0; 1]; [1]].
Definition ex_vols : list (list Qc) := [[Q2Qc (1 # 2); Q2Qc (1 # 4)]; [Q2Qc (1 # 4)]].
(** as above, but one volume is missing on process 1 *)
Definition ex_short : list (list nat * list Qc) := [([0; 1], [Q2Qc (1 # 2); Q2Qc (1 # 4)]); ([1], [])].

Definition col (l : list Z) : arr Qc := mk_arr (map (fun z => Q2Qc (inject_Z z)) l) [].
(** A sample set on two processes with local volumes only. *)
Definition ex_set : sset Qc :=
  mk_sset 1 (fun _ => None)
    (fun a => match a with Volumes => Some [col [1; 2]; col [3]] | _ => None end)%Z None None None None.
(** as above, and process 1 has two probabilities for its one sample *)
Definition ex_bad_set : sset Qc :=
  mk_sset 1 (fun _ => None)
    (fun a => match a with Volumes => Some [col [1; 2]; col [3]]
              | Probabilities => Some [col [5; 6]; col [7; 8]] | _ => None end)%Z None None None None.
(** Process 0 has the probabilities x and process 1 has the volumes y. *)
Definition ex_left {R} (x : arr R) : rset R :=
  mk_rset 1 (fun _ => None) (fun a => match a with Probabilities => Some x | _ => None end) None.
Definition ex_right {R} (y : arr R) : rset R :=
  mk_rset 1 (fun _ => None) (fun a => match a with Volumes => Some y | _ => None end) None.
