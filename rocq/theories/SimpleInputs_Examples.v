(** Concrete cases for the properties about the arguments of simpleFunP. *)
From Coq Require Import List Arith Bool QArith Qcanon Lia.
From Verif Require Import Err Num Show SimpleInputs_Model SimpleInputs_Spec Bounds_Spec.
Import ListNotations.
Local Open Scope nat_scope.

Definition ex_rows : list (list Qc) := [[0; 1]; [Q2Qc 2; 1 + 1 + 1]]%Qc.
Definition ex_disc : data_arg := DDisc 2 (Some [1; Q2Qc 2]%Qc) ex_rows.
Lemma ex_disc_reference : data_dim ex_disc = Some 2 /\ intended_reference ex_disc NNone 2 [1; Q2Qc 2]%Qc /\ ~ is_array ex_disc.
Proof. split; [reflexivity|]. split; [right; repeat split|]. intros (d & vs & E). discriminate. Qed.
Lemma ex_disc_rows : data_rows ex_disc <> [] /\ Forall (fun x => length x = 2) (data_rows ex_disc).
Proof. split; [discriminate|]. repeat constructor. Qed.
Lemma ex_positive : all_positive [1; Q2Qc 2]%Qc.
Proof. intros x [<-|[<-|[]]]; reflexivity. Qed.
Lemma ex_scaled : match uniform_rectangle_scaled ex_disc NNone (NNum (Q2Qc (1 # 2))) [[1; 0]]%Qc [[1; 0]]%Qc with
  | Ok p => (map (map this) (fst p), map (map this) (snd p)) | Raise _ => ([], []) end =
  ([[7 # 4; 5 # 4]], [[3 # 2; 3 # 2]])%Q.
Proof. vm_compute. reflexivity. Qed.
(** A box of two parameters given like a domain (one row per parameter) is read
    as two corners: [0,1] x [10,20] becomes [0,10] x [1,20]. *)
Lemma ex_transposed_domain : match uniform_rectangle_domain (DSet 2 None []) [[0; 1]; [Q2Qc 10; Q2Qc 20]]%Qc [] [[0; 0]; [1; 1]]%Qc with
  | Ok p => map (map this) (snd p) | Raise _ => [] end = [[0; 1]; [10; 20]]%Q.
Proof. vm_compute. reflexivity. Qed.
