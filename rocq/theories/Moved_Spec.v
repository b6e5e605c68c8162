From Coq Require Import List Arith QArith Qcanon.
From Verif Require Import Err Num SampleSet_Model SampleSet_Spec Disc_Model Disc_Spec Prob_Spec Workflow_Model Workflow_Spec Emulated_Spec Moved_Model.
Import ListNotations.
Local Open Scope nat_scope.

(** A sample set of dimension d with samples xs and probabilities q as the
    processes see them: distributed over them, or only in the global arrays. *)
Definition distributed (d : nat) (xs : list cell) (q : list Qc) (s : sset cell) : Prop :=
  exists B Q, loc s Values = Some (map (fun b => mk_arr b [d]) B) /\ concat B = xs /\ loc s Probabilities = Some (map vec_arr Q) /\ concat Q = q /\ same_lengths Q B.
Definition undistributed (d : nat) (xs : list cell) (q : list Qc) (s : sset cell) : Prop :=
  loc s Values = None /\ glob s Values = Some (mk_arr xs [d]) /\ glob s Probabilities = Some (vec_arr q).
Definition carries (d : nat) (xs : list cell) (q : list Qc) (s : sset cell) : Prop :=
  valid_set s (length xs) /\ dim s = d /\ (distributed d xs q s \/ undistributed d xs q s).
(** A sample set with samples zs that can be asked for nearest samples *)
Definition target (d : nat) (zs : list cell) (s : sset cell) : Prop :=
  valid_set s (length zs) /\ tree_current s /\ dim s = d /\ glob s Values = Some (mk_arr zs [d]).
(** New sample j gets the probabilities of all old samples whose nearest new sample
    it is. *)
Definition moved (nn : list cell -> cell -> nat) (zs xs : list cell) (q : list Qc) : list Qc := map (probability_in nn zs xs q) (seq 0 (length zs)).
