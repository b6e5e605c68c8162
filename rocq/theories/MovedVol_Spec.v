From Coq Require Import List Arith QArith Qcanon.
From Verif Require Import Err Num SampleSet_Model SampleSet_Spec Disc_Model Disc_Spec Prob_Spec Workflow_Model Workflow_Spec Moved_Spec.
Import ListNotations.
Local Open Scope nat_scope.

(** Emulated samples es, distributed over the processes or only in the global
    arrays *)
Definition emulates (d : nat) (es : list cell) (s : sset cell) : Prop :=
  valid_set s (length es) /\ dim s = d /\
  ((exists B, loc s Values = Some (map (fun b => mk_arr b [d]) B) /\ concat B = es) \/ loc s Values = None /\ glob s Values = Some (mk_arr es [d])).
(** Old samples xs with global probabilities q *)
Definition known (d : nat) (xs : list cell) (q : list Qc) (s : sset cell) : Prop :=
  target d xs s /\ glob s Probabilities = Some (vec_arr q) /\ nonneg q.
(** Emulated sample e gets the probability of the old sample nearest to it, divided
    by the number of emulated samples that have the same nearest old sample. *)
Definition spread (nn : list cell -> cell -> nat) (xs es : list cell) (q : list Qc) : list Qc :=
  map (fun e => (nth (nn xs e) q 0 / qn (length (filter (fun e' => nn xs e' =? nn xs e) es)))%Qc) es.
(** The old samples with positive probability that have an emulated sample nearest
    to them: all of them, or at least one *)
Definition all_seen (nn : list cell -> cell -> nat) (xs es : list cell) (q : list Qc) : Prop :=
  forall i p, nth_error q i = Some p -> (0 < p)%Qc -> exists e, In e es /\ nn xs e = i.
Definition one_seen (nn : list cell -> cell -> nat) (xs es : list cell) (q : list Qc) : Prop :=
  exists i p e, nth_error q i = Some p /\ (0 < p)%Qc /\ In e es /\ nn xs e = i.
