From Coq Require Import List Arith QArith Qcanon.
From Verif Require Import Err Num SampleSet_Model SampleSet_Spec Disc_Model Disc_Spec Prob_Spec Workflow_Model Workflow_Spec Emulated_Model.
Import ListNotations.
Local Open Scope nat_scope.

(** The output at a point is that of the nearest sample. *)
Definition nearest_output (nn : list cell -> cell -> nat) (xs : list cell) (g : cell -> cell) (e : cell) : cell := g (nth (nn xs e) xs e).
(** Samples, outputs, cells with probabilities, and emulated points; nn answers with
    the number of one of the points it is asked about. *)
Definition emulation (nn : list cell -> cell -> nat) (P d o : nat) (g : cell -> cell) (model : arr cell -> arr cell) (xs ys es : list cell) (probs : list Qc) : Prop :=
  0 < P /\ row_model d o g model /\ xs <> [] /\ ys <> [] /\ es <> [] /\ length probs = length ys /\ nonneg probs /\ (forall e, In e es -> nn xs e < length xs).
Definition repaired (k : assembled) : Prop := match k with Stored _ Nothing => False | _ => True end.
(** Probabilities and values of the emulated samples *)
Definition emulated_probs_of (r : result (disc cell)) : option (list cell) :=
  match r with Ok d => match d_ein d with Some s => option_map rows (glob s Probabilities) | None => None end | Raise _ => None end.
Definition emulated_values_of (r : result (disc cell)) : option (list cell) :=
  match r with Ok d => match d_ein d with Some s => option_map rows (glob s Values) | None => None end | Raise _ => None end.
(** The part of the emulated points that lies in the cell of sample j, and the
    probability of these points *)
Definition fraction_in (nn : list cell -> cell -> nat) (xs es : list cell) (j : nat) : Qc := (qn (length (filter (fun e => nn xs e =? j) es)) / qn (length es))%Qc.
Definition probability_in (nn : list cell -> cell -> nat) (xs es : list cell) (q : list Qc) (j : nat) : Qc :=
  qsum (map snd (filter (fun eq => nn xs (fst eq) =? j) (combine es q))).
