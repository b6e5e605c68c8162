From Coq Require Import List Arith QArith Qcanon.
From Verif Require Import Err Num SampleSet_Model Disc_Model Prob_Spec Workflow_Model Workflow_Spec Refined_Model.
Import ListNotations.
Local Open Scope nat_scope.

(** The samples after some changes *)
Definition current (cs : list change) (xs : list cell) : list cell :=
  fold_left (fun zs c => match c with SetValues ws => ws | AppendValues ws => zs ++ ws end) cs xs.
(** The evaluated samples and their outputs *)
Definition outputs_of (r : result (disc cell)) : option (list cell) :=
  match r with Ok d => match d_out d with Some s => option_map rows (glob s Values) | None => None end | Raise _ => None end.
(** Run r shows the solution for the samples zs and the model g. *)
Definition solves (nn : list cell -> cell -> nat) (g : cell -> cell) (zs ys : list cell) (probs : list Qc) (r : result (disc cell)) : Prop :=
  sample_of r = Some zs /\ outputs_of r = Some (map g zs) /\
  global_probabilities r = Some (map Num (solution (fun x => nn ys (g x)) probs (combine zs (repeat (1 / qn (length zs))%Qc (length zs))))).
(** A run with a model that works row by row and output probabilities [probs] of the
    cells [ys] *)
Definition run_for (d : nat) (g : cell -> cell) (ys : list cell) (probs : list Qc) (r : run) : Prop :=
  exists o dom, row_model d o g (model_of r) /\ outputs r = probability_set o dom ys probs /\ ys <> [] /\ length probs = length ys /\ nonneg probs.
(** The samples that a run uses: those after the changes, unless it starts with the
    evaluation of the model. *)
Definition used (r : run) (xs : list cell) : list cell := match starts r with Evaluate => xs | _ => current (changes r) xs end.
Definition all_used (rs : list run) (xs : list cell) : list cell := fold_left (fun zs r => used r zs) rs xs.
(** The number of samples used changes at most in the first of the runs. *)
Fixpoint same_number (fresh : bool) (rs : list run) (xs : list cell) : Prop :=
  match rs with
  | [] => True
  | r :: t => used r xs <> [] /\ (fresh = true \/ length (used r xs) = length xs) /\ same_number false t (used r xs)
  end.
Definition usual (d : nat) (rs : list run) : Prop := Forall (fun r => exists g ys probs, run_for d g ys probs r) rs.
