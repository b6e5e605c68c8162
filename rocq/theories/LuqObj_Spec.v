(** What the object should hold after a history of calls, read backwards: each
    function looks at the history from its newest call on. *)
From Coq Require Import ZArith List Arith.
From Verif Require Import Err Inverse_Spec Luq_Model LuqObj_Model.
Import ListNotations.
Local Open Scope nat_scope.

Section Spec.
Context {X T S L V : Type} (E : environment X T S L V) (p0 : lset X) (o0 : option (lset X)) (t0 : T).
Notation history := (list (@call X T S L)).

(** The two sample sets: the last values given to them, gathered since. *)
Fixpoint predict_set_by (h : history) : lset X :=
  match h with
  | [] => p0
  | SetPredictValues s :: _ => s
  | MakeDisc :: h => globalized (predict_set_by h)
  | _ :: h => predict_set_by h
  end.
Fixpoint obs_set_by (h : history) : option (lset X) :=
  match h with
  | [] => o0
  | SetObsValues s :: h => match o0 with Some _ => Some s | None => None end
  | MakeDisc :: h => option_map globalized (obs_set_by h)
  | _ :: h => obs_set_by h
  end.
(** The model's answer for a sample set. *)
Definition answer (s : lset X) : option S := match lb_model E (ls_values s) t0 with Ok y => Some y | Raise _ => None end.
Definition answer_opt (s : option (lset X)) : option S := match s with Some s => answer s | None => None end.
(** The predictions: the model at the samples as they were when it was last asked. *)
Fixpoint predictions_by (h : history) : option S :=
  match h with
  | [] => None
  | GetPredictions :: h | Setup :: h => answer (predict_set_by h)
  | _ :: h => predictions_by h
  end.
(** The observations: the last ones given or computed. *)
Fixpoint observations_by (h : history) : option S :=
  match h with
  | [] => None
  | GetObs :: h | Setup :: h => answer_opt (obs_set_by h)
  | SetObserved s :: _ => s
  | _ :: h => observations_by h
  end.
Definition built (p o : option S) (t : T) : option L := match new_luq E p o t with Ok l => Some l | Raise _ => None end.
(** The learner: built from the series given, or else from the stored ones, and
    everything it was asked to do since. *)
Fixpoint learner_by (h : history) : option L :=
  match h with
  | [] => None
  | Initialize p o t :: h =>
      built (match p with Some _ => p | None => predictions_by h end) (match o with Some _ => o | None => observations_by h end)
            (match t with Some v => v | None => t0 end)
  | Setup :: h => built (answer (predict_set_by h)) (answer_opt (obs_set_by h)) t0
  | Learn f :: h => option_map (fun l => fst (f l)) (learner_by h)
  | _ :: h => learner_by h
  end.
(** Calls that build a learner. *)
Definition builds (c : @call X T S L) : bool := match c with Initialize _ _ _ | Setup => true | _ => false end.
End Spec.

(** The model gives one series per sample; LUQ needs predictions and gives one label
    per series. *)
Definition one_label_each {X T S L V} (E : environment X T S L V) (rows : S -> nat) (count : L -> nat) : Prop :=
  (forall xs t s, lb_model E (Some xs) t = Ok s -> rows s = length xs) /\
  (forall o t l, new_luq E None o t <> Ok l) /\
  (forall p o t l, new_luq E (Some p) o t = Ok l -> count l = rows p).
(** The set has these values, and its local arrays, if any, are their parts. *)
Definition has_values {X} (s : lset X) (xs : list X) : Prop :=
  ls_values s = Some xs /\ forall b, ls_local s = Some b -> concat b = xs.
(** Calls that exchange the samples or bring predictions made elsewhere. *)
Definition foreign {X T S L} (c : @call X T S L) : bool :=
  match c with SetPredictValues _ | Initialize (Some _) _ _ => true | _ => false end.
(** A step of the learner that keeps the number of its samples. *)
Definition keeps {L} (count : L -> nat) (f : L -> L * option exn) : Prop := forall l, count (fst (f l)) = count l.
(** What LUQ has learned, complete and in agreement (Luq_Spec). *)
Definition complete {V} (a : learned_data V) (l : luq V) : Prop :=
  (exists d ds, num_pcs a = Some (d :: ds)) /\ plabels a = Some (predict_labels l) /\ pmaps a = Some (predict_maps l) /\
  olabels a = Some (obs_labels l) /\ omaps a = Some (obs_maps l).
