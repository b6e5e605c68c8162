(** What the error estimates say about probabilities of regions. *)
From Coq Require Import List Arith Bool QArith Qcanon.
From Verif Require Import Err Num Ext NumPy SampleSet_Model SampleSet_Spec Prob_Spec Disc_Model Disc_Spec Error_Spec ErrorDisc_Model ErrorDisc_Spec SampErr_Model SampErr_Spec.
Import ListNotations.
Local Open Scope nat_scope.

(** The problem with its outputs, and with the corrected ones: output plus
    error estimate. *)
Definition as_given (b : problem) : survey := mk_survey (p_in b) (p_out b) (samples b) (map row (outputs b)) (cells b).
Definition corrected (b : problem) : survey :=
  mk_survey (p_in b) (p_out b) (samples b) (map (fun ze => row (plus (fst ze) (snd ze))) (combine (outputs b) (estimates b))) (cells b).

(** Outputs z and error estimates e as functions of the sample. *)
Definition model_problem (di o : nat) (xs : list cell) (z e : cell -> list Qc) (ys : list cell) (probs : list Qc) (em : option (list cell)) : problem :=
  mk_problem di o xs (map z xs) (map e xs) ys probs em.

(** The probabilities stored in the emulated input set. *)
Definition point_probabilities (r : result (disc cell)) : option (list cell) :=
  match r with Ok d => match d_ein d with Some s => option_map rows (glob s Probabilities) | None => None end | Raise _ => None end.
(** The probability of a region: the sum over the points in it. *)
Definition mass (inr : cell -> bool) (xs : list cell) (q : list Qc) : Qc :=
  qsum (map snd (filter (fun xq => inr (fst xq)) (combine xs q))).

(** The event of a point: that of the nearest sample. *)
Definition event_of (nn : list cell -> cell -> nat) (g : survey) (x : cell) : nat := nth (nn (g_samples g) x) (sample_events nn g) 0.
(** Each event of positive probability has points. *)
Definition every_event_hit (ps : list Qc) (es : list nat) : Prop := forall i p, nth_error ps i = Some p -> (0 < p)%Qc -> In i es.

(** The points that are asked about: in the region or not, and their event.
    Each event spreads its probability evenly over its points. *)
Definition share_of (pts : list (bool * nat)) (i : nat) : Qc :=
  (qn (length (filter (fun e => fst e && (snd e =? i)) pts)) / qn (length (filter (fun e => snd e =? i) pts)))%Qc.
Definition region_probability (ps : list Qc) (pts : list (bool * nat)) : Qc :=
  qsum (map (fun ip => (snd ip * share_of pts (fst ip))%Qc) (events ps)).

(** Other events of the same points: those of an event inside it stay, and a
    point is in an event only if its cell touches it. *)
Definition between (ev : list nat) (nb : nat -> nat -> bool) (ks t : list nat) : Prop :=
  length t = length ks /\
  forall j k i, nth_error ks j = Some k -> nth_error t j = Some i ->
    touches ev nb i k = true /\ forall i', inside ev nb i' k = true -> i' = i.
