From Coq Require Import List Arith QArith Qcanon.
From Verif Require Import Err Num NumPy SampleSet_Model Disc_Model Prob_Spec Workflow_Model Workflow_Spec VolHist_Model.
Import ListNotations.
Local Open Scope nat_scope.

(** The volumes that a call defines for n samples; None if it defines none. *)
Definition defines (n : nat) (c : vol_call) : option (list Qc) :=
  match c with
  | EstimateMC _ => Some (repeat (1 / qn n)%Qc n)
  | Measure _ v | MeasureCells v | SetVolumes v => Some v
  | SetVolumesLocal bs => Some (concat bs)
  | EstimateLocal bs => Some (map (fun v => (v / qsum (concat bs))%Qc) (concat bs))
  | GlobalToLocal | LocalToGlobal | Prob _ => None
  end.
(** Calls with one number for each of the samples xs, the local ones with those
    of its own samples for each process; estimates do not add up to zero. *)
Definition proper (P : nat) (xs : list cell) (c : vol_call) : Prop :=
  match c with
  | Measure _ v | MeasureCells v | SetVolumes v => length v = length xs
  | SetVolumesLocal bs => same_lengths bs (array_split xs P)
  | EstimateLocal bs => same_lengths bs (array_split xs P) /\ qsum (concat bs) <> 0%Qc
  | _ => True
  end.

(** Whether the global and the local array hold the volumes after the call. *)
Inductive stored := InBoth | InGlobal | InLocal.
Definition stores (c : vol_call) : stored :=
  match c with
  | MeasureCells _ | SetVolumes _ => InGlobal
  | SetVolumesLocal _ | EstimateMC false => InLocal
  | _ => InBoth
  end.
(** The first of the calls h that moves arrays: true for global_to_local, false
    for local_to_global. *)
Fixpoint first_move (h : list vol_call) : option bool :=
  match h with
  | [] => None
  | GlobalToLocal :: _ => Some true
  | LocalToGlobal :: _ => Some false
  | _ :: r => first_move r
  end.
(** The volumes defined by the call c are used after the calls h, none of which
    defines volumes. *)
Definition in_use (c : vol_call) (h : list vol_call) : Prop :=
  match stores c with
  | InBoth => True
  | InGlobal => first_move h = Some true
  | InLocal => first_move h <> Some true
  end.
Definition defines_none (h : list vol_call) : Prop := Forall (fun c => defines 0 c = None) h.
(** No call has stored a local array of volumes. *)
Definition only_global (h : list vol_call) : Prop :=
  Forall (fun c => match c with MeasureCells _ | SetVolumes _ | LocalToGlobal | Prob _ => True | _ => False end) h.

(** The result of prob: probabilities q, in blocks like the samples *)
Definition gives (P : nat) (xs : list cell) (g : bool) (q : list Qc) (r : result (disc cell)) : Prop :=
  (g = true -> global_probabilities r = Some (map Num q)) /\
  exists qs, local_probabilities r = Some (map (map Num) qs) /\ concat qs = q /\ same_lengths qs (array_split xs P).
