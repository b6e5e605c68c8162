(** What the arguments of the simple function approximations mean. *)
From Coq Require Import List Arith QArith Qcanon.
From Verif Require Import Err Num SimpleInputs_Model Bounds_Spec.
Import ListNotations.
Local Open Scope nat_scope.

Definition data_dim (data : data_arg) : option nat :=
  match data with DSet d _ _ | DDisc d _ _ | DArray d _ => Some d | DOther => None end.
Definition data_rows (data : data_arg) : list (list Qc) :=
  match data with DSet _ _ vs | DDisc _ _ vs | DArray _ vs => vs | DOther => [] end.
Definition data_reference (data : data_arg) : option (list Qc) :=
  match data with DSet _ r _ | DDisc _ r _ => r | _ => None end.
Definition is_array (data : data_arg) : Prop := exists d vs, data = DArray d vs.

(** A number stands for the same number in all d coordinates, a sequence for its
    own d entries. *)
Definition means (v : num_arg) (d : nat) (l : list Qc) : Prop :=
  match v with
  | NNum q | NNpInt q => l = repeat q d
  | NList m | NArr m => l = m /\ length m = d
  | NNone => False
  end.
(** The reference value: the one given, or else the one stored with the data. *)
Definition intended_reference (data : data_arg) (Q : num_arg) (d : nat) (c : list Qc) : Prop :=
  means Q d c \/ (Q = NNone /\ data_reference data = Some c /\ length c = d).

(** The box with center c whose side j is 2 * h * s_j. *)
Definition centered_box (h : Qc) (c s : list Qc) : list (Qc * Qc) :=
  map (fun p => (fst p - h * snd p, fst p + h * snd p)%Qc) (combine c s).
Definition all_positive (s : list Qc) : Prop := forall x, In x s -> (0 < x)%Qc.
(** The sides of a box, times the factors. *)
Definition scaled_sides (b : list (Qc * Qc)) (f : list Qc) : list Qc :=
  map (fun p => ((snd (fst p) - fst (fst p)) * snd p)%Qc) (combine b f).
(** The box with the opposite corners a and b. *)
Definition corner_box (a b : list Qc) : list (Qc * Qc) :=
  map (fun p => (qmin (fst p) (snd p), qmax (fst p) (snd p))) (combine a b).
