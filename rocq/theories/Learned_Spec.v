(** Vocabulary for inversions of learned quantities. *)
From Coq Require Import ZArith List Arith QArith Qcanon.
From Verif Require Import Err Num Ext NumPy SampleSet_Model Disc_Model Inverse_Spec Density_Model Density_Spec.
Import ListNotations.
Local Open Scope nat_scope.

(** The learned values of cluster j are the j-th map, in the order of the samples. *)
Definition parted {A} (ys : list A) (ls : list Z) (maps : list (list A)) : Prop :=
  length ls = length ys /\ forall j m, nth_error maps j = Some m -> m = members (combine ys ls) j.
(** A set without values: labels on all processes, perhaps also distributed. *)
Definition keeps_labels (P : nat) (s : sset cell) (ls : list Z) : Prop :=
  let x := mk_arr (map (fun z => Num (Q2Qc (inject_Z z))) ls) [] in
  glob s Region = Some x /\ (loc s Region = None \/ loc s Region = Some (split_arr P x)) /\
  forall a, a <> Region -> glob s a = None /\ loc s a = None.
(** A discretization with learned outputs and observations. *)
Definition learns (P : nat) (d : rdisc) (di : nat) (xs : list (list Qc)) (ls ms : list Z) (pm om : list (list cell)) : Prop :=
  keeps P (arrays (r_in d)) di (map point_row xs) None /\ keeps_labels P (arrays (r_out d)) ls /\ keeps_labels P (arrays (r_obs d)) ms /\
  maps (r_out d) = Some pm /\ maps (r_obs d) = Some om.
(** K clusters, each with two outputs and two observations. *)
Definition two_each (ys : list cell) (ls : list Z) (zs : list cell) (ms : list Z) (K : nat) : Prop :=
  clusters ls K /\ forall j, j < K -> 2 <= length (members (combine ys ls) j) /\ 2 <= length (members (combine zs ms) j).
(** d has learned outputs and observations, v has the same values in the usual way;
    the input sets and the initial weights are the same. *)
Definition twins (P : nat) (d v : rdisc) (di o oo K : nat) (xs : list (list Qc)) (ys zs : list cell) (ls ms : list Z) (pm om : list (list cell)) : Prop :=
  learns P d di xs ls ms pm om /\ stores P v di xs o ys (Some ls) oo zs (Some ms) /\ matching di xs ys (Some ls) zs (Some ms) (weights_init (r_out v)) /\
  r_in d = r_in v /\ weights_init (r_out d) = weights_init (r_out v) /\
  parted ys ls pm /\ parted zs ms om /\ length pm = K /\ K <= length om /\ two_each ys ls zs ms K.
