From Coq Require Import ZArith List Arith.
From Verif Require Import Inverse_Spec Luq_Model.
Import ListNotations.
Local Open Scope nat_scope.

(** Labels and transformed data belong together: at least two clusters, known to
    the predictions and to the observations; map i has one row for each prediction
    with label i; every map has the two rows a density estimate needs. *)
Definition learned {V} (l : luq V) : Prop :=
  2 <= length (predict_maps l) /\ length (obs_maps l) = length (predict_maps l) /\
  (forall z, In z (predict_labels l) -> (0 <= z < Z.of_nat (length (predict_maps l)))%Z) /\
  (forall i m, nth_error (predict_maps l) i = Some m -> length m = count_label (predict_labels l) i /\ 2 <= length m) /\
  (forall m, In m (obs_maps l) -> 2 <= length m).
(** The transformed data of sample k: the row of its cluster's map that has the
    same rank among the samples of the cluster. *)
Definition transformed {V} (l : luq V) (k : nat) (i : nat) (v : V) : Prop :=
  nth_error (predict_labels l) k = Some (Z.of_nat i) /\
  exists ptr p m, positions (predict_labels l) i ptr /\ nth_error ptr p = Some k /\
    nth_error (predict_maps l) i = Some m /\ nth_error m p = Some v.
