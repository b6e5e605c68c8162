(** bet/sampling/useLUQ.py: clusters learned by LUQ handed to calculateR. *)
From Coq Require Import ZArith List Arith Bool.
From Verif Require Import Err Num NumPy Inverse_Model.
Import ListNotations.
Local Open Scope nat_scope.
Local Open Scope err_scope.

(** What LUQ has learned: labels and transformed data of the predictions and of
    the observations; every process runs the same computation and has all of it
    (lines 75-81 evaluate the model at the global values). *)
Record luq (V : Type) := mk_luq { predict_labels : list Z; predict_maps : list (list V); obs_labels : list Z; obs_maps : list (list V) }.
Arguments mk_luq {V}. Arguments predict_labels {V}. Arguments predict_maps {V}. Arguments obs_labels {V}. Arguments obs_maps {V}.

(** sample.py:1227-1235, local_to_global of one array: the local arrays of the P
    processes, one after the other; make_disc (lines 151, 155) stores the whole
    label array as the local array of every process. *)
Definition gathered {A} (P : nat) (local : list A) : list A := concat (repeat local P).
(** make_disc, lines 143-173: the global region of the predicted set and that of
    the observed set.  discretization.local_to_global (sample.py:2819-2833) leaves
    out the observed set, so its global region only exists if there is a second
    discretization (lines 165-171). *)
Definition make_disc_regions {V} (P : nat) (has_obs_set : bool) (l : luq V) : list Z * option (list Z) :=
  (gathered P (predict_labels l), if has_obs_set then Some (gathered P (obs_labels l)) else None).
(** calculateR.invert on the result.  The sets have no values: check_num counts the
    labels, or sums the lengths of the local arrays if there is no global one
    (sample.py:743-747).  If one of the two sets has no region, both get the label 0
    everywhere (calculateR.py:38-41, [regions_used]).  The second local_to_global
    (line 34) changes nothing.  gaussian_kde is taken to succeed. *)
Definition luq_invert {V R} (zero : R) (P : nat) (has_obs_set : bool) (l : luq V) (ratio : nat -> V -> R)
  : result (list R * list (option (list R)) * list (list nat)) :=
  let '(regions, oregions) := make_disc_regions P has_obs_set l in
  let '(regions, oregions) := regions_used (Some regions) oregions (length regions) (P * length (obs_labels l)) in
  fold_result (invert_step (Some (predict_maps l)) (Some (obs_maps l)) [] regions oregions ratio)
              (seq 0 (length (predict_maps l))) (repeat zero (length regions), [], []).
