From Coq Require Import ZArith List Arith Reals.
From Verif Require Import Err CompareR_Model.
Import ListNotations.
Local Open Scope R_scope.

(** A table with nx rows and ny columns. *)
Definition table {A} (nx ny : nat) (t : list (list A)) : Prop := length t = nx /\ forall row, In row t -> length row = ny.
(** Not negative, not all zero. *)
Definition marginal2_ok (t : list (list R)) : Prop :=
  (forall row x, In row t -> In x row -> 0 <= x) /\ exists row x, In row t /\ In x row /\ 0 < x.
(** A table of probabilities: no nan, not negative, sum one. *)
Definition probability_table (nx ny : nat) (t : list (list (option R))) : Prop :=
  exists p, t = map (map Some) p /\ table nx ny p /\ (forall row x, In row p -> In x row -> 0 <= x) /\ rsum (map rsum p) = 1.
(** The joint distribution of independent variables. *)
Definition independent (p q : list R) : list (list R) := map (fun x => map (Rmult x) q) p.
