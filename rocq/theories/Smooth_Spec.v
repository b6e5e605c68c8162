From Coq Require Import ZArith List Arith Reals.
From Verif Require Import Err CompareR_Model.
Import ListNotations.
Local Open Scope R_scope.

(** A distribution on bins: not negative, not all zero. *)
Definition marginal_ok (m : list R) : Prop := (forall x, In x m -> 0 <= x) /\ exists x, In x m /\ 0 < x.
(** The result is a probability vector with nx entries. *)
Definition probability_vector (nx : nat) (l : list (option R)) : Prop :=
  exists p, l = map Some p /\ length p = nx /\ (forall x, In x p -> 0 <= x) /\ rsum p = 1.
(** All mass in bin m. *)
Definition unit_mass (nx m : nat) : list R := map (fun j => if Nat.eqb j m then 1 else 0) (seq 0 nx).
(** The entry of bin j is larger than the entries of all other bins. *)
Definition peak_at (p : list R) (j : nat) : Prop :=
  exists x, nth_error p j = Some x /\ forall i y, nth_error p i = Some y -> i <> j -> y < x.
(** The entries of bins j and j+1 are equal and larger than all others. *)
Definition double_peak_at (p : list R) (j : nat) : Prop :=
  exists x, nth_error p j = Some x /\ nth_error p (S j) = Some x /\ forall i y, nth_error p i = Some y -> i <> j -> i <> S j -> y < x.
