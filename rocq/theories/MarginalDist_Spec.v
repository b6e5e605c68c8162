From Coq Require Import List Arith Reals.
From Verif Require Import Err MarginalDist_Model.
Import ListNotations.
Local Open Scope R_scope.

(** v is the integral of h over [a, b]. *)
Definition integral (h : R -> R) (a b v : R) : Prop := exists pr : Riemann_integrable h a b, RiemannInt pr = v.
(** The quadrature is exact for h. *)
Definition accurate (quad : (R -> R) -> R -> R -> R) (h : R -> R) (a b : R) : Prop := integral h a b (quad h a b).
Definition lipschitz (L : R) (h : R -> R) (a b : R) : Prop :=
  forall x y, a <= x <= b -> a <= y <= b -> Rabs (h x - h y) <= L * Rabs (x - y).
(** Bound for the error with n points. *)
Definition sum_error (L a b : R) (n : nat) : R := L * Rsqr (b - a) * (/ INR n + / INR (n - 1)).
(** f is a probability density on [a, b]. *)
Definition density (f : R -> R) (a b : R) : Prop := (forall x, a <= x <= b -> 0 <= f x) /\ integral f a b 1.
