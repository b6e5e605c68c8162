From Coq Require Import List Reals.
Import ListNotations.
Local Open Scope R_scope.

(** Sum, inner product, length, and cosine of the angle of two vectors (0 if one
    of them is zero). *)
Fixpoint total (l : list R) : R := match l with [] => 0 | x :: r => x + total r end.
Fixpoint inner (a b : list R) : R := match a, b with x :: a', y :: b' => x * y + inner a' b' | _, _ => 0 end.
Definition vlength (a : list R) : R := sqrt (inner a a).
Definition cosine (a b : list R) : R :=
  if Req_EM_T (vlength a) 0 then 0 else if Req_EM_T (vlength b) 0 then 0 else inner a b / (vlength a * vlength b).
(** The gradient of QoI i at a center is row i of its Jacobian. *)
Definition gradient (m : list (list R)) (i : nat) : list R := nth i m [].
Definition average_cosine (jac : list (list (list R))) (i j : nat) : R :=
  total (map (fun m => cosine (gradient m i) (gradient m j)) jac) / INR (length jac).
Definition vanishes (jac : list (list (list R))) (i : nat) : Prop := exists m, In m jac /\ forall x, In x (gradient m i) -> x = 0.
Definition similar (jac : list (list (list R))) (tol : R) (i j : nat) : Prop := tol < Rabs (average_cosine jac i j).

(** The kept QoIs are a maximal set of dissimilar QoIs with (if asked) nowhere
    vanishing gradients. *)
Definition maximal_dissimilar (jac : list (list (list R))) (tol : R) (remove_zeros : bool) (qois kept : list nat) : Prop :=
  NoDup kept /\ incl kept qois /\
  (remove_zeros = true -> forall i, In i kept -> ~ vanishes jac i) /\
  (forall i j, In i kept -> In j kept -> i <> j -> ~ similar jac tol i j) /\
  (forall j, In j qois -> ~ In j kept -> (remove_zeros = true /\ vanishes jac j) \/ exists i, In i kept /\ similar jac tol i j).
