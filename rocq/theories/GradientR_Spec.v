(** Specification vocabulary for radial basis functions and Lp balls. *)
From Coq Require Import List Reals.
From Verif Require Import GradientR_Model.
Import ListNotations.
Local Open Scope R_scope.

(** x with coordinate i replaced by t *)
Definition put (x : list R) (i : nat) (t : R) : list R := firstn i x ++ t :: skipn (S i) x.

(** df/dx_i at x is l *)
Definition has_partial (f : list R -> R) (x : list R) (i : nat) (l : R) : Prop :=
  derivable_pt_lim (fun t => f (put x i t)) (nth i x 0) l.

(** A sum of kernels centered at the points *)
Definition kernel_sum (phi : R -> R) (pts : list (list R)) (coef : list R) (x : list R) : R :=
  rsum (map (fun p => snd p * phi (dist x (fst p))) (combine pts coef)).
Definition interpolates (f : list R -> R) (pts : list (list R)) (vals : list R) : Prop :=
  map f pts = vals.

(** What numpy.linalg.solve guarantees if it does not raise *)
Definition solves (solve : list (list R) -> list R -> option (list R)) : Prop :=
  forall m b w, solve m b = Some w -> length w = length m /\ mat_vec m w = b.

(** (x - loc) / scale lies in the unit ball of the p-norm, |.|_p <= 1, stated
    for the sum of p-th powers; and for the maximum norm *)
Definition in_lp_ball (p : R) (scale loc x : list R) : Prop :=
  length x = length loc /\
  rsum (map (fun e => rpow (Rabs ((snd (fst e) - snd e) / fst (fst e))) p) (combine (combine scale x) loc)) <= 1.
Definition in_linf_ball (scale loc x : list R) : Prop :=
  length x = length loc /\
  forall j, (j < length x)%nat -> Rabs (nth j x 0 - nth j loc 0) <= nth j scale 0.
