(** Distances of marginals (bet/postProcess/compareP.py:195-349).  [f] and [g] are
    the marginal densities pdf1(., i) and pdf2(., i). *)
From Coq Require Import List Arith Reals.
From Verif Require Import Err CompareR_Model.
Import ListNotations.
Local Open Scope R_scope.

(** The names of functionals that are modelled; 'mink' is 'norm' up to its arguments
    and 'kl' of distance_marginal is CompareR_Model.kl. *)
Inductive functional := TV | Euclid | Norm | SqHell | Hell | KL.

(** np.linspace(a, b, n): a + k * step with step = (b - a) / (n - 1); [a] if n = 1. *)
Definition linspace (a b : R) (n : nat) : list R :=
  match n with
  | 1%nat => [a]
  | _ => map (fun k => a + INR k * ((b - a) / INR (n - 1))) (seq 0 n)
  end.
Definition abs_diff (p q : list R) : R := rsum (map (fun e => / 2 * Rabs (fst e - snd e)) (combine p q)).
(** distance_marginal without normalize, lines 234-269, on the interval [a, b], a <= b;
    num_points = 0: 1.0 / 0. *)
Definition distance_marginal (fn : functional) (f g : R -> R) (a b : R) (n : nat) : result R :=
  let x := linspace a b n in
  let p := map f x in
  let q := map g x in
  if Nat.eqb n 0 then Raise PyZeroDivision else
  let factor := 1 / INR n * (last x 0 - hd 0 x) in
  match fn with
  | TV => Ok (factor * abs_diff p q)
  | Euclid => Ok (sqrt factor * sqrt (sq_diff p q))
  | Norm => Ok (sqrt (sq_diff p q))
  | SqHell => Ok (/ 2 * factor * sq_diff (map sqrt p) (map sqrt q))
  | Hell => Ok (sqrt (/ 2 * factor * sq_diff (map sqrt p) (map sqrt q)))
  | KL => match kl p q with Some v => Ok v | None => Raise PyValueError end
  end.
(** distance_marginal_quad, lines 318-349; [quad F a b] is the first result of
    scipy.integrate.quadrature(F, a, b).  Divisions by zero in 'kl' are not modelled:
    the densities are positive. *)
Section Quad.
Context (quad : (R -> R) -> R -> R -> R).
Definition sqhell_quad (f g : R -> R) (a b : R) : R := quad (fun x => / 2 * Rsqr (sqrt (f x) - sqrt (g x))) a b.
Definition distance_quad (fn : functional) (f g : R -> R) (a b : R) : R :=
  match fn with
  | TV => / 2 * quad (fun x => Rabs (f x - g x)) a b
  | Euclid => sqrt (quad (fun x => Rsqr (f x - g x)) a b)
  | Norm => quad (fun x => f x - g x) a b
  | SqHell => sqhell_quad f g a b
  | Hell => sqrt (sqhell_quad f g a b)
  | KL => quad (fun x => f x * ln (f x / g x)) a b
  end.
End Quad.
