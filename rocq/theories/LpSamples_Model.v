(** bet/sampling/LpGeneralizedSamples.py: the three samplers, over the reals. *)
From Coq Require Import List Arith Reals.
From Verif Require Import Err GradientR_Model.
Import ListNotations.
Local Open Scope R_scope.
Local Open Scope err_scope.

(** The parameter p: a float or numpy.inf *)
Inductive expo := Finite (p : R) | Infinite.
(** np.sign *)
Definition sign (x : R) : R := if Rlt_dec x 0 then -1 else if Rlt_dec 0 x then 1 else 0.
(** np.abs(x)**(1. / p); 1. / inf is 0 and x**0 is 1, also for x = 0 *)
Definition root (p : expo) (x : R) : R := match p with Finite q => rpow (Rabs x) (1 / q) | Infinite => 1 end.
(** The random numbers for one sample: standard gamma draws (np.random.gamma with
    scale s returns s times such a draw; for shape 0 the draw is 0), randn draws,
    the draw of np.random.beta, and draws of np.random.random. *)
Record draws := mk_draws { gammas : list R; normals : list R; betas : R; uniforms : list R }.

(** Scale and location have one number per coordinate.  Simplification: a number is
    repeated beforehand, loc=None is a list of zeros, and arrays of length 1 are not
    broadcast.  Other lengths raise ValueError. *)
Definition fitting (dim : nat) (scale loc : list R) : bool := (length scale =? dim)%nat && (length loc =? dim)%nat.

(** LpGeneralizedSamples.py:31-39 Lp_generalized_normal.  1. / 0. raises
    ZeroDivisionError; np.random.gamma refuses a negative shape or scale. *)
Definition normal_row (p : expo) (scale loc : list R) (w : draws) : list R :=
  map (fun e => root p (snd (fst (fst e)) * fst (fst (fst e))) * sign (snd (fst e)) + snd e) (combine (combine (combine (gammas w) scale) (normals w)) loc).
Definition shape_ok (p : expo) : result unit :=
  match p with Finite q => if Req_EM_T q 0 then Raise PyZeroDivision else if Rlt_dec q 0 then Raise PyValueError else Ok tt | Infinite => Ok tt end.
Fixpoint no_negative (l : list R) : result unit :=
  match l with [] => Ok tt | x :: t => if Rlt_dec x 0 then Raise PyValueError else no_negative t end.
Definition lp_generalized_normal (dim : nat) (p : expo) (scale loc : list R) (ws : list draws) : result (list (list R)) :=
  do _ <- shape_ok p ;
  do _ <- no_negative scale ;
  if fitting dim scale loc then Ok (map (normal_row p scale loc) ws) else Raise PyValueError.
Definition ones (dim : nat) : list R := repeat 1 dim.
Definition zeros (dim : nat) : list R := repeat 0 dim.
(** np.random.beta refuses parameters that are not positive *)
Definition beta_ok (a b : R) : result unit := if Rlt_dec 0 a then if Rlt_dec 0 b then Ok tt else Raise PyValueError else Raise PyValueError.

(** 42-75 Lp_generalized_uniform; the draws of the beta distribution are those for
    a=dim, b=1.  Rows of zeros are divided by 0 in Python; they are excluded in the
    theorems.  lp_uniform, linf_uniform: GradientR_Model. *)
Definition uniform_row (dim : nat) (q : R) (scale loc : list R) (w : draws) : list R :=
  lp_uniform q (normal_row (Finite q) (ones dim) (zeros dim) w) (betas w) scale loc.
Definition lp_generalized_uniform (dim : nat) (p : expo) (scale loc : list R) (ws : list draws) : result (list (list R)) :=
  match p with
  | Finite q => do _ <- shape_ok p ; do _ <- beta_ok (INR dim) 1 ;
                if fitting dim scale loc then Ok (map (uniform_row dim q scale loc) ws) else Raise PyValueError
  | Infinite => if fitting dim scale loc then Ok (map (fun w => linf_uniform (uniforms w) scale loc) ws) else Raise PyValueError
  end.
(** 78-108 Lp_generalized_beta; the draws are those for a=dim/p, b=d/p.  For p = inf
    both are 0. *)
Definition beta_row (dim : nat) (q : R) (scale loc : list R) (w : draws) : list R :=
  lp_beta q (normal_row (Finite q) (ones dim) (zeros dim) w) (betas w) scale loc.
Definition lp_generalized_beta (dim : nat) (p : expo) (d : R) (scale loc : list R) (ws : list draws) : result (list (list R)) :=
  match p with
  | Finite q => do _ <- shape_ok p ; do _ <- beta_ok (INR dim / q) (d / q) ;
                if fitting dim scale loc then Ok (map (beta_row dim q scale loc) ws) else Raise PyValueError
  | Infinite => do _ <- beta_ok 0 0 ; Raise PyValueError
  end.
