From Coq Require Import List Arith Reals.
From Verif Require Import Err GradientR_Model GradientR_Spec LpSamples_Model.
Import ListNotations.
Local Open Scope R_scope.

(** loc + scale * x, coordinate by coordinate *)
Definition affine (scale loc x : list R) : list R := map (fun e => snd e + fst (fst e) * snd (fst e)) (combine (combine scale x) loc).
(** The draws for samples of dimension dim; not all gamma draws or all signs are 0 *)
Definition drawn (dim : nat) (w : draws) : Prop := length (gammas w) = dim /\ length (normals w) = dim /\ length (uniforms w) = dim.
Definition not_zero (w : draws) : Prop := exists j, nth j (gammas w) 0 <> 0 /\ nth j (normals w) 0 <> 0.
(** F is the distribution function of the beta distribution with parameters a and 1
    on (0, 1]: its density is a t^(a-1). *)
Definition beta_distribution (a : R) (F : R -> R) : Prop :=
  F 1 = 1 /\ (forall t, 0 < t <= 1 -> continuity_pt F t) /\ forall t, 0 < t < 1 -> derivable_pt_lim F t (a * Rpower t (a - 1)).
(** The ball with radii t * scale *)
Definition smaller (t : R) (scale : list R) : list R := map (Rmult t) scale.
(** The same draws with the signs of some normal draws changed *)
Definition signs (e : list R) : Prop := Forall (fun x => x = 1 \/ x = -1) e.
Definition mirror (e : list R) (w : draws) : draws := mk_draws (gammas w) (map (fun p => fst p * snd p) (combine e (normals w))) (betas w) (uniforms w).
