(** bet/postProcess/compareP.py:170-190: the distances with roots and
    logarithms, over the real numbers. *)
From Coq Require Import List Reals.
Import ListNotations.
Local Open Scope R_scope.

Definition rsum (l : list R) : R := fold_right Rplus 0 l.
Definition sq_diff (p q : list R) : R := rsum (map (fun e => Rsqr (fst e - snd e)) (combine p q)).
(** line 179: (factor ** 0.5) * minkowski(p, q, 2) *)
Definition euclid (factor : R) (p q : list R) : R := sqrt factor * sqrt (sq_diff p q).
(** line 181 *)
Definition sqhell (factor : R) (p q : list R) : R := factor * sq_diff (map sqrt p) (map sqrt q) / 2.
(** line 183 without normalize *)
Definition hell (factor : R) (p q : list R) : R := sqrt (sqhell factor p q).
(** lines 163-164 *)
Definition rnorm (p : list R) : list R := map (fun x => x / rsum p) p.
(** scipy.special.rel_entr; None is inf *)
Definition rel_entr (x y : R) : option R :=
  if Rlt_dec 0 x then (if Rlt_dec 0 y then Some (x * ln (x / y)) else None)
  else if Req_EM_T x 0 then (if Rle_dec 0 y then Some 0 else None) else None.
(** lines 184-186: scipy.stats.entropy(p, q), which normalizes both arguments *)
Definition kl (p q : list R) : option R :=
  fold_right (fun x s => match x, s with Some a, Some b => Some (a + b) | _, _ => None end) (Some 0)
    (map (fun e => rel_entr (fst e) (snd e)) (combine (rnorm p) (rnorm q))).
