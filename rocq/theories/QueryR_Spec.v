(** The norms of vectors of numbers. *)
From Coq Require Import List Reals QArith Qcanon Qreals.
Import ListNotations.

Inductive norm_name := One | Two | Inf.
Definition real (q : Qc) : R := Q2R (this q).
Definition rsum (l : list R) : R := fold_right Rplus 0%R l.
Definition norm (p : norm_name) (v : list R) : R :=
  match p with
  | One => rsum (map Rabs v)
  | Two => sqrt (rsum (map (fun c => c * c)%R v))
  | Inf => fold_right Rmax 0%R (map Rabs v)
  end.
(** x lies in the open ball. *)
Definition in_ball (p : norm_name) (x c : list Qc) (r : Qc) : Prop :=
  (norm p (map (fun e => real (fst e) - real (snd e))%R (combine x c)) < real r)%R.
