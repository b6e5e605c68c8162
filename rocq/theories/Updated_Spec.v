(** What sampling from an updated measure and its density should be. *)
From Coq Require Import ZArith List Arith QArith Qcanon.
From Verif Require Import Err Num Ext.
Import ListNotations.
Local Open Scope nat_scope.

Definition weights_ok (ws : list Qc) : Prop := (forall w, In w ws -> (0 <= w)%Qc) /\ qsum ws = 1%Qc.
(** Everything drawn from marginal j, cluster by cluster: cluster i is asked for
    the i-th count. *)
Fixpoint stream (draw : nat -> nat -> nat -> list Qc) (j i : nat) (counts : list nat) : list Qc :=
  match counts with [] => [] | c :: r => draw i j c ++ stream draw j (S i) r end.
(** Density of the mixture from which samples are drawn: choose cluster j with
    probability w_j, then each coordinate from its marginal. *)
Fixpoint prod_density (k : nat -> Qc -> Qc) (i : nat) (x : list Qc) : Qc :=
  match x with [] => 1%Qc | a :: r => (k i a * prod_density k (S i) r)%Qc end.
Fixpoint mixture (comp : nat -> Qc) (j : nat) (ws : list Qc) : Qc :=
  match ws with [] => 0%Qc | w :: r => (w * comp j + mixture comp (S j) r)%Qc end.
Definition sampled_density (K : nat -> nat -> Qc -> Qc) (ws : list Qc) (x : list Qc) : Qc :=
  mixture (fun j => prod_density (fun i => K i j) 0 x) 0 ws.
(** Integral of a density that is constant on cells whose volumes are given as
    fractions of the domain volume. *)
Fixpoint integral_of (dens : list xnum) (vols : list Qc) (domain_volume : Qc) : option Qc :=
  match dens, vols with
  | Fin d :: ds, v :: vs => match integral_of ds vs domain_volume with Some r => Some (d * (v * domain_volume) + r)%Qc | None => None end
  | [], [] => Some 0%Qc
  | _, _ => None
  end.
Definition box_volume (domain : list (Qc * Qc)) : Qc := fold_right (fun ab v => ((snd ab - fst ab) * v)%Qc) 1%Qc domain.
Definition positive_box (domain : list (Qc * Qc)) : Prop := forall ab, In ab domain -> (fst ab < snd ab)%Qc.
