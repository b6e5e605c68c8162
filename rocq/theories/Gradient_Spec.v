(** Specification vocabulary for finite difference gradients. *)
From Coq Require Import List Arith QArith Qcanon.
From Verif Require Import Num Ext.
Import ListNotations.
Local Open Scope Qc_scope.

(** A QoI map: o real functions of a point. *)
Definition qoi := nat -> list Qc -> Qc.
Definition outputs (o : nat) (f : qoi) (x : list Qc) : list xnum :=
  map (fun a => Fin (f a x)) (seq 0 o).

(** The point x moved by h in coordinate b. *)
Definition moved (x : list Qc) (b : nat) (h : Qc) : list Qc :=
  map (fun k => nth k x 0 + (if Nat.eqb k b then h else 0)) (seq 0 (length x)).

(** Stencil radius in coordinate b: one number for all coordinates, or one for each. *)
Definition radius (r : list Qc) (b : nat) : Qc :=
  match r with [h] => h | _ => nth b r 0 end.
Definition good_radii (d : nat) (r : list Qc) : Prop :=
  (length r = d \/ length r = 1%nat) /\ (forall h, In h r -> h <> 0).

Definition points (d : nat) (l : list (list Qc)) : Prop := forall x, In x l -> length x = d.

Definition entry {A} (t : list (list (list A))) (c a b : nat) : option A :=
  match nth_error t c with
  | Some m => match nth_error m a with Some v => nth_error v b | None => None end
  | None => None
  end.
Definition row_of {A} (t : list (list (list A))) (c a : nat) : option (list A) :=
  match nth_error t c with Some m => nth_error m a | None => None end.
Definition has_shape {A} (t : list (list (list A))) (n o d : nat) : Prop :=
  length t = n /\ (forall m, In m t -> length m = o /\ forall v, In v m -> length v = d).

(** Affine and quadratic maps of d variables and their partial derivatives. *)
Definition affine (d : nat) (c : nat -> Qc) (A : nat -> nat -> Qc) : qoi :=
  fun a x => c a + qsum (map (fun i => A a i * nth i x 0) (seq 0 d)).
Definition quadratic (d : nat) (c : nat -> Qc) (A : nat -> nat -> Qc) (Q : nat -> nat -> nat -> Qc) : qoi :=
  fun a x => c a + qsum (map (fun i => A a i * nth i x 0) (seq 0 d))
           + qsum (map (fun i => qsum (map (fun j => Q a i j * nth i x 0 * nth j x 0) (seq 0 d))) (seq 0 d)).
Definition quadratic_partial (d : nat) (A : nat -> nat -> Qc) (Q : nat -> nat -> nat -> Qc)
  (a b : nat) (x : list Qc) : Qc :=
  A a b + qsum (map (fun j => (Q a b j + Q a j b) * nth j x 0) (seq 0 d)).

Definition norm1 (v : list Qc) : Qc := qsum (map qabs v).

(** The row is v divided by its 1-norm, or v if v is zero. *)
Definition normalized_of (v w : list Qc) : Prop :=
  length w = length v /\
  ((norm1 v = 0 /\ w = v) \/ (norm1 v <> 0 /\ norm1 w = 1 /\ v = map (fun x => norm1 v * x) w)).

Definition all_finite (l : list (list xnum)) : Prop :=
  forall r, In r l -> forall x, In x r -> exists q, x = Fin q.

(** Cluster k of the values returned for n centers with m points each. *)
Definition cluster {A} (n m k : nat) (l : list A) : list A := firstn m (skipn (n + k * m) l).
Definition in_box (dom : list (Qc * Qc)) (x : list Qc) : Prop :=
  Forall2 (fun b v => fst b <= v <= snd b) dom x.
