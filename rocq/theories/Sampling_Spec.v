From Coq Require Import List Arith QArith Qcanon.
From Verif Require Import Err Num Ext Util_Spec.
Import ListNotations.
Local Open Scope nat_scope.

(** Midpoint of cell k (k = 1..n) of [a,b] cut into n equal cells. *)
Definition midpoint (a b : Qc) (n k : nat) : Qc := (a + (qn k - Q2Qc (1 # 2)) * ((b - a) / qn n))%Qc.
Fixpoint midpoints (domain : list (Qc * Qc)) (ns : list nat) : list (list Qc) :=
  match domain, ns with
  | (a, b) :: d, n :: r => map (midpoint a b n) (seq 1 n) :: midpoints d r
  | _, _ => []
  end.
(** The grid in row-major order. *)
Definition grid (domain : list (Qc * Qc)) (ns : list nat) : list (list Qc) := combinations (midpoints domain ns).
Definition inside (domain : list (Qc * Qc)) (x : list Qc) : Prop := Forall2 (fun ab y => (fst ab < y)%Qc /\ (y < snd ab)%Qc) domain x.
Definition inside_closed (domain : list (Qc * Qc)) (x : list Qc) : Prop := Forall2 (fun ab y => (fst ab <= y)%Qc /\ (y <= snd ab)%Qc) domain x.

(** Stratum k of n of [a,b). *)
Definition in_stratum (a b : Qc) (n k : nat) (y : Qc) : Prop :=
  (a + qn k * ((b - a) / qn n) <= y)%Qc /\ (y < a + qn (k + 1) * ((b - a) / qn n))%Qc.
(** n rows; in every dimension every stratum contains exactly one row. *)
Definition latin (domain : list (Qc * Qc)) (n : nat) (rows : list (list Qc)) : Prop :=
  length rows = n /\
  forall j ab k, nth_error domain j = Some ab -> k < n ->
    exists r row, nth_error rows r = Some row /\ in_stratum (fst ab) (snd ab) n k (nth j row 0%Qc) /\
    forall r' row', nth_error rows r' = Some row' -> in_stratum (fst ab) (snd ab) n k (nth j row' 0%Qc) -> r' = r.
Definition unit_cube (dim : nat) : list (Qc * Qc) := repeat (0%Qc, 1%Qc) dim.

(** Affine map x -> A x + b. *)
Definition inner (a b : list Qc) : Qc := fold_right Qcplus 0%Qc (map (fun e => (fst e * snd e)%Qc) (combine a b)).
Definition affine (A : list (list Qc)) (b : list Qc) (x : list Qc) : list Qc :=
  map (fun e => (inner (fst e) x + snd e)%Qc) (combine A b).
(** 2 y - z, coordinate by coordinate. *)
Definition reflect_at (y z : list Qc) : list Qc := map (fun e => (fst e + fst e - snd e)%Qc) (combine y z).
