From Coq Require Import List Arith QArith Qcanon.
From Verif Require Import Num.
Import ListNotations.
Local Open Scope nat_scope.

(** Half the sum of the absolute differences at the points. *)
Definition half_l1 {X} (f g : X -> Qc) (v : list X) : Qc :=
  (Q2Qc (1 # 2) * fold_right Qcplus 0%Qc (map (fun x => qabs (f x - g x)) v))%Qc.
Definition sum_at {X} (f : X -> Qc) (v : list X) : Qc := fold_right Qcplus 0%Qc (map f v).
(** [lo, hi] contains all entries of column i of the rows, enlarged by the
    proportion c on both sides. *)
Definition covers (c lo hi : Qc) (col : list Qc) : Prop :=
  forall x y z, In x col -> In y col -> In z col -> (lo <= x - c * (z - y))%Qc /\ (x + c * (z - y) <= hi)%Qc.
