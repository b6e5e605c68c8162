From Coq Require Import List Arith QArith Qcanon.
From Verif Require Import Num Query_Spec.
Import ListNotations.
Local Open Scope nat_scope.

(** The norm is the largest absolute value of a coordinate.  This is so for
    p = inf, and for every p on the line. *)
Definition sup_norm (d : nat) (norm_lt : list Qc -> Qc -> bool) : Prop :=
  forall v r, length v = d -> (norm_lt v r = true <-> (0 < r)%Qc /\ forall u, In u v -> (- r < u < r)%Qc).
(** No point lies in two balls. *)
Definition disjoint_balls (norm_lt : list Qc -> Qc -> bool) (d : nat) (cs : list (list Qc)) (rs : list Qc) : Prop :=
  forall i j x, length x = d -> ball_contains (fun v r => norm_lt v r = true) cs rs x i ->
    ball_contains (fun v r => norm_lt v r = true) cs rs x j -> i = j.
(** The ball's bounding box is in the domain. *)
Definition ball_inside (dom : list (Qc * Qc)) (c : list Qc) (r : Qc) : Prop :=
  forall j ab u, nth_error dom j = Some ab -> nth_error c j = Some u -> (fst ab <= u - r)%Qc /\ (u + r <= snd ab)%Qc.
(** The corners of the cube around c with half the side r. *)
Definition lo (c : list Qc) (r : Qc) : list Qc := map (fun u => (u - r)%Qc) c.
Definition hi (c : list Qc) (r : Qc) : list Qc := map (fun u => (u + r)%Qc) c.
Definition two_q : Qc := Q2Qc 2.
