(** C114: volumes of ball sample sets. *)
From Coq Require Import List Arith Bool QArith Qcanon Lia.
From Verif Require Import Err Num Ext Show Query_Model Query_Spec Volume_Spec BallVolume_Model BallVolume_Spec BallVolume_Proofs.
Import ListNotations.
Local Open Scope nat_scope.

(** For every norm, i.e. every volume of the unit ball: in proportion to r^d, and
    together with the remainder cell they add up to one. *)
Theorem ball_volumes : forall unit dom d cs rs s, ball_setup d cs rs = Ok s -> length dom = d -> proper_domain dom ->
  exists vs rem, ball_exact_volume unit dom s = Some (vs ++ [rem]) /\ length vs = length cs /\
    (forall i r, nth_error rs i = Some r -> nth_error vs i = Some (unit * r ^ d / volume (map fst dom) (map snd dom))%Qc) /\
    qsum (vs ++ [rem]) = 1%Qc.
Proof. exact ball_volumes_eq. Qed.
Print Assumptions ball_volumes.
(** Balls that are cubes (p = inf, or any p on the line), disjoint and in the
    domain: the volume of each cube relative to the domain, the rest not negative. *)
Theorem ball_volumes_partial : forall norm_lt dom d cs rs s, sup_norm d norm_lt -> ball_setup d cs rs = Ok s -> length dom = d -> proper_domain dom ->
  (forall r, In r rs -> (0 < r)%Qc) -> (forall c r, In (c, r) (combine cs rs) -> ball_inside dom c r) -> disjoint_balls norm_lt d cs rs ->
  exists vs rem, ball_exact_volume (two_q ^ d) dom s = Some (vs ++ [rem]) /\ length vs = length cs /\
    (forall i c r, nth_error cs i = Some c -> nth_error rs i = Some r ->
       nth_error vs i = Some (volume (lo c r) (hi c r) / volume (map fst dom) (map snd dom))%Qc) /\
    qsum (vs ++ [rem]) = 1%Qc /\ (0 <= rem)%Qc /\ (forall v, In v vs -> (0 < v)%Qc).
Proof. exact ball_volumes_cubes. Qed.
Print Assumptions ball_volumes_partial.
Example ball_volumes_norms : (forall d, sup_norm d norminf_lt) /\ sup_norm 1 norm1_lt.
Proof. exact (conj norminf_sup norm1_sup). Qed.
Example ball_volumes_ex : exists s, ball_setup 2 [[1; 1]; [Q2Qc 3; 1]]%Qc [1; Q2Qc (1 # 2)]%Qc = Ok s /\
  ball_exact_volume (two_q ^ 2) [(0, Q2Qc 4); (0, Q2Qc 2)]%Qc s = Some [Q2Qc (1 # 2); Q2Qc (1 # 8); Q2Qc (3 # 8)].
Proof. eexists. split; [reflexivity|]. qc_compute. Qed.

(** A ball given twice: no point belongs to the second one, but it has the same
    volume as the first, and the remainder can be negative. *)
Theorem ball_volumes_overlap_refuted : forall norm_lt d c r s, ball_setup d [c; c] [r; r] = Ok s ->
  forall x, length x = d -> forall i dist, ball_query norm_lt s x 1 = Ok [(i, dist)] -> i <> 1.
Proof. exact duplicate_ball. Qed.
Print Assumptions ball_volumes_overlap_refuted.
Example ball_volumes_overlap_ex : exists s, ball_setup 1 [[1]; [1]]%Qc [1; 1]%Qc = Ok s /\
  ball_exact_volume (two_q ^ 1) [(0, Q2Qc 3)]%Qc s = Some [Q2Qc (2 # 3); Q2Qc (2 # 3); Q2Qc (-1 # 3)].
Proof. eexists. split; [reflexivity|]. qc_compute. Qed.
