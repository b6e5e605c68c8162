(** C111, C112, C15: estimate_local_volume. *)
From Coq Require Import List Arith Bool QArith Qcanon Lia.
From Verif Require Import Err Num NumPy Ext Show LocalVolume_Model LocalVolume_Spec LocalVolume_Proofs LocalVolume_Examples.
Import ListNotations.
Local Open Scope nat_scope.

(** C111: the volumes are not negative and add up to one, in proportion to the
    ball's radius^dim times the fraction of the ball's points in the cell and the
    domain, whatever constant is used for the volume of the unit ball.  The local
    volumes are the blocks of the global ones. *)
Theorem local_volumes_partial : forall samples ball ptr P g dim nloc nmax stored fresh est, 0 < P -> (0 < g)%Qc -> 0 < nloc -> 10 < nmax ->
  length est = length samples -> (forall x, In x est -> (0 <= x)%Qc) -> length (first_radii stored fresh) = length samples ->
  let radii := repair_radii est (first_radii stored fresh) in
  let H i := hits samples ball ptr i (nth i radii 0%Qc) in
  (exists i, i < length samples /\ nth i radii 0%Qc <> 0%Qc /\ forall k, stops_at (H i) nloc nmax k -> 0 < H i (10 * 10 ^ k)) ->
  exists v ks, length ks = length samples /\ (forall i k, nth_error ks i = Some k -> stops_at (H i) nloc nmax k) /\
    estimate_local_volume samples ball ptr P g dim nloc nmax stored fresh est =
      (stored_after stored fresh, (map Fin v, array_split (map Fin v) P)) /\
    normalized_weights v (weights H dim radii ks).
Proof. exact estimate_main. Qed.
Print Assumptions local_volumes_partial.
Example local_volumes_ex : shown (estimate_local_volume two (same (Q2Qc (7 # 8))) near 1 1 1 1 11 (Some [Q2Qc (1 # 4); Q2Qc (1 # 8)]) [] [1; 1]%Qc)
  = [Some (2 # 3); Some (1 # 3)]%Q.
Proof. exact two_second_call. Qed.
Theorem local_radii : forall stored fresh est i e, nth_error est i = Some e ->
  match stored with
  | Some r => forall x, nth_error r i = Some x -> nth_error (repair_radii est (first_radii stored fresh)) i = Some (intended_radius (Some x) 0 e)
  | None => forall x, nth_error fresh i = Some x -> nth_error (repair_radii est (first_radii stored fresh)) i = Some (intended_radius None x e)
  end.
Proof. exact radii_used. Qed.
Print Assumptions local_radii.
Theorem local_hits : forall samples ball ptr i r n, counts_hits (nth i samples []) r (ball i n) (ptr r) i (hits samples ball ptr i r n).
Proof. exact hits_count. Qed.
Print Assumptions local_hits.
(** They do not depend on the number of processes. *)
Theorem local_volumes_processes : forall samples ball ptr P P' g dim nloc nmax stored fresh est, 0 < P -> 0 < P' ->
  fst (snd (estimate_local_volume samples ball ptr P g dim nloc nmax stored fresh est)) =
  fst (snd (estimate_local_volume samples ball ptr P' g dim nloc nmax stored fresh est)) /\
  snd (snd (estimate_local_volume samples ball ptr P g dim nloc nmax stored fresh est)) =
  array_split (fst (snd (estimate_local_volume samples ball ptr P g dim nloc nmax stored fresh est))) P.
Proof. exact estimate_processes. Qed.
Print Assumptions local_volumes_processes.
(** C111 is false for max_num_emulate <= 10: no point is drawn and every volume
    is nan. *)
Theorem local_volumes_limit_refuted : forall samples ball ptr P g dim nloc nmax stored fresh est, 0 < P ->
  length est = length samples -> length (first_radii stored fresh) = length samples -> nloc = 0 \/ nmax <= 10 ->
  estimate_local_volume samples ball ptr P g dim nloc nmax stored fresh est =
    (stored_after stored fresh, (repeat NaN (length samples), array_split (repeat NaN (length samples)) P)).
Proof. exact estimate_limit_nan. Qed.
Print Assumptions local_volumes_limit_refuted.

(** C15: the number of points drawn for a cell in one round stays below ten
    times max_num_emulate, but not below max_num_emulate. *)
Theorem local_points_bound : forall samples ball ptr nloc nmax i r, 0 < nloc -> 10 < nmax ->
  snd (cell_count samples ball ptr nloc nmax i r) < 10 * nmax.
Proof. exact drawn_at_most. Qed.
Print Assumptions local_points_bound.
Theorem local_points_limit_refuted : forall samples ball ptr nloc nmax i r, 0 < nloc -> 10 < nmax -> nmax < 100 ->
  snd (cell_count samples ball ptr nloc nmax i r) = 100.
Proof. exact over_limit. Qed.
Print Assumptions local_points_limit_refuted.

(** C112: the same draws give other volumes on the second call, because the first
    one stored the radii without the factor 1.5. *)
Theorem local_volumes_repeat_refuted : exists samples ball ptr P g dim nloc nmax fresh est,
  let first := estimate_local_volume samples ball ptr P g dim nloc nmax None fresh est in
  let second := estimate_local_volume samples ball ptr P g dim nloc nmax (fst first) fresh est in
  fst (snd second) <> fst (snd first).
Proof. exact two_differs. Qed.
Print Assumptions local_volumes_repeat_refuted.
