(** Local volume estimates: what they should be. *)
From Coq Require Import List Arith QArith Qcanon.
From Verif Require Import Num Ext.
Import ListNotations.
Local Open Scope nat_scope.

(** The numbers of points tried: 100, 1000, ...  The search stops at n = 10 * 10^k
    (k >= 1): enough points of the cell or the limit reached, but at no earlier
    round. [H n]: how many of n drawn points are in the cell. *)
Definition stops_at (H : nat -> nat) (nloc nmax k : nat) : Prop :=
  1 <= k /\ (nloc <= H (10 * 10 ^ k) \/ nmax <= 10 * 10 ^ k) /\
  forall j, 1 <= j < k -> H (10 * 10 ^ j) < nloc /\ 10 * 10 ^ j < nmax.

(** A vector of numbers that are not negative and add up to one, the i-th one in
    proportion to the i-th weight. *)
Definition normalized_weights (v w : list Qc) : Prop :=
  qsum v = 1%Qc /\ (forall x, In x v -> (0 <= x)%Qc) /\ length v = length w /\
  forall i a x, nth_error v i = Some a -> nth_error w i = Some x -> (a * qsum w = x)%Qc.

(** Radius to the power dim, times the fraction of the last n = 10 * 10^k points
    that were in the cell. *)
Definition weights (H : nat -> nat -> nat) (dim : nat) (radii : list Qc) (ks : list nat) : list Qc :=
  map (fun i => let n := 10 * 10 ^ nth i ks 0 in (nth i radii 0 ^ dim * (qn (H i n) / qn n))%Qc) (seq 0 (length ks)).

(** The radius of the ball around a sample: the stored one, or one and a half
    times the estimate, or (if this is not positive) the replacement. *)
Definition intended_radius (stored : option Qc) (fresh est : Qc) : Qc :=
  let x := match stored with Some r => r | None => (Q2Qc (3 # 2) * fresh)%Qc end in
  if qltb 0 x then x else est.

(** The point s + r b, coordinate by coordinate. *)
Definition scaled_point (s : list Qc) (r : Qc) (b x : list Qc) : Prop :=
  length x = min (length s) (length b) /\
  forall d u v, nth_error s d = Some u -> nth_error b d = Some v -> nth_error x d = Some (u + r * v)%Qc.
(** [c] of the draws, once scaled, are in the unit cube and belong to sample i. *)
Definition counts_hits (s : list Qc) (r : Qc) (draws : list (list Qc)) (owner : list Qc -> nat) (i c : nat) : Prop :=
  exists idx, NoDup idx /\ length idx = c /\
    forall j, In j idx <-> exists b x, nth_error draws j = Some b /\ scaled_point s r b x /\
                                       (forall v, In v x -> (0 <= v <= 1)%Qc) /\ owner x = i.
