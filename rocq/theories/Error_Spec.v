From Coq Require Import ZArith List Arith QArith Qcanon.
From Verif Require Import Num.
Import ListNotations.
Local Open Scope nat_scope.

(** Two of the numbers are neighbours on the line: no other number of the list
    lies strictly between them. *)
Definition adjacent (x : list Qc) (p q : nat) : Prop :=
  p <> q /\ exists a b, nth_error x p = Some a /\ nth_error x q = Some b /\
  forall c, In c x -> ~ (a < c /\ c < b)%Qc /\ ~ (b < c /\ c < a)%Qc.

(** [events k] is the contour event of cell k and [nei k] the events of its
    neighbours.  Cells strictly inside event i; cells with a neighbour in i. *)
Definition interior (events : list nat) (nei : list (list nat)) (i k : nat) : Prop :=
  nth_error events k = Some i /\ exists l, nth_error nei k = Some l /\ forall j, In j l <-> j = i.
Definition touching (nei : list (list nat)) (i k : nat) : Prop :=
  exists l, nth_error nei k = Some l /\ In i l.
Definition lists_set (l : list nat) (P : nat -> Prop) : Prop := NoDup l /\ forall k, In k l <-> P k.
(** The volume of a set of cells, listed without repetition. *)
Definition vol (vols : list Qc) (cells : list nat) : Qc := qsum (map (fun k => nth k vols 0%Qc) cells).
Definition all_positive (l : list Qc) : Prop := forall x, In x l -> (0 < x)%Qc.
(** One list of neighbouring events per cell, without repetition. *)
Definition neighbour_table (events : list nat) (nei : list (list nat)) : Prop :=
  length nei = length events /\ forall l, In l nei -> NoDup l.
(** Each cell of event i has a neighbour in event i. *)
Definition connected_event (events : list nat) (nei : list (list nat)) (i : nat) : Prop :=
  forall k, nth_error events k = Some i -> touching nei i k.

(** Samples (event before, event after, volume). *)
Definition vol_where (f : nat -> nat -> bool) (samples : list (nat * nat * Qc)) : Qc :=
  qsum (map snd (filter (fun s => f (fst (fst s)) (snd (fst s))) samples)).
Definition vol_before (samples : list (nat * nat * Qc)) (i : nat) : Qc := vol_where (fun a _ => a =? i) samples.
Definition vol_after (samples : list (nat * nat * Qc)) (i : nat) : Qc := vol_where (fun _ b => b =? i) samples.
Definition vol_kept (samples : list (nat * nat * Qc)) (i : nat) : Qc := vol_where (fun a b => Nat.eqb a i && Nat.eqb b i)%bool samples.

(** Points (cell of the other set, event before, event after). *)
Definition npoints (f : nat * nat * nat -> bool) (pts : list (nat * nat * nat)) : Qc := qn (length (filter f pts)).
Definition before (i : nat) (e : nat * nat * nat) : bool := snd (fst e) =? i.
Definition after (i : nat) (e : nat * nat * nat) : bool := snd e =? i.
Definition in_region (labels : list Z) (region : Z) (e : nat * nat * nat) : bool :=
  match nth_error labels (fst (fst e)) with Some l => Z.eqb l region | None => false end.
(** Each event of positive probability contains points before and after the
    error estimates are added. *)
Definition all_present (probs : list Qc) (pts : list (nat * nat * nat)) : Prop :=
  forall i p, nth_error probs i = Some p -> (0 < p)%Qc ->
  (exists e, In e pts /\ before i e = true) /\ (exists e, In e pts /\ after i e = true).
(** Share of the points of event i that are in the region, before minus after,
    weighted with the probability of the event. *)
Definition exchange (labels : list Z) (region : Z) (pts : list (nat * nat * nat)) (i : nat) (p : Qc) : Qc :=
  (p * (npoints (fun e => in_region labels region e && before i e)%bool pts / npoints (before i) pts -
        npoints (fun e => in_region labels region e && after i e)%bool pts / npoints (after i) pts))%Qc.
