(** bet/sample.py:1659-1787, voronoi_sample_set.estimate_local_volume: volumes of
    Voronoi cells from points drawn in a ball around each sample. *)
From Coq Require Import List Arith Bool QArith Qcanon.
From Verif Require Import Err Num NumPy Ext.
Import ListNotations.
Local Open Scope nat_scope.

Definition pt := list Qc.

(** lines 1707-1715: the radii to start with.  Stored radii are used as they
    are; otherwise estimate_radii is called, which stores its result ([fresh]),
    and 1.5 times that is used. *)
Definition first_radii (stored : option (list Qc)) (fresh : list Qc) : list Qc :=
  match stored with
  | Some r => r
  | None => map (fun x => Q2Qc (3 # 2) * x)%Qc fresh
  end.
Definition stored_after (stored : option (list Qc)) (fresh : list Qc) : option (list Qc) :=
  match stored with
  | Some r => Some r
  | None => Some fresh
  end.
(** lines 1716-1732: radii that are not positive are replaced; [est] is twice
    the standard deviation of half the distances to the other samples. *)
Definition repair_radii (est r : list Qc) : list Qc :=
  map (fun p => if qleb (snd p) 0 then fst p else snd p) (combine est r).

Section Cells.
(** The samples in relative coordinates; [ball i n]: the n points that
    Lp_generalized_uniform draws in the unit ball for sample i (scaled and
    shifted below); [ptr r x]: the answer of the tree's query for the point x with
    distance_upper_bound=r (the number of samples if there is none that near). *)
Variables (samples : list pt) (ball : nat -> nat -> list pt) (ptr : Qc -> pt -> nat).

(** lines 1752-1766: the points in the domain (the unit cube). *)
Definition around (s : pt) (r : Qc) (b : pt) : pt := map (fun p => (fst p + r * snd p)%Qc) (combine s b).
Definition in_unit_cube (x : pt) : bool := forallb (fun v => qleb 0 v && qleb v 1) x.
(** lines 1768-1772 *)
Definition hits (i : nat) (r : Qc) (n : nat) : nat :=
  length (filter (fun x => ptr r x =? i)
    (filter in_unit_cube (map (around (nth i samples []) r) (ball i n)))).

(** lines 1745-1772: ten times as many points in each round, until nloc of them
    are in the cell or nmax is reached.  The number of rounds is less than nmax. *)
Fixpoint rounds (fuel nloc nmax i : nat) (r : Qc) (count total : nat) : nat * nat :=
  match fuel with
  | 0 => (count, total)
  | S f => if (count <? nloc) && (total <? nmax)
           then rounds f nloc nmax i r (hits i r (total * 10)) (total * 10)
           else (count, total)
  end.
Definition cell_count (nloc nmax i : nat) (r : Qc) : nat * nat := rounds nmax nloc nmax i r 0 10.

(** lines 1734-1741, 1774-1778; [g] is the constant of the volume of the ball,
    which the code takes to be gamma(1 + 1/p) / gamma(1 + dim/p) or 2^dim. *)
Definition cell_volume (g : Qc) (dim nloc nmax i : nat) (r : Qc) : Qc :=
  let c := cell_count nloc nmax i r in (r ^ dim * g * qn (fst c) / qn (snd c))%Qc.

(** lines 1743-1787 on P processes: blocks of samples, gathered, normalized by
    their sum; the new global and local volumes. *)
Definition local_volumes (P : nat) (g : Qc) (dim nloc nmax : nat) (radii : list Qc) : list xnum * list (list xnum) :=
  let blocks := map (map (fun i => cell_volume g dim nloc nmax i (nth i radii 0%Qc)))
                    (array_split (seq 0 (length samples)) P) in
  let total := qsum (concat blocks) in
  (map (fun v => xdivq v total) (concat blocks), map (map (fun v => xdivq v total)) blocks).

(** The whole function: the stored radii afterwards, the volumes. *)
Definition estimate_local_volume (P : nat) (g : Qc) (dim nloc nmax : nat) (stored : option (list Qc)) (fresh est : list Qc)
  : option (list Qc) * (list xnum * list (list xnum)) :=
  (stored_after stored fresh,
   local_volumes P g dim nloc nmax (repair_radii est (first_radii stored fresh))).
End Cells.
