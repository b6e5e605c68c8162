(** Work sharing between P processes: sample counts per rank, blocks of a
    global array, strided index sets.  Rank numbers are 0..P-1. *)
From Coq Require Import List Arith ZArith QArith Qround.
From Verif Require Import NumPy.
Import ListNotations.

Definition bool_int (b : bool) : Z := if b then 1%Z else 0%Z.

(** Python's int(x) on a non-negative number: truncation = floor. *)
Definition py_int (q : Q) : Z := Qfloor q.

(** bet/sample.py:1262-1263, 1547-1548, 1611-1612
    int(n / comm.size) + int(comm.rank < n % comm.size).
    The division is exact here (a float quotient in the code). *)
Definition mc_count (n P rank : nat) : Z :=
  (py_int (inject_Z (Z.of_nat n) / inject_Z (Z.of_nat P))
   + bool_int (rank <? n mod P)%nat)%Z.

(** bet/sampling/basicSampling.py:61-62,78-79,158-159 and
    bet/calculateP/simpleFunP.py:224-225,614-615,706-707
    int((n / comm.size) + (comm.rank < n % comm.size)). *)
Definition draw_count (n P rank : nat) : Z :=
  py_int (inject_Z (Z.of_nat n) / inject_Z (Z.of_nat P)
          + inject_Z (bool_int (rank <? n mod P)%nat)).

(** bet/sampling/basicSampling.py:158-184 (random_sample_set): every rank draws
    draw_count rows, and local_to_global stacks them in rank order.  [draw r k]
    is the random generator of rank r asked for k rows. *)
Definition random_rows {A} (draw : nat -> nat -> list A) (n P : nat) : list A :=
  concat (map (fun r => draw r (Z.to_nat (draw_count n P r))) (seq 0 P)).

(** bet/sample.py:1501-1525 (exact_volume_2D): rank r computes cells
    r, r+P, r+2P, ... ; the results and the index arrays are gathered in rank
    order and scattered into an array of zeros.  [vol i] is the volume that
    lines 1505-1520 compute for cell i (a pure function of the replicated
    Voronoi diagram). *)
Definition local_cells (num P rank : nat) : list nat := arange rank num P.
Definition strided_volumes {A} (zero : A) (vol : nat -> A) (num P : nat) : option (list A) :=
  let idx := concat (map (local_cells num P) (seq 0 P)) in
  let vols := concat (map (fun r => map vol (local_cells num P r)) (seq 0 P)) in
  scatter (repeat zero num) idx vols.
