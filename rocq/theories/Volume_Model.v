(** Volumes of cells (bet/sample.py:1253-1323, 1414-1444, 1712-1791, 2003-2013). *)
From Coq Require Import List Arith Bool ZArith QArith Qcanon.
From Verif Require Import Err Num Ext NumPy Query_Model.
Import ListNotations.
Local Open Scope nat_scope.

(** ** Monte Carlo and emulated volumes *)

(** lines 1267-1269, 1295-1297: vol[i] = np.sum(np.equal(emulate_ptr, i)) on one
    rank; [ptrs] are the answers of query for the points of that rank. *)
Definition cell_counts (num : nat) (ptrs : list nat) : list Qc :=
  map (fun i => qn (length (filter (fun p => p =? i) ptrs))) (seq 0 num).

(** comm.Allreduce(op=MPI.SUM) of one array per rank. *)
Definition vadd (a b : list Qc) : list Qc := map (fun p => (fst p + snd p)%Qc) (combine a b).
Definition allreduce_sum (zero : list Qc) (per_rank : list (list Qc)) : list Qc :=
  fold_right vadd zero per_rank.
Definition zeros (n : nat) : list Qc := repeat 0%Qc n.

(** bet/sample.py:1278-1310  estimate_volume_emulated.  [blocks] holds, for each
    rank, the local emulated points; [ptr x] is the index answered by query for
    the point x.  Division by zero points gives nan. *)
Definition estimate_volume_emulated {X} (num : nat) (ptr : X -> nat) (blocks : list (list X)) : list xnum :=
  let cvol := allreduce_sum (zeros num) (map (fun b => cell_counts num (map ptr b)) blocks) in
  let num_emulate := list_sum (map (@length X) blocks) in
  map (fun v => xdivq v (qn num_emulate)) cvol.

(** bet/sample.py:1253-1276  estimate_volume: as above, but the divisor is the
    requested number of points. *)
Definition estimate_volume {X} (num n_mc : nat) (ptr : X -> nat) (blocks : list (list X)) : list xnum :=
  let cvol := allreduce_sum (zeros num) (map (fun b => cell_counts num (map ptr b)) blocks) in
  map (fun v => xdivq v (qn n_mc)) cvol.

(** bet/sample.py:1312-1323  estimate_volume_mc *)
Definition estimate_volume_mc (num : nat) : list xnum := repeat (xdivq 1%Qc (qn num)) num.

(** ** Exact volumes in one dimension, lines 1414-1444 *)

(** edges: the lower bound, the midpoints of consecutive sorted samples, the
    upper bound. *)
Definition half : Qc := Q2Qc (1 # 2).
Definition mid_points (s : list Qc) : list Qc := map (fun p => (fst p + snd p) * half)%Qc (combine (removelast s) (tl s)).
Definition edges (lo hi : Qc) (s : list Qc) : list Qc := lo :: mid_points s ++ [hi].
Definition differences (e : list Qc) : list Qc := map (fun p => (snd p - fst p)%Qc) (combine (removelast e) (tl e)).

(** [argsort] is numpy.argsort.  One sample: np.squeeze makes the index
    0-dimensional and sorted_samples[:-1, :] raises IndexError; no sample:
    lam_vol[sort_ind] on a 0-dimensional array raises IndexError. *)
Definition exact_volume_1D (argsort : list Qc -> list nat) (lo hi : Qc) (samples : list Qc) : result (list xnum) :=
  if length samples <=? 1 then Raise PyIndexError
  else
    let sort_ind := argsort samples in
    match take_idx samples sort_ind with
    | None => Raise PyIndexError
    | Some sorted =>
        match scatter (zeros (length sort_ind)) sort_ind (differences (edges lo hi sorted)) with
        | None => Raise PyIndexError
        | Some lam_vol => Ok (map (fun v => xdivq v (hi - lo)%Qc) lam_vol)
        end
    end.

(** ** Rectangles, lines 2003-2013: exact_volume_lebesgue *)
Definition box_fraction (dom : list (Qc * Qc)) (left right : point) : Qc :=
  qprod (map (fun p => (fst p / snd p)%Qc)
             (combine (map (fun q => (snd q - fst q)%Qc) (combine left right))
                      (map (fun q => (snd q - fst q)%Qc) dom))).
(** A degenerate domain (zero width) would give inf or nan; the model rejects
    it, as it does a domain of the wrong dimension. *)
Definition exact_volume_lebesgue (dom : list (Qc * Qc)) (s : rset) : option (list Qc) :=
  if (length dom =? rdim s) && forallb (fun p => negb (qeqb (fst p) (snd p))) dom
  then let v := map (fun lr => box_fraction dom (fst lr) (snd lr)) (combine (lefts s) (rights s)) in
       Some (v ++ [(1 - qsum v)%Qc])
  else None.

(** ** Local volume emulation, lines 1738-1791 *)

(** The loop for one cell.  [hits n] is the number of the n drawn points that
    fall into the cell; the result is (samples_in_cell, total_samples, sizes of
    the draws, oldest first).  [fuel] bounds the iterations; see the proofs for
    a sufficient amount. *)
Fixpoint local_loop (fuel : nat) (hits : N -> N) (need max_num : N) (inside total : N) (draws : list N)
  : option (N * N * list N) :=
  if (inside <? need)%N && (total <? max_num)%N then
    match fuel with
    | O => None
    | S f => let total' := (total * 10)%N in
             local_loop f hits need max_num (hits total') total' (draws ++ [total'])
    end
  else Some (inside, total, draws).
Definition local_emulation (hits : N -> N) (need max_num : N) : option (N * N * list N) :=
  local_loop (N.to_nat (N.size max_num)) hits need max_num 0 10 [].

(** One cell's estimate: ball volume * hits / draws; then all are divided by
    their sum. *)
Definition qN (n : N) : Qc := Q2Qc (inject_Z (Z.of_N n)).
Definition cell_estimate (ball_vol : Qc) (r : N * N * list N) : Qc :=
  let '(inside, total, _) := r in (ball_vol * qN inside / qN total)%Qc.
Definition normalized_volumes (vs : list Qc) : list xnum := map (fun v => xdivq v (qsum vs)) vs.
