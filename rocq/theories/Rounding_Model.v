(** calculateP.py in floating-point arithmetic: every product, quotient and sum
    of two numbers is rounded by [rnd]; [np_sum] adds the numbers of one rank and
    [reduce] (comm.allreduce) adds one number per rank, both in an order that
    numpy and MPI choose. *)
From Coq Require Import List Arith Bool QArith Qcanon.
From Verif Require Import Err Num NumPy Prob_Model.
Import ListNotations.
Local Open Scope nat_scope.
Local Open Scope err_scope.

Section Float.
Variables (rnd : Qc -> Qc) (np_sum reduce : list Qc -> Qc).

(** bet/calculateP/calculateP.py:95-97 *)
Definition cell_sum_fl (i : nat) (blocks : list (list (nat * Qc))) : Qc :=
  reduce (map (fun b => np_sum (map snd (filter (fun e => fst e =? i) b))) blocks).
(** lines 92-101; the product is rounded before the division *)
Definition prob_step_fl (blocks : list (list (nat * Qc))) (acc : list (list Qc)) (ip : nat * Qc) : list (list Qc) :=
  let '(i, p) := ip in
  if qltb 0 p then
    let total := cell_sum_fl i blocks in
    if qltb 0 total
    then map (fun bo => assign i (fun v => rnd (rnd (p * v) / total))%Qc (fst bo) (snd bo)) (combine blocks acc)
    else acc
  else acc.
(** bet/calculateP/calculateP.py:67-106 prob, as [prob] of Prob_Model *)
Definition prob_fl (probs : list Qc) (ptrs : list (list nat)) (vols : list (list Qc)) : result (list (list Qc)) :=
  if existsb (qltb 0) probs then
    do blocks <- zip_blocks ptrs vols ;
    Ok (fold_left (prob_step_fl blocks) (enumerate probs) (map (fun p => repeat 0%Qc (length p)) ptrs))
  else Ok (map (fun p => repeat 0%Qc (length p)) ptrs).
(** bet/calculateP/calculateP.py:236-243 and 287-294, as [transfer] of
    Prob_Model *)
Definition transfer_fl (num_new : nat) (ptrs : list (list nat)) (probs : list (list Qc)) : result (list Qc) :=
  do blocks <- zip_blocks ptrs probs ;
  Ok (map (fun i => cell_sum_fl i blocks) (seq 0 num_new)).
End Float.
