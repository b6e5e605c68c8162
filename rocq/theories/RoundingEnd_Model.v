(** Volumes and emulated probabilities in floating-point arithmetic, see
    Rounding_Model. *)
From Coq Require Import List Arith Bool QArith Qcanon.
From Verif Require Import Err Num NumPy Prob_Model Rounding_Model.
Import ListNotations.
Local Open Scope nat_scope.
Local Open Scope err_scope.

Section Float.
Variable rnd : Qc -> Qc.

(** bet/sample.py:1312-1323 estimate_volume_mc: 1.0 / float(num), times one *)
Definition mc_fl (n : nat) : list Qc := repeat (rnd (1 / qn n))%Qc n.
(** bet/sample.py:1300-1309 estimate_volume_emulated (and 1268-1275, estimate_volume):
    the numbers of points in the cells are integers, exact below 2^53; their
    quotients are rounded.  [counts] holds the numbers, [total] their sum. *)
Definition emulated_fl (counts : list nat) (total : nat) : list Qc := map (fun c => rnd (qn c / qn total)%Qc) counts.
(** bet/calculateP/calculateP.py:51-58 as emulated_step of Prob_Model; the quotient
    is rounded *)
Definition emulated_step_fl (ptrs : list (list nat)) (acc : list (list Qc)) (ip : nat * Qc) : list (list Qc) :=
  let '(i, p) := ip in
  if qltb 0 p then
    let n := cell_count i ptrs in
    if 0 <? n
    then map (fun bo => assign i (fun _ : unit => rnd (p / qn n)%Qc) (map (fun k => (k, tt)) (fst bo)) (snd bo)) (combine ptrs acc)
    else acc
  else acc.
Definition prob_on_emulated_fl (probs : list Qc) (io_ptr : list nat) (ii : list (list nat)) : result (list (list Qc)) :=
  do ptrs <- follow io_ptr ii ;
  Ok (fold_left (emulated_step_fl ptrs) (enumerate probs) (map (fun p => repeat 0%Qc (length p)) ptrs)).
End Float.
