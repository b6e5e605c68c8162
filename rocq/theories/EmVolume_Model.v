(** bet/calculateP/calculateP.py:109-133 prob_with_emulated_volumes: the volumes
    of the input cells are estimated with the emulated input points
    (bet/sample.py:2689-2703, 1278-1310) and prob (67-106) is called.  The model
    starts after the checks of the lengths (check_nums, C04, C61); the volumes
    are numbers that may be nan (no emulated points). *)
From Coq Require Import List Arith Bool QArith Qcanon.
From Verif Require Import Err Num Ext NumPy Prob_Model Volume_Model.
Import ListNotations.
Local Open Scope nat_scope.
Local Open Scope err_scope.

(** One pass of the loop (lines 92-101) for volumes that may be nan or
    infinite; a comparison with nan is false.  The quotient is only formed for a
    positive total; positive and finite totals are divided as rationals, and a
    finite number over inf is 0 (inf over inf: nan). *)
Definition over_total (a total : xnum) : xnum :=
  match a, total with
  | Fin x, Fin t => xdivq x t
  | Fin _, PInf => Fin 0
  | PInf, Fin _ => PInf
  | NInf, Fin _ => NInf
  | _, _ => NaN
  end.
Definition xprob_step (blocks : list (list (nat * xnum))) (acc : list (list xnum)) (ip : nat * Qc) : list (list xnum) :=
  let '(i, p) := ip in
  if qltb 0 p then
    let total := xsum (map (xlocal_sum i) blocks) in
    if xltb (Fin 0) total
    then map (fun bo => map (fun t => if fst (fst t) =? i then over_total (xmul (Fin p) (snd (fst t))) total else snd t)
                            (combine (fst bo) (snd bo)))
             (combine blocks acc)
    else acc
  else acc.
(** lines 67-106 *)
Definition xprob (probs : list Qc) (ptrs : list (list nat)) (vols : list (list xnum)) : result (list (list xnum)) :=
  if existsb (qltb 0) probs then
    do blocks <- zip_blocks ptrs vols ;
    Ok (fold_left (xprob_step blocks) (enumerate probs) (map (fun p => repeat (Fin 0) (length p)) ptrs))
  else Ok (map (fun p => repeat (Fin 0) (length p)) ptrs).

(** lines 124-133.  [io]: the output cell of every input sample, distributed
    over the P ranks as global_to_local distributes the volumes; [near]: answer
    of the query of the input set; [blocks]: the emulated points of every rank. *)
Definition prob_with_emulated_volumes {X} (probs : list Qc) (io : list nat) (near : X -> nat) (P : nat)
    (blocks : list (list X)) : result (list (list xnum)) :=
  xprob probs (array_split io P) (array_split (estimate_volume_emulated (length io) near blocks) P).
