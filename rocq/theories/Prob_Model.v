(** bet/calculateP/calculateP.py on P processes.  Local arrays are given as one
    block per rank; comm.allreduce(SUM) adds one number per rank. *)
From Coq Require Import List Arith Bool QArith Qcanon.
From Verif Require Import Err Num Ext NumPy.
Import ListNotations.
Local Open Scope nat_scope.
Local Open Scope err_scope.

(** a[mask] requires a mask of the length of a (IndexError otherwise); the
    masks are made from a pointer array.  [zip_blocks] pairs every pointer with
    its number on every rank. *)
Fixpoint zip_blocks {A} (ptrs : list (list nat)) (vals : list (list A)) : result (list (list (nat * A))) :=
  match ptrs, vals with
  | [], [] => Ok []
  | p :: ps, v :: vs =>
      if length p =? length v
      then do r <- zip_blocks ps vs ; Ok (combine p v :: r)
      else Raise PyIndexError
  | _, _ => Raise PyIndexError
  end.

(** np.sum(vals[Itemp]) on one rank, then allreduce *)
Definition local_sum (i : nat) (b : list (nat * Qc)) : Qc := qsum (map snd (filter (fun e => fst e =? i) b)).
Definition cell_sum (i : nat) (blocks : list (list (nat * Qc))) : Qc := qsum (map (local_sum i) blocks).
Definition local_count (i : nat) (b : list nat) : nat := length (filter (fun k => k =? i) b).
Definition cell_count (i : nat) (ptrs : list (list nat)) : nat := list_sum (map (local_count i) ptrs).

(** lines 92-101: one pass of the loop over the output cells; [acc] holds
    P_local on every rank. *)
Definition assign {A} (i : nat) (f : A -> Qc) (b : list (nat * A)) (old : list Qc) : list Qc :=
  map (fun t => if fst (fst t) =? i then f (snd (fst t)) else snd t) (combine b old).
Definition prob_step (blocks : list (list (nat * Qc))) (acc : list (list Qc)) (ip : nat * Qc) : list (list Qc) :=
  let '(i, p) := ip in
  if qltb 0 p then
    let total := cell_sum i blocks in
    if qltb 0 total
    then map (fun bo => assign i (fun v => p * v / total)%Qc (fst bo) (snd bo)) (combine blocks acc)
    else acc
  else acc.
Definition enumerate {A} (l : list A) : list (nat * A) := combine (seq 0 (length l)) l.

(** bet/calculateP/calculateP.py:67-106 prob: output probabilities, io_ptr_local
    and volumes_local of every rank.  Result: probabilities_local of every rank;
    with globalize they are concatenated (util.get_global_values). *)
Definition prob (probs : list Qc) (ptrs : list (list nat)) (vols : list (list Qc)) : result (list (list Qc)) :=
  if existsb (qltb 0) probs then
    do blocks <- zip_blocks ptrs vols ;
    Ok (fold_left (prob_step blocks) (enumerate probs) (map (fun p => repeat 0%Qc (length p)) ptrs))
  else Ok (map (fun p => repeat 0%Qc (length p)) ptrs).

(** bet/calculateP/calculateP.py:21-64 prob_on_emulated_samples.
    d_distr_emu_ptr = io_ptr[emulated_ii_ptr_local]. *)
Definition emulated_step (ptrs : list (list nat)) (acc : list (list Qc)) (ip : nat * Qc) : list (list Qc) :=
  let '(i, p) := ip in
  if qltb 0 p then
    let n := cell_count i ptrs in
    if 0 <? n
    then map (fun bo => assign i (fun _ : unit => (p / qn n)%Qc) (map (fun k => (k, tt)) (fst bo)) (snd bo)) (combine ptrs acc)
    else acc
  else acc.
Fixpoint follow (io_ptr : list nat) (ii : list (list nat)) : result (list (list nat)) :=
  match ii with
  | [] => Ok []
  | b :: r => match take_idx io_ptr b with
              | Some b' => do r' <- follow io_ptr r ; Ok (b' :: r')
              | None => Raise PyIndexError
              end
  end.
Definition prob_on_emulated_samples (probs : list Qc) (io_ptr : list nat) (ii : list (list nat)) : result (list (list Qc)) :=
  do ptrs <- follow io_ptr ii ;
  Ok (fold_left (emulated_step ptrs) (enumerate probs) (map (fun p => repeat 0%Qc (length p)) ptrs)).

(** bet/calculateP/calculateP.py:236-243 (prob_from_sample_set) and 287-294
    (prob_from_discretization_input): for every new cell the masked sum of the
    old probabilities.  ptrs: query of the new set at the old points. *)
Definition transfer (num_new : nat) (ptrs : list (list nat)) (probs : list (list Qc)) : result (list Qc) :=
  do blocks <- zip_blocks ptrs probs ;
  Ok (map (fun i => cell_sum i blocks) (seq 0 num_new)).

(** bet/calculateP/calculateP.py:135-206
    prob_from_sample_set_with_emulated_volumes.  ptr1, ptr2: query of the old and
    new set at the emulated points. *)
Definition spread_step (ptr1 : list (list nat)) (st : list (list Qc) * bool) (ip : nat * Qc) : list (list Qc) * bool :=
  let '(i, p) := ip in
  if qltb 0 p then
    let n := cell_count i ptr1 in
    if 0 <? n
    then (map (fun bo => map (fun t => if fst t =? i then (snd t + p / qn n)%Qc else snd t) (combine (fst bo) (snd bo)))
              (combine ptr1 (fst st)), snd st)
    else (fst st, true)
  else st.
Definition xlocal_sum (i : nat) (b : list (nat * xnum)) : xnum := xsum (map snd (filter (fun e => fst e =? i) b)).
Definition transfer_emulated (probs_old : list Qc) (num_new : nat) (ptr1 ptr2 : list (list nat)) : result (list xnum) :=
  let '(prob_em, warn) := fold_left (spread_step ptr1) (enumerate probs_old)
                                    (map (fun p => repeat 0%Qc (length p)) ptr1, false) in
  let total := qsum (map qsum prob_em) in
  let em := if warn then map (map (fun v => xdivq v total)) prob_em else map (map Fin) prob_em in
  do blocks <- zip_blocks ptr2 em ;
  Ok (map (fun i => xsum (map (xlocal_sum i) blocks)) (seq 0 num_new)).
