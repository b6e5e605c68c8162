(** C25 - C29: calculateP. *)
From Coq Require Import List Arith Bool QArith Qcanon Lia.
From Verif Require Import Err Num Ext Show Prob_Model Prob_Spec Prob_Proofs.
Import ListNotations.
Local Open Scope nat_scope.

(** C25.  [ptrs]: output cell of each input, one block per rank; [vols]: volumes. *)
Theorem prob_spreads : forall probs ptrs vols, same_lengths ptrs vols -> nonneg (concat vols) -> exists Q,
  prob probs ptrs vols = Ok Q /\ same_lengths Q ptrs /\ nonneg (concat Q) /\
  let vol_of := total_in (combine (concat ptrs) (concat vols)) in
  (forall i p, nth_error probs i = Some p -> (0 < p)%Qc -> (0 < vol_of i)%Qc ->
     total_in (combine (concat ptrs) (concat Q)) i = p /\
     forall j v, nth_error (concat ptrs) j = Some i -> nth_error (concat vols) j = Some v ->
       nth_error (concat Q) j = Some (v * (p / vol_of i))%Qc) /\
  (forall i p, nth_error probs i = Some p -> (p <= 0)%Qc ->
     forall j, nth_error (concat ptrs) j = Some i -> nth_error (concat Q) j = Some 0%Qc).
Proof. exact prob_spreads_lemma. Qed.
Print Assumptions prob_spreads.
(* two ranks, three cells, the last cell has probability zero *)
Example prob_spreads_ex : same_lengths [[0; 1]; [0; 2]] [[1; 1]; [Q2Qc 3; 1]]%Qc /\
  nonneg (concat [[1; 1]; [Q2Qc 3; 1]]%Qc) /\
  prob [Q2Qc (1 # 4); Q2Qc (3 # 4); 0]%Qc [[0; 1]; [0; 2]] [[1; 1]; [Q2Qc 3; 1]]%Qc =
  Ok [[Q2Qc (1 # 16); Q2Qc (3 # 4)]; [Q2Qc (3 # 16); 0]]%Qc.
Proof.
  split; [repeat constructor|]. split; [|qc_compute].
  simpl. intros x Hx. repeat destruct Hx as [<-|Hx]; try contradiction; now apply qleb_true.
Qed.

Theorem prob_process_independent : forall probs ptrs vols ptrs' vols',
  same_lengths ptrs vols -> same_lengths ptrs' vols' -> concat ptrs = concat ptrs' -> concat vols = concat vols' ->
  exists Q Q', prob probs ptrs vols = Ok Q /\ prob probs ptrs' vols' = Ok Q' /\ concat Q = concat Q'.
Proof. exact prob_split_lemma. Qed.
Print Assumptions prob_process_independent.
Example prob_process_independent_ex : same_lengths [[0; 1]; []] [[1; 1]; []]%Qc /\ same_lengths [[0]; [1]] [[1]; [1]]%Qc.
Proof. split; repeat constructor. Qed.

(** The only failure: pointers and volumes of different lengths on some rank. *)
Theorem prob_fails_iff : forall probs ptrs vols,
  (exists e, prob probs ptrs vols = Raise e) <-> (exists p, In p probs /\ (0 < p)%Qc) /\ ~ same_lengths ptrs vols.
Proof. exact prob_raises_lemma. Qed.
Print Assumptions prob_fails_iff.

(** C26 is false: an output cell without inputs loses its mass. *)
Theorem prob_total_one_refuted : exists probs ptrs vols Q,
  same_lengths ptrs vols /\ nonneg probs /\ nonneg (concat vols) /\ qsum probs = 1%Qc /\
  (forall i, In i (concat ptrs) -> i < length probs) /\
  prob probs ptrs vols = Ok Q /\ qsum (concat Q) <> 1%Qc.
Proof. exact prob_total_witness. Qed.
Print Assumptions prob_total_one_refuted.
(** Exactly when it holds: every cell of positive probability contains inputs of
    positive volume.  The sum never exceeds the output total. *)
Theorem prob_total_partial : forall probs ptrs vols Q, same_lengths ptrs vols -> nonneg probs ->
  (forall i, In i (concat ptrs) -> i < length probs) -> prob probs ptrs vols = Ok Q ->
  (qsum (concat Q) <= qsum probs)%Qc /\
  (qsum (concat Q) = qsum probs <->
   forall i p, nth_error probs i = Some p -> (0 < p)%Qc -> (0 < total_in (combine (concat ptrs) (concat vols)) i)%Qc).
Proof. exact prob_total_iff_lemma. Qed.
Print Assumptions prob_total_partial.

(** C27.  [ptr]: the output cell of every emulated point; [ii]: nearest input of
    every emulated point, one block per rank. *)
Theorem emulated_spreads : forall probs io_ptr ii, (forall k, In k (concat ii) -> k < length io_ptr) ->
  exists ptr Q, prob_on_emulated_samples probs io_ptr ii = Ok Q /\ same_lengths Q ii /\
  length ptr = length (concat ii) /\
  (forall j k, nth_error (concat ii) j = Some k -> nth_error ptr j = nth_error io_ptr k) /\
  (forall j i p, nth_error ptr j = Some i -> nth_error probs i = Some p -> (0 <= p)%Qc ->
      nth_error (concat Q) j = Some (p / qn (number_in ptr i))%Qc) /\
  (forall i p, nth_error probs i = Some p -> (0 <= p)%Qc -> 0 < number_in ptr i ->
      total_in (combine ptr (concat Q)) i = p).
Proof. exact emulated_lemma. Qed.
Print Assumptions emulated_spreads.
Example emulated_spreads_ex :
  prob_on_emulated_samples [Q2Qc (1 # 4); Q2Qc (3 # 4)]%Qc [1; 0; 1] [[0; 1]; [2; 2]] =
  Ok [[Q2Qc (1 # 4); Q2Qc (1 # 4)]; [Q2Qc (1 # 4); Q2Qc (1 # 4)]]%Qc /\
  forall k, In k (concat [[0; 1]; [2; 2]]) -> k < length [1; 0; 1].
Proof. split; [qc_compute|]. simpl. intros k H. lia. Qed.
Theorem emulated_process_independent : forall probs io_ptr ii ii',
  (forall k, In k (concat ii) -> k < length io_ptr) -> concat ii = concat ii' ->
  exists Q Q', prob_on_emulated_samples probs io_ptr ii = Ok Q /\ prob_on_emulated_samples probs io_ptr ii' = Ok Q' /\
    concat Q = concat Q'.
Proof. exact emulated_split_lemma. Qed.
Print Assumptions emulated_process_independent.

(** C28.  The new probabilities are the totals of the old ones per new cell (a
    function of the concatenated blocks only), ... *)
Theorem transfer_per_cell : forall num_new ptrs probs, same_lengths ptrs probs ->
  transfer num_new ptrs probs = Ok (map (total_in (combine (concat ptrs) (concat probs))) (seq 0 num_new)).
Proof. exact transfer_lemma. Qed.
Print Assumptions transfer_per_cell.
(** ... with the same total, ... *)
Theorem transfer_conserves : forall num_new ptrs probs q, same_lengths ptrs probs -> (forall i, In i (concat ptrs) -> i < num_new) ->
  transfer num_new ptrs probs = Ok q -> qsum q = qsum (concat probs).
Proof. exact transfer_total. Qed.
Print Assumptions transfer_conserves.
(** ... and non-negative. *)
Theorem transfer_nonnegative : forall num_new ptrs probs q, nonneg (concat probs) -> transfer num_new ptrs probs = Ok q -> nonneg q.
Proof. exact transfer_nonneg. Qed.
Print Assumptions transfer_nonnegative.
Example transfer_ex : transfer 3 [[0; 2]; [2]] [[Q2Qc (1 # 4); Q2Qc (1 # 4)]; [Q2Qc (1 # 2)]]%Qc =
  Ok [Q2Qc (1 # 4); 0; Q2Qc (3 # 4)]%Qc.
Proof. qc_compute. Qed.

(** C29.  [ptr1], [ptr2]: old and new cell of every emulated point. *)
Theorem transfer_emulated_conserves : forall probs num_new ptr1 ptr2, same_lengths ptr1 ptr2 -> nonneg probs ->
  (forall i, In i (concat ptr1) -> i < length probs) -> (forall i, In i (concat ptr2) -> i < num_new) ->
  (all_hit probs (concat ptr1) -> exists q, transfer_emulated probs num_new ptr1 ptr2 = Ok (map Fin q) /\
      nonneg q /\ length q = num_new /\ qsum q = qsum probs) /\
  (~ all_hit probs (concat ptr1) -> (exists i p, nth_error probs i = Some p /\ (0 < p)%Qc /\ 0 < number_in (concat ptr1) i) ->
      exists q, transfer_emulated probs num_new ptr1 ptr2 = Ok (map Fin q) /\
      nonneg q /\ length q = num_new /\ qsum q = 1%Qc).
Proof. exact transfer_emulated_lemma. Qed.
Print Assumptions transfer_emulated_conserves.
Example transfer_emulated_ex :
  transfer_emulated [Q2Qc (1 # 2); Q2Qc (1 # 2)]%Qc 2 [[0; 0]; [1]] [[0; 1]; [1]] = Ok [Fin (Q2Qc (1 # 4)); Fin (Q2Qc (3 # 4))] /\
  transfer_emulated [Q2Qc (1 # 2); Q2Qc (1 # 2)]%Qc 2 [[0; 0]; [0]] [[0; 1]; [1]] = Ok [Fin (Q2Qc (1 # 3)); Fin (Q2Qc (2 # 3))].
Proof. split; qc_compute. Qed.
Theorem transfer_emulated_process_independent : forall probs num_new ptr1 ptr2 ptr1' ptr2',
  same_lengths ptr1 ptr2 -> same_lengths ptr1' ptr2' -> concat ptr1 = concat ptr1' -> concat ptr2 = concat ptr2' ->
  transfer_emulated probs num_new ptr1 ptr2 = transfer_emulated probs num_new ptr1' ptr2'.
Proof. exact transfer_emulated_split. Qed.
Print Assumptions transfer_emulated_process_independent.
(** If no cell of positive probability is hit, the renormalization is 0/0. *)
Theorem transfer_emulated_all_missed : forall probs num_new ptr1 ptr2 q, same_lengths ptr1 ptr2 ->
  (exists p, In p probs /\ (0 < p)%Qc) ->
  (forall i p, nth_error probs i = Some p -> (0 < p)%Qc -> number_in (concat ptr1) i = 0) ->
  transfer_emulated probs num_new ptr1 ptr2 = Ok q ->
  forall i, i < num_new -> 0 < number_in (concat ptr2) i -> nth_error q i = Some NaN.
Proof. exact transfer_emulated_none_hit. Qed.
Print Assumptions transfer_emulated_all_missed.
Example transfer_emulated_all_missed_ex :
  transfer_emulated [1; 0]%Qc 2 [[1]] [[0]] = Ok [NaN; Fin 0].
Proof. qc_compute. Qed.
