From Coq Require Import List Arith ZArith QArith Qcanon.
From Verif Require Import Err Num Prob_Model Prob_Spec Rounding_Model Rounding_Spec Rounding_Proofs Rounding_Examples.
Import ListNotations.
Local Open Scope nat_scope.

(** C138: rounding errors of prob. *)
Theorem prob_rounding : forall u rnd np_sum reduce probs ptrs vols, rounding u rnd -> adds rnd np_sum -> adds rnd reduce -> same_lengths ptrs vols -> nonneg (concat vols) -> exists Q F,
  prob probs ptrs vols = Ok Q /\ prob_fl rnd np_sum reduce probs ptrs vols = Ok F /\ same_lengths Q ptrs /\ same_lengths F ptrs /\
  forall j c q f, nth_error (concat ptrs) j = Some c -> nth_error (concat Q) j = Some q -> nth_error (concat F) j = Some f ->
    close (qn (number_in (concat ptrs) c + length ptrs) * u) q f.
Proof. exact prob_rounding_lemma. Qed.
Print Assumptions prob_rounding.
Theorem prob_rounding_processes : forall u rnd np_sum reduce np_sum' reduce' probs ptrs vols ptrs' vols', rounding u rnd -> adds rnd np_sum -> adds rnd reduce -> adds rnd np_sum' -> adds rnd reduce' ->
  same_lengths ptrs vols -> same_lengths ptrs' vols' -> concat ptrs = concat ptrs' -> concat vols = concat vols' -> nonneg (concat vols) -> exists F F',
  prob_fl rnd np_sum reduce probs ptrs vols = Ok F /\ prob_fl rnd np_sum' reduce' probs ptrs' vols' = Ok F' /\ length (concat F) = length (concat F') /\
  forall j c f f', nth_error (concat ptrs) j = Some c -> nth_error (concat F) j = Some f -> nth_error (concat F') j = Some f' ->
    close (qn (2 * number_in (concat ptrs) c + length ptrs + length ptrs') * u) f f'.
Proof. exact prob_processes_lemma. Qed.
Print Assumptions prob_rounding_processes.
Theorem prob_rounding_totals : forall u rnd np_sum reduce probs ptrs vols Q F, rounding u rnd -> adds rnd np_sum -> adds rnd reduce -> same_lengths ptrs vols -> nonneg (concat vols) ->
  prob probs ptrs vols = Ok Q -> prob_fl rnd np_sum reduce probs ptrs vols = Ok F ->
  close (qn (length (concat ptrs) + length ptrs) * u) (qsum (concat Q)) (qsum (concat F)) /\
  forall i, close (qn (number_in (concat ptrs) i + length ptrs) * u) (total_in (combine (concat ptrs) (concat Q)) i) (total_in (combine (concat ptrs) (concat F)) i).
Proof. exact prob_total_rounding_lemma. Qed.
Print Assumptions prob_rounding_totals.
(** prob_from_sample_set and prob_from_discretization_input *)
Theorem transfer_rounding : forall u rnd np_sum reduce num ptrs probs T, rounding u rnd -> adds rnd np_sum -> adds rnd reduce -> nonneg (concat probs) -> transfer num ptrs probs = Ok T ->
  exists F, transfer_fl np_sum reduce num ptrs probs = Ok F /\ length F = length T /\
  forall i t f, nth_error T i = Some t -> nth_error F i = Some f -> close (qn (number_in (concat ptrs) i + length ptrs) * u) t f.
Proof. exact transfer_rounding_lemma. Qed.
Print Assumptions transfer_rounding.
Theorem close_error : forall e a b, (0 <= e)%Qc -> (e < 1)%Qc -> (0 <= a)%Qc -> close e a b -> (qabs (b - a) <= e / (1 - e) * a)%Qc.
Proof. exact close_error_lemma. Qed.
Print Assumptions close_error.
(** Rounding to 53 binary digits and adding from left to right meets the
    hypotheses; the result with 8 digits beside the exact one. *)
Example rounding_case : rounding (unit_of 53) (round_to 53) /\ adds (round_to 53) (left_sum (round_to 53)) /\
  same_lengths rounding_ptrs rounding_vols /\ nonneg (concat rounding_vols) /\
  shown (prob_fl (round_to 8) (left_sum (round_to 8)) (left_sum (round_to 8)) rounding_probs rounding_ptrs rounding_vols) =
    [[135 # 1024; 179 # 256]; [231 # 4096; 231 # 2048]]%Q /\
  shown (prob rounding_probs rounding_ptrs rounding_vols) = [[21 # 160; 7 # 10]; [9 # 160; 9 # 80]]%Q.
Proof.
  split; [apply round_to_rounding; reflexivity|]. split; [apply left_sum_adds|]. split; [repeat constructor|]. split; [exact rounding_vols_nonneg|]. exact rounding_shown.
Qed.
