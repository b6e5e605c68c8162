From Coq Require Import List Arith ZArith QArith Qcanon.
From Verif Require Import Err Num Prob_Model Prob_Spec Rounding_Model Rounding_Spec Rounding_Examples RoundingEnd_Model RoundingEnd_Spec RoundingEnd_Proofs RoundingEnd_Examples.
Import ListNotations.
Local Open Scope nat_scope.

(** C191: rounding errors from the volumes to the moved probabilities. *)
Theorem volumes_rounding : forall u rnd n counts total, rounding u rnd -> 0 < total ->
  all_within u 1 (repeat (1 / qn n)%Qc n) (mc_fl rnd n) /\ all_within u 1 (map (fun c => qn c / qn total)%Qc counts) (emulated_fl rnd counts total).
Proof. exact volumes_rounding_lemma. Qed.
Print Assumptions volumes_rounding.
(** Errors in the given output probabilities and volumes *)
Theorem solution_rounding : forall u rnd np_sum reduce, rounding u rnd -> adds rnd np_sum -> adds rnd reduce -> forall a b probs probs' ptrs vols vols',
  same_lengths ptrs vols -> same_lengths ptrs vols' -> all_within u a probs probs' -> all_within u b (concat vols) (concat vols') -> exists Q F,
  prob probs ptrs vols = Ok Q /\ prob_fl rnd np_sum reduce probs' ptrs vols' = Ok F /\ same_lengths Q ptrs /\ same_lengths F ptrs /\
  forall j c q f, nth_error (concat ptrs) j = Some c -> nth_error (concat Q) j = Some q -> nth_error (concat F) j = Some f ->
    within u (a + 2 * b + (number_in (concat ptrs) c + length ptrs)) q f.
Proof. exact solution_rounding_lemma. Qed.
Print Assumptions solution_rounding.
(** The rounding of equal volumes does not matter *)
Theorem mc_rounding : forall u rnd np_sum reduce, rounding u rnd -> adds rnd np_sum -> adds rnd reduce -> forall a probs probs' ptrs vols vols' n,
  same_lengths ptrs vols -> same_lengths ptrs vols' -> 0 < n -> length (concat ptrs) = n -> concat vols = repeat (1 / qn n)%Qc n -> concat vols' = mc_fl rnd n -> all_within u a probs probs' -> exists Q F,
  prob probs ptrs vols = Ok Q /\ prob_fl rnd np_sum reduce probs' ptrs vols' = Ok F /\ same_lengths Q ptrs /\ same_lengths F ptrs /\
  forall j c q f, nth_error (concat ptrs) j = Some c -> nth_error (concat Q) j = Some q -> nth_error (concat F) j = Some f ->
    within u (a + (number_in (concat ptrs) c + length ptrs)) q f.
Proof. exact mc_rounding_lemma. Qed.
Print Assumptions mc_rounding.
Theorem emulated_rounding : forall u rnd np_sum reduce, rounding u rnd -> adds rnd np_sum -> adds rnd reduce -> forall a probs probs' ptrs vols vols' counts total,
  same_lengths ptrs vols -> same_lengths ptrs vols' -> 0 < total -> concat vols = map (fun c => qn c / qn total)%Qc counts -> concat vols' = emulated_fl rnd counts total -> all_within u a probs probs' -> exists Q F,
  prob probs ptrs vols = Ok Q /\ prob_fl rnd np_sum reduce probs' ptrs vols' = Ok F /\ same_lengths Q ptrs /\ same_lengths F ptrs /\
  forall j c q f, nth_error (concat ptrs) j = Some c -> nth_error (concat Q) j = Some q -> nth_error (concat F) j = Some f ->
    within u (a + 2 + (number_in (concat ptrs) c + length ptrs)) q f.
Proof. exact emulated_rounding_lemma. Qed.
Print Assumptions emulated_rounding.
(** prob_on_emulated_samples rounds once *)
Theorem emulated_points_rounding : forall u rnd a probs probs' io_ptr ii, rounding u rnd -> (forall k, In k (concat ii) -> k < length io_ptr) -> all_within u a probs probs' -> exists Q F,
  prob_on_emulated_samples probs io_ptr ii = Ok Q /\ prob_on_emulated_fl rnd probs' io_ptr ii = Ok F /\ same_lengths Q ii /\ same_lengths F ii /\
  all_within u (a + 1) (concat Q) (concat F).
Proof. exact emulated_points_lemma. Qed.
Print Assumptions emulated_points_rounding.
(** prob_from_sample_set, of probabilities that carry errors *)
Theorem moved_rounding : forall u rnd np_sum reduce k num ptrs probs probs' T, rounding u rnd -> adds rnd np_sum -> adds rnd reduce -> same_lengths ptrs probs' -> all_within u k (concat probs) (concat probs') -> transfer num ptrs probs = Ok T ->
  exists F, transfer_fl np_sum reduce num ptrs probs' = Ok F /\ length F = length T /\
  forall i t f, nth_error T i = Some t -> nth_error F i = Some f -> within u (k + (number_in (concat ptrs) i + length ptrs)) t f.
Proof. exact moved_rounding_lemma. Qed.
Print Assumptions moved_rounding.
Theorem rounding_chain : forall u rnd np_sum reduce a probs probs' ptrs vols vols' counts total num ptrs2 Q T, rounding u rnd -> adds rnd np_sum -> adds rnd reduce ->
  same_lengths ptrs vols -> same_lengths ptrs vols' -> same_lengths ptrs2 ptrs -> 0 < total -> concat vols = map (fun c => qn c / qn total)%Qc counts -> concat vols' = emulated_fl rnd counts total -> all_within u a probs probs' ->
  prob probs ptrs vols = Ok Q -> transfer num ptrs2 Q = Ok T -> exists F G,
  prob_fl rnd np_sum reduce probs' ptrs vols' = Ok F /\ transfer_fl np_sum reduce num ptrs2 F = Ok G /\ length G = length T /\
  forall i t g, nth_error T i = Some t -> nth_error G i = Some g ->
    close (qn (a + 2 + (length (concat ptrs) + length ptrs) + (number_in (concat ptrs2) i + length ptrs2)) * u) t g.
Proof. exact rounding_chain_lemma. Qed.
Print Assumptions rounding_chain.
Theorem within_close : forall u k a b, (0 <= u)%Qc -> (u < 1)%Qc -> within u k a b -> close (qn k * u) a b.
Proof. exact within_close_lemma. Qed.
Print Assumptions within_close.
(** Seven points in four cells, 8 binary digits: exact and rounded probabilities
    after a move to two new samples. *)
Example end_case : rounding (unit_of 8) end_rnd /\ adds end_rnd (left_sum end_rnd) /\
  concat end_vols = map (fun c => qn c / qn 7)%Qc end_counts /\ concat end_vols_fl = emulated_fl end_rnd end_counts 7 /\
  all_within (unit_of 8) 0 rounding_probs rounding_probs /\ end_line end_exact = [47 # 50; 3 # 50]%Q /\ end_line end_floats = [15 # 16; 245 # 4096]%Q.
Proof.
  split; [apply round_to_rounding; reflexivity|]. split; [apply left_sum_adds|]. split; [reflexivity|]. split; [reflexivity|]. split; [|exact end_shown].
  repeat constructor; discriminate.
Qed.
