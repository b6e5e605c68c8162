(** C117: clusters learned by LUQ. *)
From Coq Require Import ZArith List Arith Lia QArith Qcanon.
From Verif Require Import Err Num Inverse_Model Inverse_Spec Luq_Model Luq_Spec Luq_Proofs.
Import ListNotations.
Local Open Scope nat_scope.

(** On one process, with an observation set, the weight of each sample is the
    ratio of its cluster at its transformed data. *)
Theorem luq_inversion_partial : forall V R (zero : R) (l : luq V) ratio, learned l ->
  exists w rs ptrs, luq_invert zero 1 true l ratio = Ok (w, rs, ptrs) /\ length w = length (predict_labels l) /\
    forall k i v, transformed l k i v -> nth_error w k = Some (ratio i v).
Proof. exact one_process_lemma. Qed.
Print Assumptions luq_inversion_partial.
Theorem luq_every_sample_transformed : forall V (l : luq V), learned l ->
  forall k, k < length (predict_labels l) -> exists i v, transformed l k i v.
Proof. exact transformed_total. Qed.
Print Assumptions luq_every_sample_transformed.
Definition luq5 : luq nat := mk_luq [0; 1; 1; 0; 1]%Z [[10; 40]; [20; 30; 50]] [1; 0; 1; 0]%Z [[7; 6]; [8; 9]].
Example luq_inversion_ex : learned luq5 /\
  luq_invert 0 1 true luq5 (fun i v => v + i) = Ok ([10; 21; 31; 40; 51], [Some [10; 40]; Some [21; 31; 51]], [[0; 3]; [1; 2; 4]]).
Proof.
  split; [|reflexivity]. split; [cbn; lia|]. split; [reflexivity|]. split; [|split].
  - intros z H. cbn in H. repeat (destruct H as [<-|H]; [cbn; lia|]). contradiction.
  - intros [|[|i]] m Hm; cbn in Hm; [injection Hm as <- | injection Hm as <- | destruct i; discriminate]; cbn; lia.
  - intros m [<-|[<-|[]]]; cbn; lia.
Qed.

(** The region labels are those of LUQ exactly on one process. *)
Theorem luq_labels_refuted : forall V P b (l : luq V),
  fst (make_disc_regions P b l) = predict_labels l <-> P = 1 \/ predict_labels l = [].
Proof. exact labels_iff_lemma. Qed.
Print Assumptions luq_labels_refuted.
Theorem luq_processes_refuted : forall V R (zero : R) P (l : luq V) ratio, learned l -> 2 <= P ->
  luq_invert zero P true l ratio = Raise PyValueError.
Proof. exact many_processes_lemma. Qed.
Print Assumptions luq_processes_refuted.
(** Without an observation set (observed series given by hand) the labels are
    overwritten and it always fails. *)
Theorem luq_observed_series_refuted : forall V R (zero : R) P (l : luq V) ratio, learned l -> 1 <= P ->
  luq_invert zero P false l ratio = Raise PyValueError.
Proof. exact no_obs_lemma. Qed.
Print Assumptions luq_observed_series_refuted.
