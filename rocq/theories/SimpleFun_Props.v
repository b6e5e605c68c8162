(** C30, C31, C67, C68: simple function approximations. *)
From Coq Require Import List Arith Bool ZArith QArith Qcanon Lia.
From Verif Require Import Err Num Ext Show Query_Model Query_Spec Volume_Model Volume_Spec
  SimpleFun_Model SimpleFun_Spec SimpleFun_Proofs.
Import ListNotations.
Local Open Scope nat_scope.

(** C30: uniform partitions.  [draw r k]: the k points drawn by rank r. *)
Theorem binned_probabilities : forall X M n P (ptr : X -> nat) draw, 0 < n -> 0 < P -> (forall r k, length (draw r k) = k) ->
  (forall x, ptr x < M) ->
  let blocks := emulate_blocks draw n P in
  binned M n ptr blocks = map (fun i => Fin (fraction ptr (concat blocks) i)) (seq 0 M) /\
  probability_vector (binned M n ptr blocks).
Proof. exact @binned_prob. Qed.
Print Assumptions binned_probabilities.
Example binned_probabilities_ex :
  let draw := fun r k => map (fun j => (r + j) mod 3) (seq 0 k) in
  (forall r k, length (draw r k) = k) /\ (forall r k x, In x (draw r k) -> x < 3) /\
  binned 3 7 (fun x => x) (emulate_blocks draw 7 3) = map Fin [Q2Qc (2 # 7); Q2Qc (2 # 7); Q2Qc (3 # 7)].
Proof.
  split; [intros; rewrite map_length, seq_length; reflexivity|]. split.
  - intros r k x Hx. apply in_map_iff in Hx. destruct Hx as (j & <- & _). apply Nat.mod_upper_bound. lia.
  - qc_compute.
Qed.
(** The user partition does not depend on the number of processes at all. *)
Theorem user_partition_probabilities : forall X M (ptr : X -> nat) pts P, 0 < P -> pts <> [] -> (forall x, In x pts -> ptr x < M) ->
  user_partition M ptr pts P = map (fun i => Fin (fraction ptr pts i)) (seq 0 M) /\
  probability_vector (user_partition M ptr pts P).
Proof. exact @user_partition_prob. Qed.
Print Assumptions user_partition_probabilities.
Example user_partition_ex : user_partition 2 (fun x => x) [0; 1; 1] 4 = map Fin [Q2Qc (1 # 3); Q2Qc (2 # 3)].
Proof. qc_compute. Qed.
(** The normal partition is normalized (w = 1/pdf > 0) and depends on the draws
    only, not on their distribution over the ranks. *)
Theorem normal_partition_probabilities : forall X M n P (ptr : X -> nat) w draw, 0 < n -> 0 < P -> (forall r k, length (draw r k) = k) ->
  (forall x, ptr x < M) -> (forall x, (0 < w x)%Qc) -> probability_vector (normal_partition M ptr w (emulate_blocks draw n P)).
Proof. exact @normal_partition_prob. Qed.
Print Assumptions normal_partition_probabilities.
Theorem normal_partition_process_independent : forall X M (ptr : X -> nat) w b b', concat b = concat b' ->
  normal_partition M ptr w b = normal_partition M ptr w b'.
Proof. exact @normal_partition_independent. Qed.
Print Assumptions normal_partition_process_independent.
(** The data samples as cells: equal probabilities. *)
Theorem data_samples_uniform : forall num, 0 < num -> length (data_samples num) = num /\ probability_vector (data_samples num) /\
  forall x, In x (data_samples num) -> x = Fin (1 / qn num)%Qc.
Proof. exact data_samples_prob. Qed.
Print Assumptions data_samples_uniform.

(** C67 is false: normal_partition_normal_distribution does not give a cell the
    fraction of the draws that fall into it, even if the density is constant on
    the draws. *)
Theorem normal_partition_fractions_refuted : exists M (ptr : nat -> nat) (w : nat -> Qc) blocks,
  (forall x, In x (concat blocks) -> ptr x < M) /\ (forall x, (0 < w x)%Qc) /\
  normal_partition M ptr w blocks <> map (fun i => Fin (fraction ptr (concat blocks) i)) (seq 0 M).
Proof. exact normal_partition_witness. Qed.
Print Assumptions normal_partition_fractions_refuted.

(** C31: the regular partition. *)
Theorem regular_partition_uniform : forall dim Q size cells, length Q = dim -> length size = dim -> length cells = dim -> 1 <= dim ->
  (forall s, In s size -> (0 < s)%Qc) -> (forall n, In n cells -> 0 < n) ->
  exists st, regular_partition dim Q size cells =
    Ok (st, map Fin (repeat (1 / qn (nat_prod cells))%Qc (nat_prod cells) ++ [0%Qc])) /\
  cart_setup dim (edges_of Q size cells) = Ok st /\
  length (lefts st) = nat_prod cells /\
  (forall i l r, nth_error (lefts st) i = Some l -> nth_error (rights st) i = Some r -> cell_sides size cells l r).
Proof. exact regular_ok. Qed.
Print Assumptions regular_partition_uniform.
Example regular_partition_ex : exists st, regular_partition 2 [0; 1]%Qc [1; Q2Qc 2]%Qc [2; 1] = Ok (st, map Fin [Q2Qc (1 # 2); Q2Qc (1 # 2); 0]%Qc) /\
  lefts st = [[Q2Qc (-1 # 2); 0]; [0; 0]]%Qc /\ rights st = [[0; Q2Qc 2]; [Q2Qc (1 # 2); Q2Qc 2]]%Qc.
Proof.
  destruct (regular_partition 2 [0; 1]%Qc [1; Q2Qc 2]%Qc [2; 1]) as [[st pr]|] eqn:E; [|vm_compute in E; discriminate].
  exists st. assert (Ep : map (fun x => match x with Fin q => q | _ => 0%Qc end) pr = [Q2Qc (1 # 2); Q2Qc (1 # 2); 0]%Qc /\ forallb finite pr = true).
  { apply (f_equal (fun r => match r with Ok (_, p) => p | _ => [] end)) in E. rewrite <- E. split; [qc_compute|reflexivity]. }
  assert (El : lefts st = lefts (match regular_partition 2 [0; 1]%Qc [1; Q2Qc 2]%Qc [2; 1] with Ok (s, _) => s | _ => st end)) by (rewrite E; reflexivity).
  assert (Er : rights st = rights (match regular_partition 2 [0; 1]%Qc [1; Q2Qc 2]%Qc [2; 1] with Ok (s, _) => s | _ => st end)) by (rewrite E; reflexivity).
  split; [|split; [rewrite El; qc_compute|rewrite Er; qc_compute]].
  f_equal. f_equal. destruct Ep as [Ep Ef]. rewrite <- Ep. clear -Ef. induction pr as [|x pr IH]; [reflexivity|].
  simpl in Ef. apply andb_prop in Ef. destruct Ef as [Ex Ef]. cbn [map]. f_equal; [destruct x; try discriminate; reflexivity|apply IH; exact Ef].
Qed.
(** Its cells fill the box around Q_ref (with C16: a partition). *)
Theorem regular_partition_breakpoints : forall dim Q size cells, length Q = dim -> length size = dim -> length cells = dim -> 1 <= dim ->
  (forall s, In s size -> (0 < s)%Qc) -> (forall n, In n cells -> 0 < n) ->
  map (fun l => (hd 0%Qc l, last l 0%Qc)) (edges_of Q size cells) = box_of Q size /\
  forall l, In l (edges_of Q size cells) -> breakpoints l.
Proof. exact regular_edges. Qed.
Print Assumptions regular_partition_breakpoints.
Theorem regular_partition_rejects_sizes : forall dim Q size cells s, In s size -> (s <= 0)%Qc ->
  regular_partition dim Q size cells = Raise WrongArgumentType.
Proof. exact regular_rejects. Qed.
Print Assumptions regular_partition_rejects_sizes.

(** C68: a domain given by two opposite corners yields exactly that box. *)
Theorem rectangle_domain_box : forall a b, length a = length b ->
  box_of (domain_center a b) (domain_lengths a b) =
  map (fun p => (qmin (fst p) (snd p), qmax (fst p) (snd p))) (combine a b).
Proof. exact domain_box. Qed.
Print Assumptions rectangle_domain_box.
