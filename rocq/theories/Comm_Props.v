(** C113: running without mpi4py. *)
From Coq Require Import List Arith Bool QArith Qcanon Lia.
From Verif Require Import Err Num NumPy Comm_Model Comm_Spec Comm_Proofs.
Import ListNotations.
Local Open Scope nat_scope.

(** A program that makes only replaceable calls ends with the replacement as it
    does on one MPI process; and every way the package communicates is of this kind. *)
Theorem fallback_is_one_process : forall A (p : prog A), only_replaceable p -> forall o, runs [p] o <-> o = Some [serial p].
Proof. exact (fun A p H => runs_iff _ _ (fallback_runs p H)). Qed.
Print Assumptions fallback_is_one_process.
Theorem package_calls_replaceable : forall op a combs search best,
  only_replaceable (reduce_copy op a) /\ (forall q, only_replaceable (reduce_number op q)) /\ only_replaceable (global_values 1 a) /\ only_replaceable (search_best 1 0 combs search best).
Proof. exact (fun op a combs search best => conj (reduce_copy_replaceable op a) (conj (reduce_number_replaceable op) (conj (global_values_replaceable a) (search_best_replaceable combs search best)))). Qed.
Print Assumptions package_calls_replaceable.
Example fallback_ex : serial (search_best 1 0 [VNum 1%Qc; VNum 0%Qc] (fun v => v) (fun v => v)) = VList [VList [VNum 1%Qc; VNum 0%Qc]] /\
  serial (reduce_copy Sum [1%Qc; 0%Qc]) = VArr [1%Qc; 0%Qc].
Proof. split; reflexivity. Qed.
(** For a single call this is exact. *)
Theorem replaceable_iff : forall c, mpi [c] = Some [fallback c] <-> replaceable c.
Proof. exact one_process_call. Qed.
Print Assumptions replaceable_iff.
(** So a user's own reduction into a fresh buffer is silently not carried out. *)
Theorem fresh_buffer_not_filled : forall op send recv, recv <> send -> fallback (Allreduce_buf op send recv) = VArr recv /\
  mpi [Allreduce_buf op send recv] <> Some [VArr recv].
Proof. exact (fun op send recv H => conj eq_refl (not_replaceable_differs (Allreduce_buf op send recv) H)). Qed.
Print Assumptions fresh_buffer_not_filled.
Example fresh_buffer_ex : fallback (Allreduce_buf Sum [1%Qc] [0%Qc]) = VArr [0%Qc] /\ mpi [Allreduce_buf Sum [1%Qc] [0%Qc]] = Some [VArr [1%Qc]].
Proof. split; reflexivity. Qed.

(** Up to Python 3.9 the replacement never raises; from Python 3.10 on exactly the
    programs that scatter raise, and of the ways the package communicates these
    are the searches for optimal QoIs. *)
Theorem replacement_versions : forall A (p : prog A), serial_version true p = Ok (serial p) /\
  (no_scatter p -> serial_version false p = Ok (serial p)) /\ (~ no_scatter p -> serial_version false p = Raise PyAttributeError).
Proof. exact (fun A p => conj (version_old p) (version_new p)). Qed.
Print Assumptions replacement_versions.
Theorem searches_need_old_python : forall op a combs search best, serial_version false (reduce_copy op a) = Ok (serial (reduce_copy op a)) /\
  serial_version false (global_values 1 a) = Ok (serial (global_values 1 a)) /\ (forall q, serial_version false (reduce_number op q) = Ok (serial (reduce_number op q))) /\
  serial_version false (search_best 1 0 combs search best) = Raise PyAttributeError.
Proof. exact package_versions. Qed.
Print Assumptions searches_need_old_python.

(** On several processes every process gets the same: the sums, the joined
    blocks, the best of all candidates. *)
Theorem reduce_copy_sums : forall bs n, bs <> [] -> (forall b, In b bs -> length b = n) ->
  forall o, runs (map (reduce_copy Sum) bs) o <-> o = Some (map (fun _ => VArr (column_sums bs n)) bs).
Proof. exact (fun bs n NE H => runs_iff _ _ (reduce_sum_runs bs n NE H)). Qed.
Print Assumptions reduce_copy_sums.
(** The maximum (the radii of the cells). *)
Theorem reduce_copy_max : forall bs n, bs <> [] -> (forall b, In b bs -> length b = n) -> exists out,
  length out = n /\ (forall j, j < n -> largest (nth j out 0%Qc) (map (fun b => nth j b 0%Qc) bs)) /\
  forall o, runs (map (reduce_copy Max) bs) o <-> o = Some (map (fun _ => VArr out) bs).
Proof. exact reduce_max_lemma. Qed.
Print Assumptions reduce_copy_max.
(** One number of every process. *)
Theorem reduce_number_everywhere : forall qs, qs <> [] ->
  (forall o, runs (map (reduce_number Sum) qs) o <-> o = Some (map (fun _ => VNum (qsum qs)) qs)) /\
  exists m, largest m qs /\ forall o, runs (map (reduce_number Max) qs) o <-> o = Some (map (fun _ => VNum m) qs).
Proof. exact reduce_number_lemma. Qed.
Print Assumptions reduce_number_everywhere.
(** Lists are joined in the order of the processes; there is no largest list. *)
Theorem reduce_lists_joined : forall ls, ls <> [] -> mpi (map (fun l => Allreduce_obj Sum (VList l)) ls) = Some (map (fun _ => VList (concat ls)) ls) /\
  (2 <= length ls -> mpi (map (fun l => Allreduce_obj Max (VList l)) ls) = None).
Proof. exact reduce_lists_lemma. Qed.
Print Assumptions reduce_lists_joined.
Example reduce_lists_ex : mpi (map (fun l => Allreduce_obj Sum (VList l)) [[VNum 1%Qc]; [VNum 0%Qc; VNum 1%Qc]]) = Some (repeat (VList [VNum 1%Qc; VNum 0%Qc; VNum 1%Qc]) 2).
Proof. exact (proj1 (reduce_lists_lemma [[VNum 1%Qc]; [VNum 0%Qc; VNum 1%Qc]] ltac:(discriminate))). Qed.
(** Arrays of different lengths or different operations: no process gets a result. *)
Theorem reduce_copy_misfit : forall op bs b c, In b bs -> In c bs -> length b <> length c -> forall o, runs (map (reduce_copy op) bs) o <-> o = None.
Proof. exact reduce_misfit_lemma. Qed.
Print Assumptions reduce_copy_misfit.
Theorem reduce_different_operations : forall q r a b,
  (forall o, runs [reduce_number Sum q; reduce_number Max r] o <-> o = None) /\ (forall o, runs [reduce_copy Sum a; reduce_copy Max b] o <-> o = None).
Proof. exact reduce_other_op_lemma. Qed.
Print Assumptions reduce_different_operations.
Theorem global_values_joins : forall bs, bs <> [] ->
  forall o, runs (map (global_values (length bs)) bs) o <-> o = Some (map (fun _ => VArr (concat bs)) bs).
Proof. exact (fun bs NE => runs_iff _ _ (global_values_runs bs NE)). Qed.
Print Assumptions global_values_joins.
Theorem search_best_everywhere : forall P combs search best, 0 < P ->
  forall o, runs (map (fun r => search_best P r combs search best) (seq 0 P)) o <->
    o = Some (repeat (best (VList (map (fun b => search (VList b)) (array_split combs P)))) P).
Proof. exact (fun P combs search best HP => runs_iff _ _ (search_best_runs P combs search best HP)). Qed.
Print Assumptions search_best_everywhere.
Example reduce_max_ex : largest 1%Qc (map (fun b => nth 1 b 0%Qc) [[1; 0]; [1; 1]]%Qc) /\ mpi (map (fun b => Allreduce_buf Max b b) [[1; 0]; [1; 1]]%Qc) = Some (repeat (VArr [1; 1]%Qc) 2).
Proof. split; [split; [right; left; reflexivity | intros x [<-|[<-|[]]]; discriminate] | reflexivity]. Qed.
Example reduce_copy_ex : column_sums [[1; 0]; [1; 1]]%Qc 2 = [Q2Qc 2; 1%Qc].
Proof. reflexivity. Qed.
