(** C139, C140: processes at any relative speed. *)
From Coq Require Import String List Arith Bool QArith Qcanon.
From Verif Require Import Err Num Ext Show Prob_Model SampleSet_Model Volume_Model Spmd_Model Spmd_Spec Spmd_Examples Spmd_Proofs.
From Verif Require Post_Model PlotP_Model PlotP_Examples.
Import ListNotations.
Local Open Scope nat_scope.

(** ** C139 *)
(** Whatever the programs of the processes are, the order in which the processes
    run does not matter: every run is over after a bounded number of steps, and
    all runs end in the same way. *)
Theorem schedule_irrelevant {V A} (ps : list (prog V A)) : exists fs, always_ends ps fs.
Proof. exact (always_ends_lemma ps). Qed.
Theorem outcome_unique {V A} (ps fs gs : list (prog V A)) : always_ends ps fs -> always_ends ps gs -> fs = gs.
Proof. exact (outcome_unique_lemma ps fs gs). Qed.
Theorem hang_is_no_end {V A} (ps : list (prog V A)) rs : hangs ps -> ~ finishes ps rs.
Proof. exact (hangs_not_finishes ps rs). Qed.

(** prob: process r ends with block r of the probabilities. *)
Theorem prob_any_schedule probs ptrs vols res : ptrs <> [] -> length ptrs = length vols ->
  prob probs ptrs vols = Ok res ->
  finishes (map (fun b => prob_local probs (fst b) (snd b)) (combine ptrs vols)) (map Ok res).
Proof. exact (prob_local_finishes probs ptrs vols res). Qed.
(** With globalize every process also has all probabilities. *)
Theorem prob_globalize_any_schedule probs ptrs vols res : ptrs <> [] -> length ptrs = length vols ->
  prob probs ptrs vols = Ok res ->
  finishes (map (fun b => prob_global (length ptrs) probs (fst b) (snd b)) (combine ptrs vols))
           (map (fun l => Ok (l, concat res)) res).
Proof. exact (prob_global_finishes probs ptrs vols res). Qed.
Example prob_any_schedule_ex : ex_ptrs <> [] /\ length ex_ptrs = length ex_vols /\
  prob ex_probs ex_ptrs ex_vols = Ok [[Q2Qc (1 # 4); Q2Qc (3 # 8)]; [Q2Qc (3 # 8)]].
Proof. split; [discriminate|split; [reflexivity|]]. cbv [prob]. qc_compute. Qed.
(** A run of these two processes in which process 1 waits for process 0. *)
Example prob_run_ex : exists s t,
  step (start (map (fun b => prob_local ex_probs (fst b) (snd b)) (combine ex_ptrs ex_vols))) s /\ step s t.
Proof.
  eexists. eexists. split.
  - eapply (enter _ 1). reflexivity.
  - eapply (enter _ 0). reflexivity.
Qed.

(** prob_from_sample_set: every process ends with all new probabilities. *)
Theorem transfer_any_schedule num_new ptrs prs res : ptrs <> [] -> transfer num_new ptrs prs = Ok res ->
  finishes (map (fun b => transfer_local num_new (fst b) (snd b)) (combine ptrs prs)) (map (fun _ => Ok res) ptrs).
Proof. exact (transfer_finishes num_new ptrs prs res). Qed.
Example transfer_any_schedule_ex : ex_ptrs <> [] /\
  transfer 2 ex_ptrs ex_vols = Ok [Q2Qc (1 # 2); Q2Qc (1 # 2)].
Proof. split; [discriminate|]. cbv [transfer]. qc_compute. Qed.

(** estimate_volume_emulated and calculate_1D_marginal_probs *)
Theorem volume_emulated_any_schedule {X} num (ptr : X -> nat) (blocks : list (list X)) : blocks <> [] ->
  finishes (map (fun b => volume_emulated_local num (map ptr b)) blocks)
           (map (fun _ => Ok (estimate_volume_emulated num ptr blocks)) blocks).
Proof. exact (volume_emulated_finishes num ptr blocks). Qed.
Theorem marginals_any_schedule domain nbins dim (blocks : list (list (list Qc * Qc))) : blocks <> [] ->
  finishes (map (marginals_local domain nbins dim) blocks)
           (map (fun _ => Ok (map (Post_Model.marginal_1D domain nbins blocks) (seq 0 dim))) blocks).
Proof. exact (marginals_finishes domain nbins dim blocks). Qed.
Example volume_emulated_any_schedule_ex :
  estimate_volume_emulated 2 (fun k : nat => k) ex_ptrs = [Fin (Q2Qc (1 # 3)); Fin (Q2Qc (2 # 3))].
Proof. cbv [estimate_volume_emulated]. qc_compute. Qed.

(** check_num, local_to_global and global_to_local of a sample set *)
Theorem check_num_any_schedule {R} P (s : sset R) n : 0 < P -> check_num P s = Ok n ->
  finishes (map (fun r => rcheck_num (part s r)) (seq 0 P)) (repeat (Ok n) P).
Proof. exact (rcheck_num_finishes P s n). Qed.
Theorem local_to_global_any_schedule {R} P (s : sset R) : 0 < P -> blocks_per_rank P s ->
  finishes (map (fun r => rlocal_to_global P (part s r)) (seq 0 P))
           (map (fun r => rmap (fun s' => part s' r) (local_to_global s)) (seq 0 P)).
Proof. exact (rlocal_to_global_finishes P s). Qed.
Theorem global_to_local_any_schedule {R} P (s s' : sset R) : 0 < P -> blocks_per_rank P s -> global_to_local P s = Ok s' ->
  exists rs, finishes (map (fun r => rglobal_to_local P r (part s r)) (seq 0 P)) rs /\ length rs = P /\
    forall r x, nth_error rs r = Some x -> exists y, x = Ok y /\ same_part y (part s' r).
Proof. exact (rglobal_to_local_finishes P s s'). Qed.
Example sets_any_schedule_ex : blocks_per_rank 2 ex_set /\ check_num 2 ex_set = Ok 3 /\
  (exists s', local_to_global ex_set = Ok s' /\ glob s' Volumes = Some (col [1; 2; 3]%Z)) /\
  (exists s', global_to_local 2 ex_set = Ok s' /\ local_index s' = Some [[0; 1]; [2]]).
Proof.
  split; [intros a bs; destruct a; try discriminate; intros [= <-]; reflexivity|].
  split; [reflexivity|]. split; eexists; split; reflexivity.
Qed.

(** ** C140 *)
(** prob: volumes of the wrong length on some processes, but not on all of them.
    The former raise, the latter wait for ever. *)
Theorem prob_error_hangs_refuted probs (bs : list (list nat * list Qc)) b c :
  existsb (qltb 0) probs = true -> In b bs -> In c bs ->
  length (fst b) = length (snd b) -> length (fst c) <> length (snd c) ->
  hangs (map (fun b => prob_local probs (fst b) (snd b)) bs).
Proof. exact (prob_hangs probs bs b c). Qed.
Example prob_error_hangs_ex : hangs (map (fun b => prob_local ex_probs (fst b) (snd b)) ex_short).
Proof.
  apply (prob_error_hangs_refuted ex_probs ex_short ([0; 1], [Q2Qc (1 # 2); Q2Qc (1 # 4)]) ([1], [])).
  reflexivity. left; reflexivity. right; left; reflexivity. reflexivity. discriminate.
Qed.
(** On all of them: every process raises. *)
Theorem prob_error_everywhere_partial probs (bs : list (list nat * list Qc)) :
  existsb (qltb 0) probs = true -> bs <> [] ->
  (forall b, In b bs -> length (fst b) <> length (snd b)) ->
  finishes (map (fun b => prob_local probs (fst b) (snd b)) bs) (map (fun _ => Raise PyIndexError) bs).
Proof. exact (prob_all_raise probs bs). Qed.
Example prob_error_everywhere_ex : existsb (qltb 0) ex_probs = true /\
  forall b, In b [([0; 1], [Q2Qc 1]); ([1], [])] -> length (fst b) <> length (snd b).
Proof. split; [reflexivity|]. intros b [<-|[<-|[]]]; discriminate. Qed.

(** prob_from_sample_set: the same *)
Theorem transfer_error_hangs_refuted num_new (bs : list (list nat * list Qc)) b c : 0 < num_new -> In b bs -> In c bs ->
  length (fst b) = length (snd b) -> length (fst c) <> length (snd c) ->
  hangs (map (fun b => transfer_local num_new (fst b) (snd b)) bs).
Proof. exact (transfer_hangs num_new bs b c). Qed.

(** check_num with local arrays of different lengths on some processes only *)
Theorem check_num_error_hangs_refuted {R} P (s : sset R) r q e m :
  (forall a, glob s a = None) -> r < P -> q < P ->
  check_num_local s r = Raise e -> check_num_local s q = Ok m ->
  hangs (map (fun r => rcheck_num (part s r)) (seq 0 P)).
Proof. exact (check_num_hangs P s r q e m). Qed.
Example check_num_error_hangs_ex : (forall a, glob ex_bad_set a = None) /\
  check_num_local ex_bad_set 1 = Raise LengthNotMatching /\ check_num_local ex_bad_set 0 = Ok (Some 2).
Proof. repeat split. Qed.

(** The plots of marginals: only process 0 draws.  If drawing fails, all others
    wait for ever; if it succeeds, all end. *)
Theorem plot_error_hangs_refuted {A} P e : 1 < P -> hangs (map (fun r => @plot_rank A r (Raise e)) (seq 0 P)).
Proof. exact (plot_hangs P e). Qed.
Theorem plot_any_schedule_partial {A} P (a : A) : 0 < P ->
  finishes (map (fun r => plot_rank r (Ok a)) (seq 0 P)) (map (fun r => Ok (if r =? 0 then Some a else None)) (seq 0 P)).
Proof. exact (plot_finishes P a). Qed.
(** e.g. no label for parameter 0 *)
Example plot_error_ex :
  PlotP_Model.plot_1D_marginal_probs [(0, PlotP_Examples.ex_m)] (PlotP_Examples.ex_bins 2 2)
    (PlotP_Model.MSet PlotP_Examples.ex_mset) "out" None (Some []) ".png" = Raise PyIndexError.
Proof. reflexivity. Qed.

(** local_to_global with different arrays on the processes: no error, and the
    global probabilities of process 0 contain the volumes of process 1. *)
Theorem local_to_global_mixes_refuted {R} (x y : arr R) : tail_shape x = tail_shape y -> exists a b,
  finishes [rlocal_to_global 2 (ex_left x); rlocal_to_global 2 (ex_right y)] [Ok a; Ok b] /\
  rglob a Probabilities = Some (mk_arr (rows x ++ rows y) (tail_shape x)) /\ rglob a Volumes = None /\
  rglob b Volumes = Some (mk_arr (rows x ++ rows y) (tail_shape x)) /\ rglob b Probabilities = None.
Proof. exact (mixes_lemma x y). Qed.
Example local_to_global_mixes_ex : tail_shape (col [1%Z]) = tail_shape (col [2%Z]).
Proof. reflexivity. Qed.

Print Assumptions schedule_irrelevant.
Print Assumptions outcome_unique.
Print Assumptions hang_is_no_end.
Print Assumptions prob_any_schedule.
Print Assumptions prob_globalize_any_schedule.
Print Assumptions transfer_any_schedule.
Print Assumptions volume_emulated_any_schedule.
Print Assumptions marginals_any_schedule.
Print Assumptions check_num_any_schedule.
Print Assumptions local_to_global_any_schedule.
Print Assumptions global_to_local_any_schedule.
Print Assumptions prob_error_hangs_refuted.
Print Assumptions prob_error_everywhere_partial.
Print Assumptions transfer_error_hangs_refuted.
Print Assumptions check_num_error_hangs_refuted.
Print Assumptions plot_error_hangs_refuted.
Print Assumptions plot_any_schedule_partial.
Print Assumptions local_to_global_mixes_refuted.
