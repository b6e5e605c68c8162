(** C01, C04, C05, C06, C07, C10, C63: sample sets on P processes. *)
From Coq Require Import List Arith QArith Qcanon Permutation Lia.
From Verif Require Import Err Num NumPy SampleSet_Model SampleSet_Spec SampleSet_Proofs SampleSet_Examples.
Import ListNotations.
Local Open Scope nat_scope.

(** ** C01 *)
Theorem localize_gives_blocks : forall R P (s s1 : sset R), 0 < P ->
  global_to_local P s = Ok s1 -> forall a, local_is_split P s1 a.
Proof. exact @global_to_local_local_is_split. Qed.
Print Assumptions localize_gives_blocks.
Example localize_gives_blocks_ex :
  exists s1, global_to_local 2 ex_set = Ok s1 /\
    loc s1 Values = Some [mk_arr [5; 6] [1]; mk_arr [7] [1]] /\
    loc s1 Probabilities = Some [mk_arr [10; 11] []; mk_arr [12] []].
Proof. eexists; split; [reflexivity | split; reflexivity]. Qed.

Theorem localize_globalize_round_trip : forall R P (s s1 s2 : sset R), 0 < P ->
  global_to_local P s = Ok s1 -> local_to_global s1 = Ok s2 ->
  forall a x, glob s a = Some x -> glob s2 a = Some x.
Proof. exact @round_trip. Qed.
Print Assumptions localize_globalize_round_trip.
Example localize_globalize_round_trip_ex :
  exists s1 s2, global_to_local 3 ex_set = Ok s1 /\ local_to_global s1 = Ok s2 /\
    glob s2 Probabilities = Some (mk_arr [10; 11; 12] []).
Proof. do 2 eexists; split; [reflexivity | split; reflexivity]. Qed.

Theorem localize_globalize_total : forall R P (s : sset R), 0 < P -> has_global s ->
  (exists n, all_have_rows s n) -> width_is_dim s ->
  (forall a, glob s a = None -> loc s a = None) ->
  exists s1 s2, global_to_local P s = Ok s1 /\ local_to_global s1 = Ok s2 /\
    (forall a, glob s2 a = glob s a).
Proof. exact @round_trip_total. Qed.
Print Assumptions localize_globalize_total.
Example localize_globalize_total_ex :
  has_global ex_set /\ (exists n, all_have_rows ex_set n) /\ width_is_dim ex_set /\
  (forall a, glob ex_set a = None -> loc ex_set a = None).
Proof. exact ex_set_hyps. Qed.

(** The local index lists, on each rank, which samples the local rows are. *)
Theorem local_index_names_rows : forall R P (s s1 : sset R), 0 < P ->
  global_to_local P s = Ok s1 -> has_global s ->
  exists idx, local_index s1 = Some idx /\ length idx = P /\
  forall a x bs r b is k i, glob s1 a = Some x -> loc s1 a = Some bs ->
    nth_error bs r = Some b -> nth_error idx r = Some is -> nth_error is k = Some i ->
    nth_error (rows b) k = nth_error (rows x) i /\ i < length (rows x).
Proof. exact @local_index_rows. Qed.
Print Assumptions local_index_names_rows.
Example local_index_names_rows_ex :
  has_global ex_set /\ exists s1, global_to_local 2 ex_set = Ok s1 /\ local_index s1 = Some [[0; 1]; [2]].
Proof. split; [apply ex_set_hyps | eexists; split; reflexivity]. Qed.

(** ** C04 *)
Theorem check_num_accepts_iff : forall R P (s : sset R) n, has_global s ->
  (check_num P s = Ok n <-> all_have_rows s n /\ width_is_dim s).
Proof. exact @check_num_ok. Qed.
Print Assumptions check_num_accepts_iff.
Example check_num_accepts_iff_ex : has_global ex_set /\ check_num 4 ex_set = Ok 3.
Proof. split; [apply ex_set_hyps | reflexivity]. Qed.

Theorem check_num_length_error_iff : forall R P (s : sset R), has_global s ->
  (check_num P s = Raise LengthNotMatching <->
   exists a b x y, glob s a = Some x /\ glob s b = Some y /\ length (rows x) <> length (rows y)).
Proof. exact @check_num_length. Qed.
Print Assumptions check_num_length_error_iff.
Example check_num_length_error_iff_ex :
  has_global (set_glob Radii (Some (mk_arr [1; 2] [])) ex_set) /\
  check_num 1 (set_glob Radii (Some (mk_arr [1; 2] [])) ex_set) = Raise LengthNotMatching.
Proof. split; [exists Values; eexists; reflexivity | reflexivity]. Qed.

Theorem check_num_dim_error_iff : forall R P (s : sset R) n, has_global s -> all_have_rows s n -> values_2d s ->
  (check_num P s = Raise DimNotMatching <-> ~ width_is_dim s).
Proof. exact @check_num_dim. Qed.
Print Assumptions check_num_dim_error_iff.
Example check_num_dim_error_iff_ex :
  let s := set_glob Values (Some (mk_arr [5; 6; 7] [2])) ex_set in
  has_global s /\ all_have_rows s 3 /\ values_2d s /\ check_num 1 s = Raise DimNotMatching.
Proof. exact ex_wrong_width. Qed.

(** If only local arrays are present, the answer is the sum over the ranks. *)
Theorem check_num_local_sum : forall R P (s : sset R) n, (forall a, glob s a = None) ->
  (forall r, r < P -> local_rows s r (n r)) ->
  check_num P s = Ok (list_sum (map n (seq 0 P))).
Proof. exact @check_num_locals_only. Qed.
Print Assumptions check_num_local_sum.
Example check_num_local_sum_ex :
  (forall a, glob ex_local a = None) /\ (forall r, r < 2 -> local_rows ex_local r (2 - r)) /\
  check_num 2 ex_local = Ok 3.
Proof. exact ex_local_hyps. Qed.

(** ** C05 *)
Theorem clip_keeps_first_samples : forall R P c (s : sset R) n, 0 < P -> valid_set s n ->
  exists s', clip P c s = Ok s' /\ dim s' = dim s /\
  (forall a, a <> KdtreeValues ->
     glob s' a = option_map (fun x => mk_arr (firstn c (rows x)) (tail_shape x)) (glob s a)) /\
  (glob s' KdtreeValues = glob s' Values /\ kd s' = glob s' Values) /\
  valid_set s' (Nat.min c n) /\
  (loc s Values <> None -> forall a, glob s a <> None -> a <> KdtreeValues -> local_is_split P s' a) /\
  (loc s Values = None -> loc s' = loc s).
Proof. exact @clip_spec. Qed.
Print Assumptions clip_keeps_first_samples.
Example clip_keeps_first_samples_ex :
  valid_set ex_set 3 /\ exists s', clip 2 2 ex_set = Ok s' /\ glob s' Probabilities = Some (mk_arr [10; 11] []).
Proof. split; [exact ex_set_valid | eexists; split; reflexivity]. Qed.

(** ** C63: the weights are a per-sample array that clip does not cut. *)
Theorem clip_weights_refuted :
  exists (s s' : sset nat) w, valid_set s 3 /\ weights s = Some w /\ length (rows w) = 3 /\
    clip 1 2 s = Ok s' /\ valid_set s' 2 /\ weights s' = Some w.
Proof. exact clip_weights_witness. Qed.
Print Assumptions clip_weights_refuted.

(** ** C06 *)
Theorem merge_samples : forall R P (s t : sset R) n m x y, 0 < P -> ready P s n -> ready P t m ->
  dim s = dim t -> compatible_domains s t -> glob s Values = Some x -> glob t Values = Some y ->
  exists u z, merge P s t = Ok u /\ glob u Values = Some z /\ dim u = dim s /\
    tail_shape z = [dim u] /\
    Permutation (rows z) (rows x ++ rows y) /\
    (P = 1 -> rows z = rows x ++ rows y) /\
    domain u = (match domain s with Some d => Some d | None => domain t end) /\
    (forall a, a <> Values -> glob u a = None) /\
    (exists bs, loc u Values = Some bs /\ length bs = P /\ concat (map rows bs) = rows z).
Proof. exact @merge_spec. Qed.
Print Assumptions merge_samples.
Example merge_samples_ex :
  ready 2 ex_set 3 /\ ready 2 ex_set2 2 /\ compatible_domains ex_set ex_set2 /\
  exists u, merge 2 ex_set ex_set2 = Ok u /\ glob u Values = Some (mk_arr [5; 6; 8; 7; 9] [1]).
Proof. exact ex_merge. Qed.

Theorem merge_rejects_other_dimension : forall R P (s t : sset R), dim s <> dim t ->
  merge P s t = Raise DimNotMatching.
Proof. exact @merge_rejects_dim. Qed.
Print Assumptions merge_rejects_other_dimension.
Example merge_rejects_other_dimension_ex : dim ex_set <> dim (new_sset (R := nat) 2).
Proof. discriminate. Qed.

Theorem merge_rejects_other_domain : forall R P (s t : sset R) d e, dim s = dim t ->
  domain s = Some d -> domain t = Some e -> length d = length e -> ~ close_domains d e ->
  merge P s t = Raise DomainNotMatching.
Proof. exact @merge_rejects_domain. Qed.
Print Assumptions merge_rejects_other_domain.
Example merge_rejects_other_domain_ex : ~ close_domains [(0, 1)%Qc] [(0, 1 + 1)%Qc].
Proof. exact ex_domains_apart. Qed.

(** The documented order "this set, then the other" fails on two processes. *)
Theorem merge_parallel_order_refuted :
  exists (s t u : sset nat) x y z, ready 2 s 3 /\ ready 2 t 2 /\ merge 2 s t = Ok u /\
    glob s Values = Some x /\ glob t Values = Some y /\ glob u Values = Some z /\
    rows z <> rows x ++ rows y.
Proof. exact merge_order_witness. Qed.
Print Assumptions merge_parallel_order_refuted.

(** ** C07 *)
Theorem query_uses_current_values_refuted : forall nn, nn_contract abs_dist nn ->
  exists ops s x i s' v, vrun nn 1 ops (new_sset 1) = Ok s /\ query nn 1 x s = Ok (i, s') /\
    glob s' Values = Some v /\ ~ nearest abs_dist (rows v) x i.
Proof. exact stale_query_witness. Qed.
Print Assumptions query_uses_current_values_refuted.
Example query_uses_current_values_refuted_ex : exists nn, nn_contract abs_dist nn.
Proof. eexists. apply argmin_contract. Qed.

Theorem query_uses_current_values_partial : forall R dist nn P d ops (s s' : sset R) x i v,
  nn_contract dist nn -> refreshes false ops = true -> vrun nn P ops (new_sset d) = Ok s ->
  query nn P x s = Ok (i, s') -> glob s' Values = Some v -> rows v <> [] ->
  nearest dist (rows v) x i.
Proof. exact @refreshed_query_nearest. Qed.
Print Assumptions query_uses_current_values_partial.
Example query_uses_current_values_partial_ex :
  let nn := fun l x => argmin (map (abs_dist x) l) in
  let ops := [VSetValues (mk_arr [0; 1]%Qc [1]); VQuery 0%Qc; VSetValues (mk_arr [1; 0]%Qc [1]); VSetKdtree] in
  refreshes false ops = true /\
  exists s s', vrun nn 1 ops (new_sset 1) = Ok s /\ query nn 1 0%Qc s = Ok (1, s').
Proof. split; [reflexivity | do 2 eexists; split; reflexivity]. Qed.

(** A tree that is stale because the number of samples changed is detected. *)
Theorem query_detects_new_length : forall R nn P x (s : sset R) v k,
  glob s Values = Some v -> glob s KdtreeValues = Some k -> kd s = Some k ->
  length (rows v) <> length (rows k) -> query nn P x s = Raise LengthNotMatching.
Proof. exact @stale_length_detected. Qed.
Print Assumptions query_detects_new_length.
Example query_detects_new_length_ex :
  exists s s1, set_kdtree ex_set = Ok s /\ set_values (mk_arr [1; 2] [1]) s = Ok s1 /\
    query (fun _ _ => 0) 1 0 s1 = Raise LengthNotMatching.
Proof. do 2 eexists; split; [reflexivity | split; reflexivity]. Qed.

(** ** C10 *)
Theorem globalize_keeps_latest_refuted :
  exists (s s1 s2 : sset nat) q, valid_set s 3 /\ length (rows q) = 3 /\ global_to_local 2 s = Ok s1 /\
    local_to_global (set_glob Probabilities (Some q) s1) = Ok s2 /\ glob s2 Probabilities <> Some q.
Proof. exact stale_local_witness. Qed.
Print Assumptions globalize_keeps_latest_refuted.

(** Not an exotic case: after localizing, every later assignment is undone. *)
Theorem globalize_restores_old_array : forall R P (s s1 s2 : sset R) a p q, 0 < P ->
  glob s a = Some p -> global_to_local P s = Ok s1 ->
  local_to_global (set_glob a (Some q) s1) = Ok s2 -> glob s2 a = Some p.
Proof. exact @stale_local_wins. Qed.
Print Assumptions globalize_restores_old_array.
Example globalize_restores_old_array_ex :
  exists s1 s2, global_to_local 2 ex_set = Ok s1 /\
    local_to_global (set_glob Probabilities (Some (mk_arr [0; 0; 1] [])) s1) = Ok s2.
Proof. do 2 eexists; split; reflexivity. Qed.

Theorem globalize_keeps_latest_partial : forall R (s s' : sset R) a,
  loc s a = None -> local_to_global s = Ok s' -> glob s' a = glob s a.
Proof. exact @no_local_keeps. Qed.
Print Assumptions globalize_keeps_latest_partial.
Example globalize_keeps_latest_partial_ex :
  loc ex_set Probabilities = None /\ exists s', local_to_global ex_set = Ok s' /\ glob s' Probabilities = Some (mk_arr [10; 11; 12] []).
Proof. split; [reflexivity | eexists; split; reflexivity]. Qed.
