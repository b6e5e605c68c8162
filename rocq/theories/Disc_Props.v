(** Theorems about discretizations (C57-C61, C65, C66, C99, C100). *)
From Coq Require Import List Arith Bool QArith Qcanon Permutation.
From Verif Require Import Err Num NumPy SampleSet_Model SampleSet_Spec Prob_Model Disc_Model Disc_Spec Disc_Proofs DiscPtr_Proofs DiscProb_Proofs DiscChoose_Proofs DiscStale_Proofs Disc_Examples.
Import ListNotations.
Local Open Scope nat_scope.

(** C57: clip and merge. *)
Theorem clip_keeps_pairs : forall R P c (d : disc R) inp out n, 0 < P -> d_in d = Some inp -> d_out d = Some out ->
  valid_set inp n -> valid_set out n ->
  exists d' i' o', clip_disc P c d = Ok d' /\ d_in d' = Some i' /\ d_out d' = Some o' /\
    valid_set i' (Nat.min c n) /\ valid_set o' (Nat.min c n) /\
    (forall a b x y, a <> KdtreeValues -> b <> KdtreeValues -> glob inp a = Some x -> glob out b = Some y ->
       exists x' y', glob i' a = Some x' /\ glob o' b = Some y' /\
       combine (rows x') (rows y') = firstn c (combine (rows x) (rows y))) /\
    d_prob d' = d_prob d /\ d_ein d' = d_ein d /\ d_eout d' = d_eout d /\ io_loc d' = None /\ io d' = None.
Proof. exact @clip_disc_spec. Qed.
Print Assumptions clip_keeps_pairs.
Example clip_keeps_pairs_case : exists d', clip_disc 2 2 (pair_disc (plain [1; 2; 3]) (plain [11; 12; 13])) = Ok d' /\
  exists ci co, d_in d' = Some ci /\ d_out d' = Some co /\
    glob ci Values = Some (mk_arr [1; 2] [1]) /\ glob co Values = Some (mk_arr [11; 12] [1]).
Proof. exact clip_example. Qed.
Theorem merge_keeps_pairs_partial : forall R P (d e m : disc R) si so ti to n k xi xo yi yo, 0 < P ->
  d_in d = Some si -> d_out d = Some so -> d_in e = Some ti -> d_out e = Some to ->
  ready P si n -> ready P so n -> ready P ti k -> ready P to k ->
  rank_rows P si n = rank_rows P so n -> rank_rows P ti k = rank_rows P to k ->
  glob si Values = Some xi -> glob so Values = Some xo -> glob ti Values = Some yi -> glob to Values = Some yo ->
  merge_disc P d e = Ok m ->
  exists mi mo zi zo, d_in m = Some mi /\ d_out m = Some mo /\ glob mi Values = Some zi /\ glob mo Values = Some zo /\
    length (rows zi) = n + k /\ length (rows zo) = n + k /\
    Permutation (combine (rows zi) (rows zo)) (combine (rows xi) (rows xo) ++ combine (rows yi) (rows yo)).
Proof. exact @merge_disc_pairs. Qed.
Print Assumptions merge_keeps_pairs_partial.
Example merge_keeps_pairs_case :
  exists m, merge_disc 2 (pair_disc (plain [1; 2; 3]) (plain [11; 12; 13])) (pair_disc (plain [4; 5]) (plain [14; 15])) = Ok m /\
  (exists mi mo, d_in m = Some mi /\ d_out m = Some mo /\
     glob mi Values = Some (mk_arr [1; 2; 4; 3; 5] [1]) /\ glob mo Values = Some (mk_arr [11; 12; 14; 13; 15] [1])) /\
  rank_rows 2 (plain [1; 2; 3]) 3 = [2; 1].
Proof. exact merge_example. Qed.
Theorem merge_keeps_pairs_refuted : exists (d e m : disc nat) si so ti to mi mo xi xo yi yo zi zo,
  d_in d = Some si /\ d_out d = Some so /\ d_in e = Some ti /\ d_out e = Some to /\
  ready 2 si 3 /\ ready 2 so 3 /\ ready 2 ti 2 /\ ready 2 to 2 /\
  glob si Values = Some xi /\ glob so Values = Some xo /\ glob ti Values = Some yi /\ glob to Values = Some yo /\
  merge_disc 2 d e = Ok m /\ d_in m = Some mi /\ d_out m = Some mo /\
  glob mi Values = Some zi /\ glob mo Values = Some zo /\
  ~ Permutation (combine (rows zi) (rows zo)) (combine (rows xi) (rows xo) ++ combine (rows yi) (rows yo)).
Proof. exact merge_refuted_lemma. Qed.
Print Assumptions merge_keeps_pairs_refuted.

(** C100: when merging succeeds. *)
Theorem merge_succeeds_partial : forall R P (d e : disc R) si so ti to n k, 0 < P ->
  d_in d = Some si -> d_out d = Some so -> d_in e = Some ti -> d_out e = Some to ->
  ready P si n -> ready P so n -> ready P ti k -> ready P to k ->
  dim si = dim ti -> dim so = dim to -> compatible_domains si ti -> compatible_domains so to ->
  (exists u, merge_opt P (d_ein d) (d_ein e) = Ok u) -> (exists u, merge_opt P (d_eout d) (d_eout e) = Ok u) ->
  exists m, merge_disc P d e = Ok m.
Proof. exact @merge_disc_total. Qed.
Print Assumptions merge_succeeds_partial.
Theorem merge_needs_emulated_sets : forall R P (d e : disc R), d_ein d = None \/ d_eout d = None ->
  forall m, merge_disc P d e <> Ok m.
Proof. exact @merge_disc_no_emulated. Qed.
Print Assumptions merge_needs_emulated_sets.
Theorem merge_succeeds_refuted : exists (d e : disc nat) mi mo,
  merge_opt 1 (d_in d) (d_in e) = Ok mi /\ merge_opt 1 (d_out d) (d_out e) = Ok mo /\
  new_disc 1 (d_in d) (d_out d) None None None None = Ok d /\ new_disc 1 (d_in e) (d_out e) None None None None = Ok e /\
  merge_disc 1 d e = Raise PyAttributeError.
Proof. exact merge_bare_witness. Qed.
Print Assumptions merge_succeeds_refuted.

(** C58: selecting columns. *)
Theorem choose_selects_columns_partial : forall N P ins outs (inp out : rset N) n,
  well_shaped (dim (base out)) (base inp) -> well_shaped 0 (base out) ->
  valid_set (base inp) n -> valid_set (base out) n ->
  (forall v, reference inp = Some v -> length v = dim (base inp)) ->
  (forall v, reference out = Some v -> length v = dim (base out)) ->
  ins <> [] -> outs <> [] -> in_range ins (dim (base inp)) -> in_range outs (dim (base out)) ->
  exists i o, choose_inputs_outputs P (Some ins) (Some outs) inp out = Ok (i, o) /\
    sliced ins inp i /\ sliced outs out o /\
    both (jacobian_of ins outs) (glob (base inp) Jacobians) (glob (base i) Jacobians) /\
    both (Forall2 (jacobian_of ins outs)) (loc (base inp) Jacobians) (loc (base i) Jacobians).
Proof. exact @choose_ok_lemma. Qed.
Print Assumptions choose_selects_columns_partial.
Example choose_hypotheses : well_shaped (dim (base ch_out)) (base (ch_in (Some ch_err))) /\ well_shaped 0 (base ch_out) /\
  valid_set (base (ch_in (Some ch_err))) 2 /\ valid_set (base ch_out) 2.
Proof. exact ch_in_shaped. Qed.
Example choose_case : exists i o y j, choose_inputs_outputs 1 (Some [1; 0]) (Some [1]) (ch_in (Some ch_err)) ch_out = Ok (i, o) /\
  glob (base i) Values = Some y /\ rows y = [row2 1 0; row2 q3 q2]%Qc /\
  glob (base i) Jacobians = Some j /\ rows j = [Vec [row2 q3 q2]; Vec [row2 0 0]]%Qc.
Proof. exact ch_example. Qed.
Theorem choose_flat_errors_refuted : forall N P ins outs (inp out : rset N) x,
  glob (base inp) ErrorEstimates = Some x -> tail_shape x = [] ->
  forall r, choose_inputs_outputs P ins outs inp out <> Ok r.
Proof. exact @choose_errors_lemma. Qed.
Print Assumptions choose_flat_errors_refuted.
Example choose_flat_errors_case : exists x, glob (base (ch_in (Some ch_flat))) ErrorEstimates = Some x /\ tail_shape x = [] /\
  valid_set (base (ch_in (Some ch_flat))) 2.
Proof. exact ch_flat_example. Qed.
Theorem choose_default_refuted : forall N P ins outs (inp out : rset N), ins = None \/ outs = None ->
  choose_inputs_outputs P ins outs inp out = Raise PyTypeError.
Proof. exact @choose_default_lemma. Qed.
Print Assumptions choose_default_refuted.

(** C59: localizing and globalizing. *)
Theorem localize_sets_partial : forall R P (d d' : disc R), 0 < P -> disc_global_to_local P d = Ok d' ->
  (forall pl, In pl [d_in; d_out; d_prob; d_ein] -> match pl d with
     | None => pl d' = None
     | Some s => exists s', pl d' = Some s' /\ glob s' = glob s /\ forall a, local_is_split P s' a end) /\
  d_eout d' = d_eout d /\ d_obs d' = d_obs d.
Proof. exact @disc_localize. Qed.
Print Assumptions localize_sets_partial.
Theorem globalize_sets_partial : forall R (d d' : disc R), disc_local_to_global d = Ok d' ->
  (forall pl, In pl [d_in; d_out; d_prob; d_ein; d_eout] -> match pl d with
     | None => pl d' = None
     | Some s => exists s', pl d' = Some s' /\ loc s' = loc s /\
         forall a bs, loc s a = Some bs -> exists x, glob s' a = Some x /\ rows x = concat (map rows bs) end) /\
  d_obs d' = d_obs d.
Proof. exact @disc_globalize. Qed.
Print Assumptions globalize_sets_partial.
Example localize_case : is_ok (disc_global_to_local 2 six) = true.
Proof. exact localize_example. Qed.
Example globalize_case : is_ok (disc_local_to_global (bare (only_loc [[1]; [2]]) (only_loc [[3]; [4]]))) = true.
Proof. exact globalize_example. Qed.
Theorem localize_sets_refuted : exists d d' : disc nat, exists s,
  disc_global_to_local 2 d = Ok d' /\ d_eout d = Some s /\ ready 2 s 2 /\ d_eout d' = Some s /\ loc s Values = None.
Proof. exact localize_witness. Qed.
Print Assumptions localize_sets_refuted.
Theorem globalize_sets_refuted : exists d d' : disc nat, exists s,
  disc_local_to_global d = Ok d' /\ d_obs d = Some s /\ is_ok (local_to_global s) = true /\ d_obs d' = Some s /\ glob s Values = None.
Proof. exact globalize_witness. Qed.
Print Assumptions globalize_sets_refuted.

(** C60: local and global pointers. *)
Theorem pointers_agree_partial : forall R nn P k ops (d d' : disc R), no_pointers d ->
  no_late_local k false ops = true -> drun nn P ops d = Ok d' -> agree (global_ptr k d') (local_ptr k d').
Proof. exact @pointers_agree_lemma. Qed.
Print Assumptions pointers_agree_partial.
Example pointers_agree_case : exists d', drun near 2 early_ops ex_disc = Ok d' /\
  no_late_replacement false false early_ops = true /\ no_late_local Io false early_ops = true /\
  Forall (good_argument 2) early_ops /\ io d' <> None /\
  is_ok (prob_disc near 2 true d') = true /\ is_ok (emulated_disc near 2 true d') = true.
Proof. exact early_example. Qed.
Theorem pointers_agree_refuted : nn_contract line_dist near /\ exists ops (d d' : disc cell),
  no_pointers d /\ good_sets 1 d /\ Forall (good_argument 1) ops /\ drun near 1 ops d = Ok d' /\
  io d' <> None /\ io_loc d' <> None /\ ~ agree (io d') (io_loc d').
Proof. exact (conj near_contract disagree_witness). Qed.
Print Assumptions pointers_agree_refuted.

(** C61: setters. *)
Theorem probability_setter_rejects_partial : forall R nn P s (d : disc R),
  (exists t, (d_out d = Some t \/ d_eout d = Some t) /\ dim t <> dim s) ->
  set_probability nn P s d = (d, Some DimNotMatching).
Proof. exact @set_probability_rejects. Qed.
Print Assumptions probability_setter_rejects_partial.
Theorem emulated_output_setter_rejects : forall R s (d : disc R),
  (exists t, (d_out d = Some t \/ d_prob d = Some t) /\ dim t <> dim s) <->
  set_emulated_output s d = (d, Some DimNotMatching).
Proof. exact @set_emulated_output_rejects. Qed.
Print Assumptions emulated_output_setter_rejects.
Theorem emulated_input_setter_rejects : forall R s (d : disc R),
  (exists t, d_in d = Some t /\ dim t <> dim s) <-> set_emulated_input s d = (d, Some DimNotMatching).
Proof. exact @set_emulated_input_rejects. Qed.
Print Assumptions emulated_input_setter_rejects.
Theorem constructor_checks_counts : forall R P (inp out : sset R) pr ein eout obs n m, check_num P inp = Ok n -> check_num P out = Ok m ->
  glob inp Values <> None -> glob out Values <> None ->
  new_disc P (Some inp) (Some out) pr ein eout obs =
  if n =? m then Ok (mk_disc (Some inp) (Some out) pr ein eout obs None None None None None None) else Raise LengthNotMatching.
Proof. exact @new_disc_spec. Qed.
Print Assumptions constructor_checks_counts.
Example setter_rejects_case : exists t, (d_out six = Some t \/ d_eout six = Some t) /\ dim t <> dim wide.
Proof. exact rejects_example. Qed.
Theorem constructor_rejects_refuted : exists d : disc nat,
  new_disc 1 (Some (plain [1; 2])) (Some (plain [3; 4])) (Some wide) (Some wide) (Some wide) None = Ok d /\
  dim (plain [3; 4]) <> dim wide.
Proof. exact constructor_witness. Qed.
Print Assumptions constructor_rejects_refuted.
Theorem failed_setter_unchanged_refuted : forall nn P, exists (d d' : disc nat) s,
  set_probability nn P s d = (d', Some PyAttributeError) /\ d' <> d.
Proof. exact setter_witness. Qed.
Print Assumptions failed_setter_unchanged_refuted.

(** C65: the calculations use the sets that are stored. *)
Theorem prob_uses_current_sets_partial : forall nn P, 0 < P -> forall g ops d d',
  no_pointers d -> good_sets P d -> Forall (good_argument P) ops ->
  no_late_replacement false false ops = true -> drun nn P ops d = Ok d' ->
  input_probabilities (prob_disc nn P g d') = input_probabilities (prob_disc nn P g (same_sets_anew d')).
Proof. exact prob_history. Qed.
Print Assumptions prob_uses_current_sets_partial.
Theorem emulated_uses_current_sets_partial : forall nn P, 0 < P -> forall g ops d d',
  no_pointers d -> good_sets P d -> Forall (good_argument P) ops ->
  no_late_replacement false false ops = true -> no_late_local Io false ops = true -> drun nn P ops d = Ok d' ->
  (io_loc d' <> None -> io d' <> None) ->
  emulated_probabilities (emulated_disc nn P g d') = emulated_probabilities (emulated_disc nn P g (same_sets_anew d')).
Proof. exact emulated_history. Qed.
Print Assumptions emulated_uses_current_sets_partial.
Example current_sets_case : no_pointers ex_disc /\ good_sets 2 ex_disc.
Proof. exact (ex_disc_good 2). Qed.
Theorem prob_uses_current_sets_refuted : nn_contract line_dist near /\ exists ops (d d' : disc cell),
  no_pointers d /\ good_sets 1 d /\ Forall (good_argument 1) ops /\ drun near 1 ops d = Ok d' /\
  input_probabilities (prob_disc near 1 true d') <> input_probabilities (prob_disc near 1 true (same_sets_anew d')) /\
  is_ok (prob_disc near 1 true d') = true /\ is_ok (prob_disc near 1 true (same_sets_anew d')) = true.
Proof. exact (conj near_contract stale_prob_witness). Qed.
Print Assumptions prob_uses_current_sets_refuted.
Theorem emulated_uses_current_sets_refuted : nn_contract line_dist near /\ exists ops (d d' : disc cell),
  no_pointers d /\ good_sets 1 d /\ Forall (good_argument 1) ops /\ drun near 1 ops d = Ok d' /\
  emulated_probabilities (emulated_disc near 1 true d') <> emulated_probabilities (emulated_disc near 1 true (same_sets_anew d')) /\
  is_ok (emulated_disc near 1 true d') = true /\ is_ok (emulated_disc near 1 true (same_sets_anew d')) = true.
Proof. exact (conj near_contract stale_emulated_witness). Qed.
Print Assumptions emulated_uses_current_sets_refuted.
(** Pointers computed for other emulated points than the stored ones: if their number
    differs, the calculation fails as soon as an output cell with positive probability is
    pointed at, and gives probabilities zero otherwise. *)
Theorem emulated_other_size_refuted : forall nn P g (d : disc cell) c0 c1 pr n em bs io_b io_ptr ptr probs,
  check_nums P d = Ok c0 -> d_prob d = Some pr -> check_num P pr = Ok n -> d_ein d = Some em -> check_num P em = Ok c1 ->
  io_loc d = Some io_b -> io d = Some io_ptr -> ii_loc d = Some ptr -> loc em Values = Some bs -> out_probs n pr = Ok probs ->
  (forall k, In k (concat ptr) -> k < length io_ptr) ->
  map (@length nat) ptr <> map (fun b => length (rows b)) bs ->
  (forall i p k, nth_error probs i = Some p -> (0 < p)%Qc -> In k (concat ptr) -> nth_error io_ptr k = Some i -> emulated_disc nn P g d = Raise PyIndexError) /\
  ((forall i p k, nth_error probs i = Some p -> (0 < p)%Qc -> In k (concat ptr) -> nth_error io_ptr k <> Some i) ->
   exists d' em', emulated_disc nn P false d = Ok d' /\ d_ein d' = Some em' /\
     loc em' Probabilities = Some (map (fun b => vec_arr (repeat 0%Qc (length (rows b)))) bs)).
Proof. exact stale_sizes_lemma. Qed.
Print Assumptions emulated_other_size_refuted.
(** The points are replaced by fewer after the pointers were computed. *)
Definition fewer : list (dop (R := cell)) := [OIoPtr true; OIiPtr false; OEin (get moved (localized 1 (line_set [half]%Qc None None)))].
Example emulated_other_size_ex : rmap (fun d' => option_map (map (@length nat)) (ii_loc d')) (drun near 1 fewer ex_disc) = Ok (Some [3]) /\
  rmap (fun _ => tt) (bind (drun near 1 fewer ex_disc) (emulated_disc near 1 true)) = Raise PyIndexError.
Proof. split; vm_compute; reflexivity. Qed.

(** C66: the order of the two calculations. *)
Theorem prob_then_emulated_refuted : forall nn P g g' d d1, io d = None -> prob_disc nn P g d = Ok d1 ->
  forall d2, emulated_disc nn P g' d1 <> Ok d2.
Proof. exact prob_then_emulated_lemma. Qed.
Print Assumptions prob_then_emulated_refuted.
Theorem emulated_then_prob_partial : forall nn P, 0 < P -> forall g g' d d1, no_pointers d -> good_sets P d ->
  emulated_disc nn P g' d = Ok d1 ->
  input_probabilities (prob_disc nn P g d1) = input_probabilities (prob_disc nn P g d).
Proof. exact emulated_then_prob_lemma. Qed.
Print Assumptions emulated_then_prob_partial.
Theorem any_order_partial : forall nn P, 0 < P -> forall g g' d0 d d1, no_pointers d0 -> good_sets P d0 ->
  set_io_ptr nn P true d0 = Ok d ->
  (prob_disc nn P g d = Ok d1 ->
     emulated_probabilities (emulated_disc nn P g' d1) = emulated_probabilities (emulated_disc nn P g' d)) /\
  emulated_probabilities (emulated_disc nn P g' d) = emulated_probabilities (emulated_disc nn P g' (same_sets_anew d)).
Proof. exact any_order_lemma. Qed.
Print Assumptions any_order_partial.
Example order_case : is_ok (emulated_disc near 2 true ex_disc) = true /\ is_ok (prob_disc near 2 true ex_disc) = true /\
  show (emulated_probabilities (emulated_disc near 2 true ex_disc)) = Some [[(3 # 4)%Q; (1 # 8)%Q]; [(1 # 8)%Q]] /\
  show (input_probabilities (prob_disc near 2 true ex_disc)) = Some [[(3 # 4)%Q]; [(1 # 4)%Q]] /\
  is_ok (set_io_ptr near 2 true ex_disc) = true.
Proof. exact order_example. Qed.
Example any_order_case : exists d d1, set_io_ptr near 2 true ex_disc = Ok d /\ prob_disc near 2 true d = Ok d1 /\
  is_ok (emulated_disc near 2 true d1) = true.
Proof. exact any_order_example. Qed.

(** C99: emulated samples after simpleFunP stored the output probabilities. *)
Theorem stored_then_emulated_refuted : forall nn P g s d d1, io d = None -> store_output_probability nn P s d = Ok d1 ->
  forall d2, emulated_disc nn P g d1 <> Ok d2.
Proof. exact stored_then_emulated_lemma. Qed.
Print Assumptions stored_then_emulated_refuted.
Example stored_case : is_ok (store_output_probability near 2 moved ex_disc) = true /\ io ex_disc = None.
Proof. exact stored_example. Qed.
