From Coq Require Import List Arith Permutation QArith Qcanon.
From Verif Require Import Err Num Ext Show Post_Spec ChooseQoIs_Model ChooseQoIs_Spec ChooseQoIs_Proofs ChooseAvg_Proofs ChooseQoIs_Examples.
Import ListNotations.
Local Open Scope nat_scope.

(** C55: for every number of processes P, every sort and every criterion. *)
Theorem choose_finds_best : forall (V : Type) (v0 : V) eval srt mu sv P k nq msize qois,
  0 < P -> 0 < k -> NoDup qois -> good_sort srt -> set_criterion mu ->
  (forall c, set_of nq qois c -> eval c = Ok (mu c, sv c) /\ length (sv c) = msize) ->
  exists rows, chooseOptQoIs v0 eval srt P k nq msize qois = Ok rows /\ best_table k nq qois mu rows.
Proof. exact choose_lemma. Qed.
Print Assumptions choose_finds_best.
Example choose_finds_best_case : NoDup [0; 1; 2; 3] /\ good_sort isort /\ set_criterion mu_ex /\ (forall c, set_of 2 [0; 1; 2; 3] c -> eval_ex c = Ok (mu_ex c, sv_ex c) /\ length (sv_ex c) = 4) /\
  chooseOptQoIs 0 eval_ex isort 2 3 2 4 [0; 1; 2; 3] = Ok [(Fin (qn 2), [0; 2]); (Fin (qn 3), [0; 3]); (Fin (qn 3), [1; 2])].
Proof.
  split; [repeat constructor; simpl; intuition discriminate|]. split; [exact isort_good|]. split; [exact mu_ex_criterion|]. split; [|exact choose_ex].
  intros c (L & _). split; [reflexivity|]. unfold sv_ex. rewrite app_length, L. reflexivity.
Qed.

(** C94: the array of singular values. *)
Theorem choose_values_aligned_partial : forall (V : Type) (v0 : V) eval srt mu sv k nq msize qois,
  0 < k -> NoDup qois -> good_sort srt -> set_criterion mu ->
  (forall c, set_of nq qois c -> eval c = Ok (mu c, sv c) /\ length (sv c) = msize) ->
  exists rows svs, chooseOptQoIs_verbose v0 eval srt 1 k nq msize qois = Ok (rows, svs) /\ aligned sv rows svs.
Proof. exact aligned_lemma. Qed.
Print Assumptions choose_values_aligned_partial.
Theorem choose_values_aligned_refuted : exists eval srt mu sv qois rows svs,
  NoDup qois /\ good_sort srt /\ set_criterion mu /\ (forall c, set_of 1 qois c -> eval c = Ok (mu c, sv c) /\ length (sv c) = 2) /\
  chooseOptQoIs_verbose 0 eval srt 2 1 1 2 qois = Ok (rows, svs) /\ ~ aligned sv rows svs.
Proof. exact aligned_refuted_lemma. Qed.
Print Assumptions choose_values_aligned_refuted.

(** C56 and C95: the good sets are exactly the acceptable ones; the best-set
    table is sorted, starts with an optimal set, and never contains two sets of
    the same value. *)
Theorem good_sets_complete : forall (V : Type) (v0 : V) eval srt ord mu sv P k nq msize tol prev unique,
  0 < P -> 0 < k -> good_sort srt -> set_order ord -> (forall c, mu c <> NaN) -> tol <> NaN -> ~ In [] prev ->
  (forall g u, In g prev -> In u unique -> (forall x, In x g -> x < u) -> eval (g ++ [u]) = Ok (mu (g ++ [u]), sv (g ++ [u]))) ->
  exists good best svs, find_good_sets v0 eval srt ord P k nq msize tol prev unique = Ok (good, best, svs) /\
    (forall s, In s good <-> acceptable prev unique mu tol s) /\ (NoDup prev -> NoDup good) /\
    leading_table k prev unique mu tol best /\ distinct_values best.
Proof. exact good_sets_lemma. Qed.
Print Assumptions good_sets_complete.
Theorem best_sets_ties_refuted : exists eval srt ord mu sv good best svs,
  good_sort srt /\ set_order ord /\ set_criterion mu /\ (forall c, eval c = Ok (mu c, sv c)) /\
  find_good_sets 0 eval srt ord 1 3 2 2 PInf [[0]; [1]; [2]] [0; 1; 2] = Ok (good, best, svs) /\
  good = [[0; 1]; [0; 2]; [1; 2]] /\ map snd best = [[0; 1]].
Proof. exact tie_refuted_lemma. Qed.
Print Assumptions best_sets_ties_refuted.
Example good_sets_case : good_sort isort /\ set_order set_list /\ (forall c, mu_ex c <> NaN) /\
  match find_good_sets 0 eval_ex isort set_list 2 2 3 6 (Fin (qn 7)) [[0; 2]; [1; 2]; [0; 1]] [3; 4; 0; 2; 1] with
  | Ok (good, best, _) => good = [[0; 2; 3]; [1; 2; 3]; [0; 2; 4]] /\ show_rows best = show_rows [(Fin (qn 5), [0; 2; 3]); (Fin (qn 6), [1; 2; 3])]
  | Raise _ => False end.
Proof. split; [exact isort_good|]. split; [exact set_list_good|]. split; [exact (proj2 mu_ex_criterion) | exact good_ex]. Qed.

(** C96 *)
Theorem large_finds_optimum : forall (V : Type) (v0 : V) eval srt ord mu sv P k nc max_qois unique,
  0 < P -> 0 < k -> good_sort srt -> set_order ord -> set_criterion mu -> hereditary mu ->
  (forall c, NoDup c -> incl c unique -> 2 <= length c <= max_qois -> eval c = Ok (mu c, sv c)) ->
  exists out, chooseOptQoIs_large v0 eval srt ord P k nc max_qois PInf unique = Ok out /\ length out = max_qois - 1 /\
    forall i rows, nth_error out i = Some rows -> optimal_first (i + 2) unique mu rows.
Proof. exact large_lemma. Qed.
Print Assumptions large_finds_optimum.
Example large_case : set_criterion mu_ex /\ hereditary mu_ex /\
  match chooseOptQoIs_large 0 eval_ex isort set_list 2 2 2 3 PInf [3; 0; 2; 1] with
  | Ok out => map show_rows out = map show_rows [[(Fin (qn 2), [0; 2]); (Fin (qn 3), [0; 3])]; [(Fin (qn 5), [0; 2; 3]); (Fin (qn 6), [1; 2; 3])]]
  | Raise _ => False end.
Proof. split; [exact mu_ex_criterion|]. split; [exact mu_ex_hereditary | exact large_ex]. Qed.

(** C97: averages over the centers. *)
Theorem avg_measure_value : forall o i singvals bin_measure, o <= i -> singvals <> [] -> (forall s x, In s singvals -> In x s -> (0 <= x)%Qc) ->
  exists m, calculate_avg_measure (Some (o, i)) singvals bin_measure = Ok (m, singvals) /\
    (m = PInf <-> forall s, In s singvals -> In 0%Qc s) /\
    (m <> PInf -> exists q, m = Fin q /\ (q * average (map product singvals) = match bin_measure with Some b => b | None => 1 end)%Qc).
Proof. exact avg_measure_lemma. Qed.
Print Assumptions avg_measure_value.
Theorem avg_measure_scales : forall o i singvals bin_measure c q, o <= i -> singvals <> [] -> (0 < c)%Qc -> (forall s, In s singvals -> length s = o) ->
  calculate_avg_measure (Some (o, i)) singvals bin_measure = Ok (Fin q, singvals) ->
  calculate_avg_measure (Some (o, i)) (map (map (Qcmult c)) singvals) bin_measure = Ok (Fin (q / Qcpower c o)%Qc, map (map (Qcmult c)) singvals).
Proof. exact avg_measure_scale_lemma. Qed.
Print Assumptions avg_measure_scales.
Theorem avg_skewness_value : forall o i centers, o <= i -> centers <> [] -> (forall c, In c centers -> geometric c) ->
  exists h skews, calculate_avg_skewness (Some (o, i)) centers = Ok h /\ Forall2 is_skewness centers skews /\ is_hmean skews h /\
    (h = PInf <-> forall c, In c centers -> fst c = 0%Qc) /\ xleb (Fin 1) h = true.
Proof. exact avg_skewness_lemma. Qed.
Print Assumptions avg_skewness_value.
Example avg_measure_case : exists q out, calculate_avg_measure (Some (2, 3)) [[qn 4; qn 2]; [qn 3; 0%Qc]] None = Ok (Fin q, out) /\ q = Q2Qc (1 # 4).
Proof. exact measure_ex. Qed.
Example avg_skewness_case : (forall c, In c centers_ex -> geometric c) /\ exists q, calculate_avg_skewness (Some (2, 2)) centers_ex = Ok (Fin q) /\ q = Q2Qc (5 # 2).
Proof. exact skew_ex. Qed.

(** C98: condition numbers. *)
Theorem avg_condnum_value_partial : forall o i singvals, 2 <= o -> o <= i -> singvals <> [] -> (forall s, In s singvals -> length s = o /\ forall x, In x s -> (0 <= x <= nth 0 s 0)%Qc) ->
  exists h out conds, calculate_avg_condnum (Some (o, i)) singvals = Ok (h, out) /\ Forall2 is_condnum singvals conds /\ is_hmean conds h.
Proof. exact condnum_lemma. Qed.
Print Assumptions avg_condnum_value_partial.
Theorem avg_condnum_singvals_partial : forall o i singvals h out, (forall s, In s singvals -> last s 0 <> 0)%Qc ->
  calculate_avg_condnum (Some (o, i)) singvals = Ok (h, out) -> out = map (map Fin) singvals.
Proof. exact condnum_regular_lemma. Qed.
Print Assumptions avg_condnum_singvals_partial.
Theorem avg_condnum_singvals_changed : forall o i singvals h out k s, calculate_avg_condnum (Some (o, i)) singvals = Ok (h, out) ->
  nth_error singvals k = Some s -> s <> [] -> (last s 0 = 0)%Qc -> (exists s', In s' singvals /\ (last s' 0 <> 0)%Qc) ->
  exists s2, nth_error out k = Some s2 /\ last s2 NaN = Fin 1.
Proof. exact condnum_changed_lemma. Qed.
Print Assumptions avg_condnum_singvals_changed.
Theorem avg_condnum_refuted : exists singvals h out, (forall s x, In s singvals -> In x s -> (0 <= x)%Qc) /\
  calculate_avg_condnum (Some (1, 2)) singvals = Ok (h, out) /\ out <> map (map Fin) singvals /\
  forall conds, Forall2 is_condnum singvals conds -> ~ is_hmean conds h.
Proof. exact condnum_single_refuted_lemma. Qed.
Print Assumptions avg_condnum_refuted.
Example avg_condnum_case : exists q out, calculate_avg_condnum (Some (2, 3)) [[qn 4; qn 2]; [qn 3; 0%Qc]; [qn 9; qn 3]] = Ok (Fin q, out) /\ q = Q2Qc (18 # 5).
Proof. exact condnum_ex. Qed.
