From Coq Require Import List Arith Permutation QArith Qcanon Reals Qreals.
From Verif Require Import Err Num Ext Show Gradient_Spec ChooseQoIs_Spec ChooseQoIs_Examples UniqueVecs_Spec
  Sensitivity_Model Sensitivity_Spec Sensitivity_Proofs Sensitivity_Examples.
Import ListNotations.
Local Open Scope nat_scope.

(** C153: an affine model, any centers, radii and difference scheme, any number of
    processes. *)
Theorem sensitivity_measure : forall sv len srt ord d, singular_values d sv -> good_sort srt -> set_order ord ->
  forall s mf o c0 A centers radii normalize P qois nq k tol remove_zeros,
  points d centers -> good_radii d radii -> 0 < d -> centers <> [] -> 0 < P -> 0 < given k 10 -> given nq d <= d ->
  (forall i, In i (given qois (seq 0 o)) -> i < o) ->
  exists M kept rows mu, coefficients A o d normalize M /\
    run_sensitivity sv len srt ord s mf d o (Some centers) radii normalize (outputs o (affine d c0 A)) P qois nq k tol true remove_zeros = Ok rows /\
    maximal_dissimilar [real_matrix M] tol remove_zeros (given qois (seq 0 o)) kept /\
    (forall c, set_of (given nq d) kept c -> is_inverse_volume (product (sv (rows_of M c))) (mu c)) /\
    best_table (given k 10) (given nq d) kept mu rows.
Proof. exact measure_lemma. Qed.
Print Assumptions sensitivity_measure.
Theorem sensitivity_skewness : forall sv len srt ord d, singular_values d sv -> good_sort srt -> set_order ord -> row_lengths d sv len ->
  forall s mf o c0 A centers radii normalize P qois nq k tol remove_zeros,
  points d centers -> good_radii d radii -> 0 < d -> centers <> [] -> 0 < P -> 0 < given k 10 -> 0 < given nq d <= d ->
  (forall i, In i (given qois (seq 0 o)) -> i < o) ->
  exists M kept rows mu, coefficients A o d normalize M /\
    run_sensitivity sv len srt ord s mf d o (Some centers) radii normalize (outputs o (affine d c0 A)) P qois nq k tol false remove_zeros = Ok rows /\
    maximal_dissimilar [real_matrix M] tol remove_zeros (given qois (seq 0 o)) kept /\
    (forall c, set_of (given nq d) kept c -> is_skewness (volumes sv len (rows_of M c)) (mu c)) /\
    best_table (given k 10) (given nq d) kept mu rows.
Proof. exact skewness_lemma. Qed.
Print Assumptions sensitivity_skewness.
(** Neither the centers nor the radii, the scheme or the constants of the model
    matter, not even for the order of equally good sets. *)
Theorem sensitivity_same_answer : forall sv len srt ord d, singular_values d sv -> good_sort srt -> set_order ord -> row_lengths d sv len ->
  forall s s' mf mf' o c0 c0' A centers centers' radii radii' normalize P qois nq k tol measure remove_zeros,
  points d centers -> points d centers' -> good_radii d radii -> good_radii d radii' -> 0 < d -> centers <> [] -> centers' <> [] ->
  0 < P -> 0 < given k 10 -> 0 < given nq d <= d -> (forall i, In i (given qois (seq 0 o)) -> i < o) ->
  run_sensitivity sv len srt ord s mf d o (Some centers) radii normalize (outputs o (affine d c0 A)) P qois nq k tol measure remove_zeros =
  run_sensitivity sv len srt ord s' mf' d o (Some centers') radii' normalize (outputs o (affine d c0' A)) P qois nq k tol measure remove_zeros.
Proof. exact same_lemma. Qed.
Print Assumptions sensitivity_same_answer.
(** The search that builds larger sets from smaller ones finds the optimum of every
    size: volumes satisfy the condition under which it can be relied on. *)
Theorem sensitivity_large : forall sv len srt ord d, singular_values d sv -> good_sort srt -> set_order ord -> row_lengths d sv len ->
  forall s mf o c0 A centers radii normalize P qois max_qois k tol measure remove_zeros,
  points d centers -> good_radii d radii -> 0 < d -> centers <> [] -> 0 < P -> 0 < given k 10 -> given max_qois d <= d ->
  (forall i, In i (given qois (seq 0 o)) -> i < o) ->
  exists M kept out mu, coefficients A o d normalize M /\
    run_sensitivity_large sv len srt ord s mf d o (Some centers) radii normalize (outputs o (affine d c0 A)) P qois max_qois k tol None measure remove_zeros = Ok out /\
    maximal_dissimilar [real_matrix M] (given tol 1%R) remove_zeros (given qois (seq 0 o)) kept /\
    (forall c, NoDup c -> incl c kept -> 2 <= length c <= given max_qois d ->
       if measure then is_inverse_volume (product (sv (rows_of M c))) (mu c) else is_skewness (volumes sv len (rows_of M c)) (mu c)) /\
    length out = given max_qois d - 1 /\
    forall i rows, nth_error out i = Some rows -> optimal_first (i + 2) kept mu rows.
Proof. exact large_run_lemma. Qed.
Print Assumptions sensitivity_large.
Example sensitivity_case : singular_values 2 sv_ex /\ row_lengths 2 sv_ex norm1 /\ good_sort isort /\ set_order set_list /\
  (points 2 cs_ex /\ good_radii 2 [qn 2] /\ good_radii 2 [1%Qc; qn 3]) /\ forall s, run_ex s = Ok [(Fin (/ qn 2)%Qc, [0; 1])].
Proof. split; [exact sv_ex_ok|]. split; [exact sv_ex_lengths|]. split; [exact isort_good|]. split; [exact set_list_good|]. split; [exact cs_ex_ok | exact run_ex_value]. Qed.
