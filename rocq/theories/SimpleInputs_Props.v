(** C107-C110: the arguments of the simple function approximations. *)
From Coq Require Import List Arith Bool QArith Qcanon Lia.
From Verif Require Import Err Num Ext Show Volume_Model Query_Model SimpleFun_Model SimpleInputs_Model Bounds_Spec SimpleInputs_Spec
  SimpleInputs_Proofs SimpleInputs_Examples.
Import ListNotations.
Local Open Scope nat_scope.

(** C107: coordinate j of a normal distribution has the mean Q_ref[j] and the
    standard deviation std[j], if the data are a sample set or a discretization
    and no argument is a numpy integer. *)
Theorem normal_parameters_partial : forall data Q std d c s, data_dim data = Some d -> ~ is_array data ->
  (forall q, Q <> NNpInt q) -> (forall q, std <> NNpInt q) ->
  intended_reference data Q d c -> means std d s -> normal_parameters data Q std = Ok (combine c s).
Proof. exact normal_sets. Qed.
Print Assumptions normal_parameters_partial.
Example normal_parameters_ex : normal_parameters ex_disc NNone (NNum 1%Qc) = Ok [(1, 1); (Q2Qc 2, 1)]%Qc.
Proof. exact (normal_parameters_partial ex_disc NNone (NNum 1%Qc) 2 [1; Q2Qc 2]%Qc [1; 1]%Qc (proj1 ex_disc_reference)
  (proj2 (proj2 ex_disc_reference)) ltac:(discriminate) ltac:(discriminate) (proj1 (proj2 ex_disc_reference)) eq_refl). Qed.
(** It is false for data given as an array of two or more columns: a number
    (the default std=1.0 is one) and lists are rejected; two arrays work. *)
Theorem normal_parameters_array_number_refuted : forall cols vs c q, length c = cols -> 2 <= cols ->
  normal_parameters (DArray cols vs) (NArr c) (NNum q) = Raise PyIndexError.
Proof. exact normal_array_number. Qed.
Print Assumptions normal_parameters_array_number_refuted.
Theorem normal_parameters_array_list_refuted : forall cols vs c s, length s = cols -> cols <> 1 ->
  normal_parameters (DArray cols vs) (NArr c) (NList s) = Raise DimNotMatching.
Proof. exact normal_array_list. Qed.
Print Assumptions normal_parameters_array_list_refuted.
Theorem normal_parameters_array_arrays_partial : forall cols vs c s, length c = cols -> length s = cols ->
  normal_parameters (DArray cols vs) (NArr c) (NArr s) = Ok (combine c s).
Proof. exact normal_array_ok. Qed.
Print Assumptions normal_parameters_array_arrays_partial.
(** A numpy integer is not broadcast, whatever the data. *)
Theorem normal_parameters_numpy_integer_refuted : forall data d c q, data_dim data = Some d -> length c = d -> 2 <= d ->
  normal_parameters data (NArr c) (NNpInt q) = Raise PyIndexError.
Proof. exact normal_npint. Qed.
Print Assumptions normal_parameters_numpy_integer_refuted.
(** Arrays of a wrong length are not rejected: the distribution then has another
    dimension than the data. *)
Theorem normal_parameters_wrong_length_accepted : forall data c s, length c = length s ->
  normal_parameters data (NArr c) (NArr s) = Ok (combine c s).
Proof. exact normal_wrong_length. Qed.
Print Assumptions normal_parameters_wrong_length_accepted.

(** C108: the uniform distribution has the box of side lengths rect_size around
    Q_ref as its support, and the bins have their centers in the box that is
    half as large again, unless rect_size is a list. *)
Theorem rectangle_support_partial : forall data Q size d c s ub up, data_dim data = Some d -> intended_reference data Q d c -> means size d s ->
  (forall l, size <> NList l) -> all_positive s ->
  exists bins pts, uniform_rectangle data Q size ub up = Ok (bins, pts) /\ length bins = length ub /\ length pts = length up /\
    ((forall u, In u up -> in_box (unit_cube d) u) -> forall x, In x pts -> in_box (centered_box (Q2Qc (1 # 2)) c s) x) /\
    ((forall u, In u ub -> in_box (unit_cube d) u) -> forall x, In x bins -> in_box (centered_box (Q2Qc (3 # 4)) c s) x).
Proof. exact rectangle_support. Qed.
Print Assumptions rectangle_support_partial.
Theorem rectangle_support_onto_partial : forall data Q size d c s ub x, data_dim data = Some d -> intended_reference data Q d c -> means size d s ->
  (forall l, size <> NList l) -> all_positive s -> in_box (centered_box (Q2Qc (1 # 2)) c s) x ->
  exists u bins, in_box (unit_cube d) u /\ uniform_rectangle data Q size ub [u] = Ok (bins, [x]).
Proof. exact rectangle_onto. Qed.
Print Assumptions rectangle_support_onto_partial.
Example rectangle_support_ex : exists bins pts, uniform_rectangle ex_disc NNone (NArr [1; Q2Qc 2]%Qc) [[0; 1]]%Qc [[1; 1]]%Qc = Ok (bins, pts) /\
  length bins = 1 /\ length pts = 1.
Proof.
  destruct (rectangle_support_partial ex_disc NNone (NArr [1; Q2Qc 2]%Qc) 2 [1; Q2Qc 2]%Qc [1; Q2Qc 2]%Qc [[0; 1]]%Qc [[1; 1]]%Qc
    (proj1 ex_disc_reference) (proj1 (proj2 ex_disc_reference)) (conj eq_refl eq_refl) ltac:(discriminate) ex_positive) as (b & p & E & H1 & H2 & _).
  exists b, p. split; [exact E|]. split; assumption.
Qed.
(** The documented list of side lengths always raises TypeError; the regular
    partition does accept it. *)
Theorem rectangle_size_list_refuted : forall data Q d c s ub up, data_dim data = Some d -> intended_reference data Q d c -> length s = d ->
  all_positive s -> uniform_rectangle data Q (NList s) ub up = Raise PyTypeError.
Proof. exact uniform_rectangle_list. Qed.
Print Assumptions rectangle_size_list_refuted.
Theorem regular_rectangle_arguments : forall data Q size d c s cells, data_dim data = Some d -> intended_reference data Q d c -> means size d s ->
  all_positive s ->
  regular_rectangle data Q size cells = regular_partition d c s (match cells with inl n => repeat n d | inr l => l end).
Proof. exact regular_rectangle_eq. Qed.
Print Assumptions regular_rectangle_arguments.
(** What is rejected. *)
Theorem rectangle_data_rejected : forall data Q size ub up cells,
  (data = DOther \/ (Q = NNone /\ data_reference data = None)) ->
  uniform_rectangle data Q size ub up = Raise WrongArgumentType /\ regular_rectangle data Q size cells = Raise WrongArgumentType.
Proof. exact rectangle_rejects. Qed.
Print Assumptions rectangle_data_rejected.
Theorem rectangle_size_rejected : forall data Q size d c ub up cells, data_dim data = Some d -> intended_reference data Q d c ->
  (size = NNone \/ exists s x, means size d s /\ In x s /\ (x <= 0)%Qc) ->
  uniform_rectangle data Q size ub up = Raise WrongArgumentType /\ regular_rectangle data Q size cells = Raise WrongArgumentType.
Proof. exact rectangle_rejects_size. Qed.
Print Assumptions rectangle_size_rejected.

(** C109: the scaled variants use the sides of the smallest box around the data,
    times the scale factors. *)
Theorem rectangle_scaled_sizes : forall data Q scale d c f, data_dim data = Some d -> intended_reference data Q d c -> means scale d f ->
  data_rows data <> [] -> Forall (fun x => length x = d) (data_rows data) ->
  exists b, smallest_box b (data_rows data) /\ means (NArr (scaled_sides b f)) d (scaled_sides b f) /\
    (forall ub up, uniform_rectangle_scaled data Q scale ub up = uniform_rectangle data Q (NArr (scaled_sides b f)) ub up) /\
    (forall cells, regular_rectangle_scaled data Q scale cells = regular_rectangle data Q (NArr (scaled_sides b f)) cells).
Proof. exact scaled_as_size. Qed.
Print Assumptions rectangle_scaled_sizes.
Example rectangle_scaled_ex : match uniform_rectangle_scaled ex_disc NNone (NNum (Q2Qc (1 # 2))) [[1; 0]]%Qc [[1; 0]]%Qc with
  | Ok p => (map (map this) (fst p), map (map this) (snd p)) | Raise _ => ([], []) end =
  ([[7 # 4; 5 # 4]], [[3 # 2; 3 # 2]])%Q.
Proof. exact ex_scaled. Qed.
Theorem rectangle_scaled_constant_column : forall data Q scale d c f j v ub up cells, data_dim data = Some d -> intended_reference data Q d c ->
  means scale d f -> data_rows data <> [] -> Forall (fun x => length x = d) (data_rows data) -> j < d ->
  (forall r, In r (data_rows data) -> nth_error r j = Some v) ->
  uniform_rectangle_scaled data Q scale ub up = Raise WrongArgumentType /\
  regular_rectangle_scaled data Q scale cells = Raise WrongArgumentType.
Proof. exact scaled_constant_both. Qed.
Print Assumptions rectangle_scaled_constant_column.
Theorem rectangle_scaled_no_data : forall data Q scale d c ub up cells, data_dim data = Some d -> intended_reference data Q d c -> data_rows data = [] ->
  uniform_rectangle_scaled data Q scale ub up = Raise PyValueError /\ regular_rectangle_scaled data Q scale cells = Raise PyValueError.
Proof. exact scaled_no_rows. Qed.
Print Assumptions rectangle_scaled_no_data.

(** C110: a rectangle given by two opposite corners is the support. *)
Theorem rectangle_domain_support : forall data d a b ub up, data_dim data = Some d -> length a = d -> length b = d ->
  (forall j x y, nth_error a j = Some x -> nth_error b j = Some y -> x <> y) ->
  exists bins pts, uniform_rectangle_domain data [a; b] ub up = Ok (bins, pts) /\ length pts = length up /\
    ((forall u, In u up -> in_box (unit_cube d) u) -> forall x, In x pts -> in_box (corner_box a b) x) /\
    forall x, in_box (corner_box a b) x -> exists u bins', in_box (unit_cube d) u /\ uniform_rectangle_domain data [a; b] ub [u] = Ok (bins', [x]).
Proof. exact domain_support_box. Qed.
Print Assumptions rectangle_domain_support.
Example rectangle_domain_support_ex : exists bins pts, uniform_rectangle_domain (DArray 2 []) [[1; 0]; [0; Q2Qc 2]]%Qc [] [[0; 1]]%Qc = Ok (bins, pts) /\
  length pts = 1.
Proof.
  destruct (rectangle_domain_support (DArray 2 []) 2 [1; 0]%Qc [0; Q2Qc 2]%Qc [] [[0; 1]]%Qc eq_refl eq_refl eq_refl) as (b & p & E & L & _).
  - intros [|[|[|j]]] x y; cbn; intros A B; try discriminate; injection A as <-; injection B as <-; discriminate.
  - exists b, p. split; [exact E|exact L].
Qed.
Theorem regular_domain_box : forall data d a b cells, data_dim data = Some d -> length a = d -> length b = d ->
  (forall j x y, nth_error a j = Some x -> nth_error b j = Some y -> x <> y) ->
  exists c s, length c = d /\ length s = d /\ all_positive s /\ centered_box (Q2Qc (1 # 2)) c s = corner_box a b /\
    regular_rectangle_domain data [a; b] cells = regular_rectangle data (NArr c) (NArr s) cells.
Proof. exact domain_regular. Qed.
Print Assumptions regular_domain_box.
(** One row of lower and upper bound per coordinate (the layout of set_domain)
    gives the same, except in two dimensions, where it is read as two corners. *)
Theorem rectangle_domain_rows : forall data d a b, data_dim data = Some d -> length a = d -> length b = d -> d <> 2 -> 1 <= d ->
  (forall ub up, uniform_rectangle_domain data (map (fun p => [fst p; snd p]) (combine a b)) ub up = uniform_rectangle_domain data [a; b] ub up) /\
  (forall cells, regular_rectangle_domain data (map (fun p => [fst p; snd p]) (combine a b)) cells = regular_rectangle_domain data [a; b] cells).
Proof. exact domain_rows. Qed.
Print Assumptions rectangle_domain_rows.
Example rectangle_domain_rows_two_ex : match uniform_rectangle_domain (DSet 2 None []) [[0; 1]; [Q2Qc 10; Q2Qc 20]]%Qc [] [[0; 0]; [1; 1]]%Qc with
  | Ok p => map (map this) (snd p) | Raise _ => [] end = [[0; 1]; [10; 20]]%Q.
Proof. exact ex_transposed_domain. Qed.
