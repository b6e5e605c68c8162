(** C20, C21, C22: meshgrid_ndim, fix_dimensions_*, clean_data. *)
From Coq Require Import List Arith Bool QArith Qcanon Lia.
From Verif Require Import Err Num Ext Show Util_Model Util_Spec Util_Proofs.
Import ListNotations.
Local Open Scope nat_scope.

(** C20: all combinations, the last coordinate fastest ... *)
Theorem meshgrid_is_product : forall X, length X <= 10 -> meshgrid_ndim X = combinations X.
Proof. exact meshgrid_eq. Qed.
Print Assumptions meshgrid_is_product.
Example meshgrid_is_product_ex : meshgrid_ndim [[0; 1]; [Q2Qc 5; Q2Qc 6; Q2Qc 7]]%Qc =
  [[0; Q2Qc 5]; [0; Q2Qc 6]; [0; Q2Qc 7]; [1; Q2Qc 5]; [1; Q2Qc 6]; [1; Q2Qc 7]]%Qc.
Proof. reflexivity. Qed.

(** ... so the count is the product of the lengths and a row is present iff
    each entry comes from the matching vector. *)
Theorem meshgrid_rows : forall X, length X <= 10 ->
  length (meshgrid_ndim X) = fold_right Nat.mul 1 (map (@length Qc) X) /\
  forall r, In r (meshgrid_ndim X) <-> Forall2 (@In Qc) r X.
Proof. exact meshgrid_contents. Qed.
Print Assumptions meshgrid_rows.

(** Beyond the documented ten vectors the rest is silently dropped. *)
Theorem meshgrid_beyond_ten : forall X, 10 < length X -> (forall l, In l X -> l <> []) ->
  meshgrid_ndim X <> combinations X /\ forall r, In r (meshgrid_ndim X) -> length r = 10.
Proof. exact meshgrid_truncates. Qed.
Print Assumptions meshgrid_beyond_ten.
Example meshgrid_beyond_ten_ex : forall l, In l (repeat [1%Qc] 11) -> l <> [].
Proof. intros l H. apply repeat_spec in H. subst. discriminate. Qed.

(** C21, vectors: shape (N,) and the same entries. *)
Theorem fix_vector_shape : forall v, valid_input v ->
  fix_dimensions_vector v = mk_nd [length (data (to_array v))] (data (to_array v)) /\
  fix_dimensions_vector (PyArr (fix_dimensions_vector v)) = fix_dimensions_vector v.
Proof. exact fix_vector_ok. Qed.
Print Assumptions fix_vector_shape.

(** Columns: shape (N, 1) for vectors, arrays with more axes unchanged. *)
Theorem fix_2darray_vector : forall v n, valid_input v -> shape (to_array v) = [n] ->
  fix_dimensions_vector_2darray v = Ok (mk_nd [n; 1] (data (to_array v))).
Proof. exact fix_2d_vector. Qed.
Print Assumptions fix_2darray_vector.
Theorem fix_2darray_other : forall v, 2 <= length (shape (to_array v)) -> fix_dimensions_vector_2darray v = Ok (to_array v).
Proof. exact fix_2d_other. Qed.
Print Assumptions fix_2darray_other.
Theorem fix_2darray_idempotent : forall v a, fix_dimensions_vector_2darray v = Ok a -> fix_dimensions_vector_2darray (PyArr a) = Ok a.
Proof. exact fix_2d_idem. Qed.
Print Assumptions fix_2darray_idempotent.

(** Domains given as arrays: accepted exactly for shapes (2,), (n,2), (2,n). *)
Theorem fix_domain_arrays : forall a, well_formed a ->
  match shape a with
  | [n] => if n =? 2 then fix_dimensions_domain (PyArr a) = Ok (mk_nd [1; 2] (data a)) else fix_dimensions_domain (PyArr a) = Raise PyTypeError
  | [n; m] =>
      if m =? 2 then fix_dimensions_domain (PyArr a) = Ok a
      else if n =? 2 then exists b, fix_dimensions_domain (PyArr a) = Ok b /\ shape b = [m; 2] /\ (forall i j, entry2 b i j = entry2 a j i)
      else fix_dimensions_domain (PyArr a) = Raise PyTypeError
  | _ => fix_dimensions_domain (PyArr a) = Raise PyTypeError
  end.
Proof. exact fix_domain_array. Qed.
Print Assumptions fix_domain_arrays.
Theorem fix_domain_shape : forall a b, well_formed a -> fix_dimensions_domain (PyArr a) = Ok b ->
  (exists n, shape b = [n; 2]) /\ fix_dimensions_domain (PyArr b) = Ok b.
Proof. exact fix_domain_idem. Qed.
Print Assumptions fix_domain_shape.
Example fix_domain_ex : well_formed (mk_nd [2; 3] [0; 0; 0; 1; 1; 1]%Qc) /\
  fix_dimensions_domain (PyArr (mk_nd [2; 3] [0; 0; 0; 1; 1; 1]%Qc)) = Ok (mk_nd [3; 2] [0; 1; 0; 1; 0; 1]%Qc).
Proof. split; reflexivity. Qed.

(** A domain given as a nested list of two pairs gets three axes. *)
Theorem fix_domain_shape_refuted : forall x y z w,
  fix_dimensions_domain (PySeq (mk_nd [2; 2] [x; y; z; w])) = Ok (mk_nd [1; 2; 2] [x; y; z; w]).
Proof. exact fix_domain_nested. Qed.
Print Assumptions fix_domain_shape_refuted.

(** Data without dim: nothing is reordered, at least two axes. *)
Theorem fix_data_no_dim : forall v a, valid_input v -> shape (to_array v) <> [] -> fix_dimensions_data v None = Ok a ->
  data a = data (to_array v) /\ 2 <= length (shape a) /\ fix_dimensions_data (PyArr a) None = Ok a.
Proof. exact fix_data_none. Qed.
Print Assumptions fix_data_no_dim.

(** Data with dim: shape (N, dim) if one axis has that length. *)
Theorem fix_data_shape_partial : forall v n m d, valid_input v -> shape (as_2d v) = [n; m] ->
  (length (shape (to_array v)) = 1 \/ length (shape (to_array v)) = 2) -> (m = d \/ n = d) ->
  exists a N, fix_dimensions_data v (Some d) = Ok a /\ shape a = [N; d] /\
    (a = as_2d v \/ forall i j, entry2 a j i = entry2 (as_2d v) i j) /\
    fix_dimensions_data (PyArr a) (Some d) = Ok a.
Proof. exact fix_data_dim. Qed.
Print Assumptions fix_data_shape_partial.
Example fix_data_shape_ex : fix_dimensions_data (PyArr (mk_nd [2; 3] [0; 0; 0; 1; 1; 1]%Qc)) (Some 2) = Ok (mk_nd [3; 2] [0; 1; 0; 1; 0; 1]%Qc) /\
  fix_dimensions_data (PySeq (mk_nd [3] [0; 1; 0]%Qc)) (Some 3) = Ok (mk_nd [1; 3] [0; 1; 0]%Qc).
Proof. split; reflexivity. Qed.

(** Otherwise nothing is rejected: the array is transposed, on every call. *)
Theorem fix_data_shape_refuted : forall v n m d, valid_input v -> shape (as_2d v) = [n; m] ->
  (length (shape (to_array v)) = 1 \/ length (shape (to_array v)) = 2) -> m <> d -> n <> d -> n <> m ->
  exists a, fix_dimensions_data v (Some d) = Ok a /\ shape a = [m; n] /\
    exists b, fix_dimensions_data (PyArr a) (Some d) = Ok b /\ b <> a.
Proof. exact fix_data_mismatch. Qed.
Print Assumptions fix_data_shape_refuted.
Example fix_data_shape_refuted_ex : valid_input (PySeq (mk_nd [4] [0; 1; 0; 1]%Qc)) /\
  fix_dimensions_data (PySeq (mk_nd [4] [0; 1; 0; 1]%Qc)) (Some 2) = Ok (mk_nd [1; 4] [0; 1; 0; 1]%Qc).
Proof. split; [split; [reflexivity | discriminate] | reflexivity]. Qed.

(** C22 *)
Theorem clean_data_entries : forall maxfloat d, Forall2 (cleaned maxfloat) d (clean_data maxfloat d).
Proof. exact clean_ok. Qed.
Print Assumptions clean_data_entries.
Theorem clean_data_all_finite : forall maxfloat d x, In x (clean_data maxfloat d) -> exists q, x = Fin q.
Proof. exact clean_finite. Qed.
Print Assumptions clean_data_all_finite.
Theorem clean_data_idempotent : forall maxfloat d, clean_data maxfloat (clean_data maxfloat d) = clean_data maxfloat d.
Proof. exact clean_idem. Qed.
Print Assumptions clean_data_idempotent.
Example clean_data_ex : clean_data (Q2Qc 9) [NaN; Fin 1%Qc; NInf; PInf] = map Fin [0%Qc; 1%Qc; Q2Qc (-9); Q2Qc 9].
Proof. qc_compute. Qed.
