(** C120: the reference value is mapped by the model. *)
From Coq Require Import List Arith QArith Qcanon.
From Verif Require Import Err Num Util_Model Reference_Model Reference_Spec Reference_Proofs Reference_Examples.
Import ListNotations.
Local Open Scope nat_scope.

Theorem reference_mapped_iff : forall out model lam v, map_reference out model (Some lam) = Ok (Some v) <->
  model (mk_nd [length lam] lam) = Array (mk_nd [out] v) \/
  (model (mk_nd [length lam] lam) = Throws PyValueError /\ model (mk_nd [1; length lam] lam) = Array (mk_nd [out] v)).
Proof. exact mapped_iff. Qed.
Print Assumptions reference_mapped_iff.
Theorem reference_skipped_iff : forall out model lam, map_reference out model lam = Ok None <-> lam = None \/
  exists l, lam = Some l /\ model (mk_nd [length l] l) = Throws PyValueError /\ model (mk_nd [1; length l] l) = Throws PyValueError.
Proof. exact none_lemma. Qed.
Print Assumptions reference_skipped_iff.
Theorem reference_partial : forall dim out f model lam, point_model dim out f model -> length lam = dim ->
  map_reference out model (Some lam) = Ok (Some (f lam)).
Proof. exact point_lemma. Qed.
Print Assumptions reference_partial.
Example reference_ex : point_model 2 2 sum_diff dot_model /\ scalar_model 2 (fun x => hd 0%Qc (sum_diff x)) sum_model.
Proof. exact (conj dot_model_point sum_model_scalar). Qed.
Theorem reference_scalar_partial : forall dim f model lam, scalar_model dim f model -> length lam = dim ->
  map_reference 1 model (Some lam) = Ok (Some [f lam]).
Proof. exact scalar_lemma. Qed.
Print Assumptions reference_scalar_partial.
(** A model that works on rows of samples makes the evaluation fail. *)
Theorem reference_rows_refuted : forall dim out f model lam, row_model dim out f model -> length lam = dim ->
  (model (mk_nd [dim] lam) = Array (mk_nd [1; out] (f lam)) \/ model (mk_nd [dim] lam) = Throws PyValueError ->
     map_reference out model (Some lam) = Raise DimNotMatching) /\
  (forall e, model (mk_nd [dim] lam) = Throws e -> e <> PyValueError -> map_reference out model (Some lam) = Raise e).
Proof. exact row_model_lemma. Qed.
Print Assumptions reference_rows_refuted.
Theorem reference_rows_only_flat : forall dim out f model lam v, row_model dim out f model -> length lam = dim ->
  map_reference out model (Some lam) = Ok (Some v) -> model (mk_nd [dim] lam) = Array (mk_nd [out] v).
Proof. exact row_model_never. Qed.
Print Assumptions reference_rows_only_flat.
Example reference_rows_ex : row_model 2 2 sum_diff column_model /\ map_reference 2 column_model (Some [1; 0]%Qc) = Raise PyIndexError.
Proof. exact (conj column_model_rows eq_refl). Qed.
(** A model that returns error estimates or Jacobians makes it fail. *)
Theorem reference_tuple_refuted : forall out model lam, model (mk_nd [length lam] lam) = Tuple ->
  map_reference out model (Some lam) = Raise PyAttributeError.
Proof. exact tuple_lemma. Qed.
Print Assumptions reference_tuple_refuted.
