(** Setters and getters of sample_set_base (bet/sample.py). *)
From Coq Require Import List Arith.
From Verif Require Import Err.
Import ListNotations.

(** The properties with a set_X / get_X pair, bet/sample.py:
    416-429 p_norm, 431-444 cluster_maps, 446-458 label, 460-473 labels,
    475-487 weights, 489-501 weights_init, 503-515 prob_type_init,
    517-528 prob_parameters_init, 530-542 prob_type, 544-555 prob_parameters,
    557-573 reference_value, 575-588 region, 590-603 region_local,
    605-618 error_id, 620-633 error_id_local, 808-828 values, 830-851 domain,
    853-871 volumes, 873-891 probabilities, 893-921 densities (explicit argument),
    1004-1022 jacobians, 1041-1059 error_estimates, 1077-1115 values_local,
    1117-1135 volumes_local, 1137-1156 probabilities_local,
    1158-1184 densities_local (explicit argument), 1186-1205 jacobians_local,
    1207-1225 error_estimates_local. *)
Inductive prop :=
| p_norm | cluster_maps | label | labels | weights | weights_init | prob_type_init
| prob_parameters_init | prob_type | prob_parameters | reference_value
| region | region_local | error_id | error_id_local | values | domain | volumes
| probabilities | densities | jacobians | error_estimates | values_local
| volumes_local | probabilities_local | densities_local | jacobians_local
| error_estimates_local.

(** The object's fields that these methods touch. *)
Inductive field :=
| f_p_norm | f_cluster_maps | f_label | f_labels | f_weights | f_weights_init | f_prob_type_init
| f_prob_parameters_init | f_prob_type | f_prob_parameters | f_reference_value
| f_region | f_region_local | f_error_id | f_error_id_local | f_error_local | f_values | f_domain | f_volumes
| f_probabilities | f_densities | f_jacobians | f_error_estimates | f_values_local
| f_volumes_local | f_probabilities_local | f_densities_local | f_jacobians_local
| f_error_estimates_local.

Definition field_eq_dec (a b : field) : {a = b} + {a <> b}.
Proof. decide equality. Defined.

(** The field that get_X returns. *)
Definition read_field (p : prop) : field :=
  match p with
  | p_norm => f_p_norm | cluster_maps => f_cluster_maps | label => f_label | labels => f_labels
  | weights => f_weights | weights_init => f_weights_init | prob_type_init => f_prob_type_init
  | prob_parameters_init => f_prob_parameters_init | prob_type => f_prob_type
  | prob_parameters => f_prob_parameters | reference_value => f_reference_value
  | region => f_region | region_local => f_region_local | error_id => f_error_id
  | error_id_local => f_error_id_local | values => f_values | domain => f_domain
  | volumes => f_volumes | probabilities => f_probabilities | densities => f_densities
  | jacobians => f_jacobians | error_estimates => f_error_estimates
  | values_local => f_values_local | volumes_local => f_volumes_local
  | probabilities_local => f_probabilities_local | densities_local => f_densities_local
  | jacobians_local => f_jacobians_local | error_estimates_local => f_error_estimates_local
  end.

(** The field that set_X assigns; set_error_id_local (line 627) assigns
    self._error_local. *)
Definition write_field (p : prop) : field :=
  match p with
  | error_id_local => f_error_local
  | q => read_field q
  end.

Section Ops.
(** [fixed] is util.fix_dimensions_data(v, dim) (bet/util.py:205-209): it reshapes or
    transposes an array; Given_* has what it does to the entries. *)
Context {V : Type} (shape : V -> list nat) (fixed : V -> V) (dim : nat).
Definition obj := field -> option V.
Definition second_axis (s : list nat) : nat := match s with _ :: m :: _ => m | _ => 0 end.

(** Shape tests: reference_value (564) shape = (dim,); domain (838) first axis =
    dim.  The other setters except the two for values do not check. *)
Definition accepts (p : prop) (v : V) : bool :=
  match p, shape v with
  | reference_value, [d] => d =? dim
  | reference_value, _ => false
  | domain, d :: _ => d =? dim
  | domain, [] => false
  | _, _ => true
  end.

(** The object after the call and the exception, if any.  set_values (816-818) and
    set_values_local (1085-1088) store the fixed array and then look at its second
    axis. *)
Definition store (p : prop) (v : V) (o : obj) : obj := fun f => if field_eq_dec f (write_field p) then Some v else o f.
Definition set_prop (p : prop) (v : V) (o : obj) : obj * option exn :=
  match p with
  | values | values_local => (store p (fixed v) o, if second_axis (shape (fixed v)) =? dim then None else Some DimNotMatching)
  | _ => if accepts p v then (store p v o, None) else (o, Some DimNotMatching)
  end.
Definition get_prop (p : prop) (o : obj) : option V := o (read_field p).

(** A sequence of setter calls; a call that raises ends it. *)
Fixpoint set_all (ops : list (prop * V)) (o : obj) : obj * option exn :=
  match ops with
  | [] => (o, None)
  | (p, v) :: r => match set_prop p v o with (o, None) => set_all r o | (o, Some e) => (o, Some e) end
  end.
End Ops.
