(** bet/sampling/basicSampling.py:494-507: the reference value of the output set. *)
From Coq Require Import List Arith Bool QArith Qcanon.
From Verif Require Import Err Num Util_Model.
Import ListNotations.
Local Open Scope nat_scope.

(** What a call of the model gives: an array, a tuple, an exception. *)
Inductive reply := Array (a : nd) | Tuple | Throws (e : exn).
Definition shape_is (s t : list nat) : bool := if list_eq_dec Nat.eq_dec s t then true else false.
(** sample.py:557-567, set_reference_value with [dim] = the dimension of the output
    set.  A tuple has no attribute shape. *)
Definition set_reference (dim : nat) (r : reply) : result (list Qc) :=
  match r with
  | Array a => if shape_is (shape a) [dim] then Ok (data a) else Raise DimNotMatching
  | Tuple => Raise PyAttributeError
  | Throws e => Raise e
  end.
(** Lines 494-507; the reference value of the input set is an array of shape
    (dim,), so lines 496-497 do nothing.  dim_not_matching is no ValueError
    (sample.py:42), only ValueError is caught.  The result is the reference value
    of the output set, if any. *)
Definition map_reference (out_dim : nat) (model : nd -> reply) (lam_ref : option (list Qc)) : result (option (list Qc)) :=
  match lam_ref with
  | None => Ok None
  | Some lam =>
      match set_reference out_dim (model (mk_nd [length lam] lam)) with
      | Ok v => Ok (Some v)
      | Raise PyValueError =>
          match set_reference out_dim (model (mk_nd [1; length lam] lam)) with
          | Ok v => Ok (Some v)
          | Raise PyValueError => Ok None
          | Raise e => Raise e
          end
      | Raise e => Raise e
      end
  end.
