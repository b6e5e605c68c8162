From Coq Require Import List Arith QArith Qcanon.
From Verif Require Import Err Num Util_Model Reference_Model.
Import ListNotations.
Local Open Scope nat_scope.

(** The model evaluates [f] row by row: an array with n rows of dim entries gives an
    array with n rows of out entries. *)
Definition row_model (dim out : nat) (f : list Qc -> list Qc) (model : nd -> reply) : Prop :=
  (forall x, length x = dim -> length (f x) = out) /\
  forall rows, (forall x, In x rows -> length x = dim) -> model (mk_nd [length rows; dim] (concat rows)) = Array (mk_nd [length rows; out] (concat (map f rows))).
(** It also takes a single point as a flat array and gives a flat array. *)
Definition point_model (dim out : nat) (f : list Qc -> list Qc) (model : nd -> reply) : Prop :=
  forall x, length x = dim -> model (mk_nd [dim] x) = Array (mk_nd [out] (f x)).
(** A model with one output that gives flat arrays and rejects single points with
    ValueError. *)
Definition scalar_model (dim : nat) (f : list Qc -> Qc) (model : nd -> reply) : Prop :=
  (forall rows, (forall x, In x rows -> length x = dim) -> model (mk_nd [length rows; dim] (concat rows)) = Array (mk_nd [length rows] (map f rows))) /\
  forall x, length x = dim -> model (mk_nd [dim] x) = Throws PyValueError.
