(** Samples given to a sample set in any layout: set_values, set_values_local,
    append_values and append_values_local (bet/sample.py), on one process. *)
From Coq Require Import List Arith Bool QArith Qcanon.
From Verif Require Import Err Util_Model.
Import ListNotations.
Local Open Scope nat_scope.

(** The dimension and one of the arrays _values, _values_local. *)
Record gset := mk_gset { g_dim : nat; g_values : option nd }.
Definition new_gset (d : nat) : gset := mk_gset d None.

(** sample.py:808-818, set_values: the array is stored before its second axis is
    compared with the dimension.  (shape[1] exists: fix_dimensions_data returns at
    least two axes.)  set_values_local, lines 1077-1088, does the same. *)
Definition second_axis (a : nd) : nat := match shape a with _ :: m :: _ => m | _ => 0 end.
Definition g_set_values (v : pyval) (s : gset) : gset * option exn :=
  match fix_dimensions_data v (Some (g_dim s)) with
  | Raise e => (s, Some e)
  | Ok a => (mk_gset (g_dim s) (Some a), if second_axis a =? g_dim s then None else Some DimNotMatching) end.

(** np.concatenate((a, b), 0): the other axes have to agree. *)
Fixpoint shape_eqb (a b : list nat) : bool :=
  match a, b with [], [] => true | x :: a, y :: b => (x =? y) && shape_eqb a b | _, _ => false end.
Definition concatenate0 (a b : nd) : result nd :=
  match shape a, shape b with
  | n :: r, m :: t => if shape_eqb r t then Ok (mk_nd (n + m :: r) (data a ++ data b)) else Raise PyValueError
  | _, _ => Raise PyValueError
  end.
(** sample.py:664-676, append_values (append_values_local, 678-690, is the same on
    the local array): a set without values has None there, a zero-dimensional
    array, which concatenate rejects. *)
Definition g_append_values (v : pyval) (s : gset) : gset * option exn :=
  match fix_dimensions_data v (Some (g_dim s)) with
  | Raise e => (s, Some e)
  | Ok b => match g_values s with
            | None => (s, Some PyValueError)
            | Some a => match concatenate0 a b with
                        | Ok c => (mk_gset (g_dim s) (Some c), None)
                        | Raise e => (s, Some e) end end end.

Inductive gcall := GSet (v : pyval) | GAppend (v : pyval).
Definition gstep (s : gset) (c : gcall) : gset * option exn :=
  match c with GSet v => g_set_values v s | GAppend v => g_append_values v s end.
(** Calls in turn, stopping at the first exception. *)
Fixpoint gscript (s : gset) (h : list gcall) : gset * option exn :=
  match h with
  | [] => (s, None)
  | c :: h => match gstep s c with (s, None) => gscript s h | (s, Some e) => (s, Some e) end end.
