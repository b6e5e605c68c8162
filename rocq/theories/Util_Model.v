(** bet/util.py: meshgrid_ndim, fix_dimensions_*, clean_data. *)
From Coq Require Import List Arith Bool QArith Qcanon.
From Verif Require Import Err Num Ext NumPy.
Import ListNotations.
Local Open Scope nat_scope.
Local Open Scope err_scope.

Definition prod (l : list nat) : nat := fold_right Nat.mul 1 l.

(** ** meshgrid_ndim, bet/util.py:26-73 *)

(** numpy.meshgrid(..., indexing='ij') followed by .flat[:]: in C order, array
    number j holds each entry of vector j once for every combination of the
    later axes, and the whole pattern once for every combination of the earlier
    ones. *)
Fixpoint mesh_columns (before : nat) (ls : list (list Qc)) : list (list Qc) :=
  match ls with
  | [] => []
  | l :: r => np_tile (np_repeat l (prod (map (@length Qc) r))) before :: mesh_columns (before * length l) r
  end.
(** np.vstack(columns).transpose(); all columns have n entries. *)
Definition rows_of (n : nat) (cols : list (list Qc)) : list (list Qc) :=
  map (fun k => map (fun c => nth k c 0%Qc) cols) (seq 0 n).
(** Padding with np.array([0]) up to ten vectors, alist[0], ..., alist[9], then
    X_new[:, 0:n]. *)
Definition meshgrid_ndim (X : list (list Qc)) : list (list Qc) :=
  let n := length X in
  let ten := firstn 10 (X ++ repeat [0%Qc] (10 - n)) in
  map (firstn n) (rows_of (prod (map (@length Qc) ten)) (mesh_columns 1 ten)).

(** ** Arrays of any shape: row-major data *)
Record nd := mk_nd { shape : list nat; data : list Qc }.

Fixpoint ravel (s idx : list nat) : nat :=
  match s, idx with
  | _ :: r, i :: is => i * prod r + ravel r is
  | _, _ => 0
  end.
Fixpoint unravel (s : list nat) (k : nat) : list nat :=
  match s with
  | [] => []
  | _ :: r => k / prod r :: unravel r (k mod prod r)
  end.
(** a.transpose(): entry (i1,...,ik) of the result is entry (ik,...,i1). *)
Definition transpose (a : nd) : nd :=
  let s' := rev (shape a) in
  mk_nd s' (map (fun k => nth (ravel (shape a) (rev (unravel s' k))) (data a) 0%Qc) (seq 0 (prod s'))).
(** np.expand_dims(a, axis=1) fails on a 0-dimensional array. *)
Definition expand_dims1 (a : nd) : result nd :=
  match shape a with
  | [] => Raise PyValueError
  | n :: r => Ok (mk_nd (n :: 1 :: r) (data a))
  end.
Definition expand_dims0 (a : nd) : nd := mk_nd (1 :: shape a) (data a).

(** What the functions accept: a number; a list or tuple (possibly nested, not
    ragged), given by the array numpy.array makes of it, which has at least one
    axis; an ndarray. *)
Inductive pyval := PyNum (x : Qc) | PySeq (a : nd) | PyArr (a : nd).

(** bet/util.py:126-129, 142-145: the common conversion *)
Definition to_array (v : pyval) : nd :=
  match v with
  | PyNum x => mk_nd [1] [x]
  | PySeq a => a
  | PyArr a => a
  end.

(** bet/util.py:118-130 *)
Definition fix_dimensions_vector (v : pyval) : nd :=
  let a := to_array v in mk_nd [length (data a)] (data a).

(** bet/util.py:133-149 *)
Definition fix_dimensions_vector_2darray (v : pyval) : result nd :=
  let a := to_array v in
  if length (shape a) <=? 1 then expand_dims1 a else Ok a.

(** bet/util.py:152-176.  len() of a number raises TypeError; len() of a
    sequence is the length of its first axis. *)
Definition fix_dimensions_domain (v : pyval) : result nd :=
  match v with
  | PyNum _ => Raise PyTypeError
  | PySeq a => match shape a with
               | 2 :: _ => Ok (expand_dims0 a)
               | _ => Raise PyTypeError
               end
  | PyArr a =>
      match shape a with
      | [n] => if n =? 2 then Ok (expand_dims0 a) else Raise PyTypeError
      | [n; m] => if m =? 2 then Ok a else if n =? 2 then Ok (transpose a) else Raise PyTypeError
      | _ => Raise PyTypeError
      end
  end.

(** bet/util.py:179-209 *)
Definition fix_dimensions_data (v : pyval) (dim : option nat) : result nd :=
  match dim with
  | None =>
      match v with
      | PyArr a => if length (shape a) =? 1 then fix_dimensions_vector_2darray v else Ok a
      | _ => fix_dimensions_vector_2darray v
      end
  | Some d =>
      do a <- fix_dimensions_vector_2darray v ;
      match shape a with
      | _ :: m :: _ => if m =? d then Ok a else Ok (transpose a)
      | _ => Ok a
      end
  end.

(** ** clean_data, bet/util.py:212-225; [maxfloat] is sys.float_info[0].  The
    array is changed in place and returned. *)
Definition clean_data (maxfloat : Qc) (d : list xnum) : list xnum :=
  let d1 := map (fun x => if is_nan x then Fin 0%Qc else x) d in
  map (fun x => match x with
                | PInf => Fin (1 * maxfloat)%Qc
                | NInf => Fin (- (1) * maxfloat)%Qc
                | _ => x
                end) d1.
