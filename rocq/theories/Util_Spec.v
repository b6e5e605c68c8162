From Coq Require Import List Arith Bool QArith Qcanon.
From Verif Require Import Err Num Ext Util_Model.
Import ListNotations.
Local Open Scope nat_scope.

(** All combinations, one entry from each list; the last entry varies fastest. *)
Fixpoint combinations {A} (ls : list (list A)) : list (list A) :=
  match ls with
  | [] => [[]]
  | l :: r => flat_map (fun x => map (cons x) (combinations r)) l
  end.

(** An array: as many numbers as the shape says. *)
Definition well_formed (a : nd) : Prop := length (data a) = fold_right Nat.mul 1 (shape a).
Definition valid_index (s idx : list nat) : Prop := Forall2 (fun i n => i < n) idx s.

(** The entry a[i], a[i, j] of an array with one or two axes. *)
Definition entry1 (a : nd) (i : nat) : option Qc := nth_error (data a) i.
Definition entry2 (a : nd) (i j : nat) : option Qc :=
  match shape a with
  | [n; m] => if (i <? n) && (j <? m) then nth_error (data a) (i * m + j) else None
  | _ => None
  end.

(** A value that a user can pass: its array is well formed, and a list has at
    least one axis. *)
Definition valid_input (v : pyval) : Prop :=
  match v with
  | PyNum _ => True
  | PySeq a => well_formed a /\ shape a <> []
  | PyArr a => well_formed a
  end.

(** The input with a vector read as a column. *)
Definition as_2d (v : pyval) : nd :=
  let a := to_array v in match shape a with [n] => mk_nd [n; 1] (data a) | _ => a end.

(** Cleaning one number. *)
Definition cleaned (maxfloat : Qc) (x y : xnum) : Prop :=
  match x with
  | NaN => y = Fin 0%Qc
  | PInf => y = Fin maxfloat
  | NInf => y = Fin (- maxfloat)%Qc
  | Fin q => y = Fin q
  end.
