(** normalize_domain / undo_normalize_domain with shared array memory.
    Every array is a list of vectors of length dim (a Jacobian array of shape
    (num, other_dim, dim) is the list of its num*other_dim vectors, the
    reference value is a list with one vector). *)
From Coq Require Import List Arith QArith Qcanon.
From Verif Require Import Num.
Import ListNotations.
Local Open Scope nat_scope.

Definition vec := list Qc.

(** A NumPy array object is a window [off, off+len) of a memory buffer:
    np.array_split and basic slicing return windows of the same buffer. *)
Record ref := mk_ref { buf : nat; off : nat; len : nat }.
Definition heap := nat -> list vec.
Definition read (h : heap) (r : ref) : list vec := firstn (len r) (skipn (off r) (h (buf r))).

(** In-place update  a op= v  of the window. *)
Definition inplace (f : vec -> vec) (h : heap) (r : ref) : heap :=
  fun b => if b =? buf r
           then firstn (off r) (h b) ++ map f (firstn (len r) (skipn (off r) (h b)))
                ++ skipn (off r + len r) (h b)
           else h b.

(** The fields that bet/sample.py:354-366 goes through. *)
Inductive fld := Jac | JacL | Val | ValL | Err | ErrL | Lft | LftL | Rgt | RgtL | RefV.
Definition fld_eq_dec (a b : fld) : {a = b} + {a <> b}.
Proof. decide equality. Defined.
Definition rescale_list := [Jac; JacL].                              (* 354, 393 *)
Definition shift_list := [Val; ValL; Err; ErrL; Lft; LftL; Rgt; RgtL; RefV]. (* 361-364 *)

Record nset := mk_nset {
  mem : heap; next : nat;                     (* buffers < next are in use *)
  fields : fld -> option ref;
  dom : option (list (Qc * Qc)); dom_original : option (list (Qc * Qc)) }.

Definition map2 (f : Qc -> Qc -> Qc) (a b : vec) : vec := map (fun p => f (fst p) (snd p)) (combine a b).
Definition lows (d : list (Qc * Qc)) : vec := map fst d.
Definition widths (d : list (Qc * Qc)) : vec := map (fun p => snd p - fst p)%Qc d.

Definition set_field (s : nset) (f : fld) (r : ref) : nset :=
  mk_nset (mem s) (next s) (fun g => if fld_eq_dec g f then Some r else fields s g) (dom s) (dom_original s).
Definition set_mem (s : nset) (h : heap) : nset := mk_nset h (next s) (fields s) (dom s) (dom_original s).

(** A NumPy expression creates a new array. *)
Definition alloc (s : nset) (f : fld) (rows : list vec) : nset :=
  set_field (mk_nset (fun b => if b =? next s then rows else mem s b) (S (next s)) (fields s) (dom s) (dom_original s))
            f (mk_ref (next s) 0 (length rows)).

(** 355-359: val *= width; setattr(self, obj, val) *)
Definition rescale1 (d : list (Qc * Qc)) (s : nset) (f : fld) : nset :=
  match fields s f with
  | None => s
  | Some r => set_mem s (inplace (fun v => map2 Qcmult v (widths d)) (mem s) r)
  end.
(** 366-371: val -= low (in place); val = val / width; setattr(self, obj, val) *)
Definition shift1 (d : list (Qc * Qc)) (s : nset) (f : fld) : nset :=
  match fields s f with
  | None => s
  | Some r =>
      let s1 := set_mem s (inplace (fun v => map2 Qcminus v (lows d)) (mem s) r) in
      alloc s1 f (map (fun v => map2 Qcdiv v (widths d)) (read (mem s1) r))
  end.

(** bet/sample.py:343-373.  Division by a zero width gives inf/nan in the code;
    the theorems assume non-zero widths. *)
Definition normalize_domain (s : nset) : nset :=
  match dom s with
  | None => s
  | Some d =>
      let s1 := fold_left (rescale1 d) rescale_list s in
      let s2 := fold_left (shift1 d) shift_list s1 in
      mk_nset (mem s2) (next s2) (fields s2) (Some (map (fun _ => (0, 1)%Qc) d)) (Some d)
  end.

(** 394-411 *)
Definition unscale1 (d : list (Qc * Qc)) (s : nset) (f : fld) : nset :=
  match fields s f with
  | None => s
  | Some r => alloc s f (map (fun v => map2 Qcdiv v (widths d)) (read (mem s) r))
  end.
Definition unshift1 (d : list (Qc * Qc)) (s : nset) (f : fld) : nset :=
  match fields s f with
  | None => s
  | Some r => alloc s f (map (fun v => map2 Qcplus (map2 Qcmult v (widths d)) (lows d)) (read (mem s) r))
  end.
(** bet/sample.py:375-414 *)
Definition undo_normalize_domain (s : nset) : nset :=
  match dom s, dom_original s with
  | Some _, Some d =>
      let s1 := fold_left (unscale1 d) rescale_list s in
      let s2 := fold_left (unshift1 d) shift_list s1 in
      mk_nset (mem s2) (next s2) (fields s2) (Some d) None
  | _, _ => s
  end.
