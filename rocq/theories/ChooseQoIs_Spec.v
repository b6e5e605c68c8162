From Coq Require Import List Arith Permutation QArith Qcanon.
From Verif Require Import Num Ext Post_Spec.
Import ListNotations.
Local Open Scope nat_scope.

(** A choice of n different QoIs out of qs. *)
Definition set_of (n : nat) (qs c : list nat) : Prop := length c = n /\ NoDup c /\ incl c qs.
(** argsort returns some sorting permutation. *)
Definition good_sort (srt : list xnum -> list nat) : Prop := forall l, is_xargsort l (srt l).
(** Listing a Python set: every element once, in some order. *)
Definition set_order (ord : list nat -> list nat) : Prop := forall l, NoDup (ord l) /\ forall x, In x (ord l) <-> In x l.
(** A criterion on sets of QoIs: the order of the QoIs does not matter, and the
    value is a number or inf. *)
Definition set_criterion (mu : list nat -> xnum) : Prop :=
  (forall c c', Permutation c c' -> mu c = mu c') /\ forall c, mu c <> NaN.

Definition sorted_rows (rows : list (xnum * list nat)) : Prop :=
  forall i j r s, i < j -> nth_error rows i = Some r -> nth_error rows j = Some s -> xleb (fst r) (fst s) = true.
(** The k best choices of n QoIs: k rows in increasing order; rows that are not
    inf are different choices with their value; every choice that is not listed
    is no better than any listed row. *)
Definition best_table (k n : nat) (qs : list nat) (mu : list nat -> xnum) (rows : list (xnum * list nat)) : Prop :=
  length rows = k /\ sorted_rows rows /\
  (forall m c, In (m, c) rows -> m <> PInf -> set_of n qs c /\ m = mu c) /\
  (forall i j m m' c c', i <> j -> nth_error rows i = Some (m, c) -> nth_error rows j = Some (m', c') -> m <> PInf -> m' <> PInf -> ~ Permutation c c') /\
  (forall c, set_of n qs c -> mu c <> PInf ->
     (exists c', Permutation c c' /\ In (mu c, c') rows) \/ (forall m c', In (m, c') rows -> xleb m (mu c) = true)).

(** The sets that extend a set of [prev] by one larger index and are below the
    tolerance. *)
Definition acceptable (prev : list (list nat)) (unique : list nat) (mu : list nat -> xnum) (tol : xnum) (s : list nat) : Prop :=
  exists g u, In g prev /\ In u unique /\ (forall x, In x g -> x < u) /\ s = g ++ [u] /\ xltb (mu s) tol = true.
(** If a choice has a finite value, so has every part of it (with two or more
    QoIs): independent gradient vectors stay independent. *)
Definition hereditary (mu : list nat -> xnum) : Prop :=
  forall c c', NoDup c -> NoDup c' -> incl c' c -> 2 <= length c' -> mu c <> PInf -> mu c' <> PInf.
(** Slice j of the returned array belongs to row j. *)
Definition aligned {V} (sv : list nat -> list V) (rows : list (xnum * list nat)) (svs : list (list V)) : Prop :=
  length svs = length rows /\ forall j m c, nth_error rows j = Some (m, c) -> m <> PInf -> nth_error svs j = Some (sv c).
(** What the best-set table of find_good_sets does guarantee: rows that are not
    inf are acceptable sets with their value, in increasing order, and the first
    row is at least as good as every acceptable set. *)
Definition leading_table (k : nat) (prev : list (list nat)) (unique : list nat) (mu : list nat -> xnum) (tol : xnum) (rows : list (xnum * list nat)) : Prop :=
  length rows <= k /\ sorted_rows rows /\
  (forall m c, In (m, c) rows -> m <> PInf -> acceptable prev unique mu tol c /\ m = mu c) /\
  (forall s, acceptable prev unique mu tol s -> exists m c rest, rows = (m, c) :: rest /\ xleb m (mu s) = true).
(** No two rows have the same value. *)
Definition distinct_values (rows : list (xnum * list nat)) : Prop := NoDup (map fst rows).
(** The first row is an optimal choice of n QoIs, and all rows are choices. *)
Definition optimal_first (n : nat) (qs : list nat) (mu : list nat -> xnum) (rows : list (xnum * list nat)) : Prop :=
  sorted_rows rows /\
  (forall m c, In (m, c) rows -> m <> PInf -> set_of n qs c /\ m = mu c) /\
  (forall c, set_of n qs c -> mu c <> PInf -> exists m c0 rest, rows = (m, c0) :: rest /\ xleb m (mu c) = true).

(** ** averages *)
(** Harmonic mean: inf entries count as reciprocal 0. *)
Definition recip_of (x : xnum) : Qc := match x with Fin q => (/ q)%Qc | _ => 0%Qc end.
Definition is_hmean (l : list xnum) (h : xnum) : Prop :=
  ((forall x, In x l -> x = PInf) -> h = PInf) /\
  ((exists x, In x l /\ x <> PInf) -> exists q, h = Fin q /\ (q * fold_right Qcplus 0 (map recip_of l) = qn (length l))%Qc).
Definition product (l : list Qc) : Qc := fold_right Qcmult 1%Qc l.
Definition average (l : list Qc) : Qc := (fold_right Qcplus 0 l / qn (length l))%Qc.
(** Volumes of parallelepipeds: one center is (volume, [(volume without row i,
    norm of row i)]).  No volume without a face, and Hadamard's inequality. *)
Definition geometric (c : Qc * list (Qc * Qc)) : Prop :=
  snd c <> [] /\ (0 <= fst c)%Qc /\
  forall e, In e (snd c) -> (0 <= fst e)%Qc /\ (fst e = 0 -> fst c = 0)%Qc /\ (fst c <= snd e * fst e)%Qc.
(** The skewness of a center: the largest |g_i| vol_i / vol, inf if vol = 0. *)
Definition is_skewness (c : Qc * list (Qc * Qc)) (s : xnum) : Prop :=
  (fst c = 0%Qc -> s = PInf) /\
  (fst c <> 0%Qc -> exists q, s = Fin q /\ (exists e, In e (snd c) /\ (q * fst c = snd e * fst e)%Qc) /\ forall e, In e (snd c) -> (snd e * fst e <= q * fst c)%Qc).
(** Condition number of a center with its singular values in decreasing order. *)
Definition is_condnum (s : list Qc) (x : xnum) : Prop :=
  (last s 0 = 0 -> x = PInf)%Qc /\ (last s 0 <> 0 -> x = Fin (nth 0 s 0 / last s 0))%Qc.
