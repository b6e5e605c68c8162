(** bet/sensitivity/chooseQoIs.py: searching for the best sets of QoIs, and the
    averages that rank them.  find_unique_vecs is in UniqueVecs_Model.v. *)
From Coq Require Import List Arith Bool QArith Qcanon.
From Verif Require Import Err Num Ext NumPy Sampling_Model Post_Model.
Import ListNotations.
Local Open Scope nat_scope.
Local Open Scope err_scope.

(** itertools.combinations(l, n) *)
Fixpoint combs {A} (n : nat) (l : list A) : list (list A) :=
  match n, l with
  | 0, _ => [[]]
  | S n', [] => []
  | S n', x :: r => map (cons x) (combs n' r) ++ combs n r
  end.

Section Search.
Context {V : Type} (v0 : V).
(** What calculate_avg_skewness or calculate_avg_measure returns for a set of
    QoIs: the average, and its array of shape (num_centers, num_qois) as a flat
    list in C order. *)
Variable eval : list nat -> result (xnum * list V).
(** ndarray.argsort() *)
Variable srt : list xnum -> list nat.

(** One row of measure_skewness_indices_mat together with the slice [:, :, j] of
    optsingvals_tensor: both are permuted by the same array [order]. *)
Record row := mk_row { r_m : xnum; r_set : list nat; r_sv : list V }.

(** chooseQoIs.py:286-290 (and 477-483): k rows of zeros, the first column inf;
    msize is num_centers * num_qois_return. *)
Definition init_table (k nq msize : nat) : list row := repeat (mk_row PInf (repeat 0 nq) (repeat v0 msize)) k.

Definition reorder (t : list row) : result (list row) := fancy t (srt (map r_m t)).

(** 299-306: replace the last row if the new value is smaller, then sort.
    Reading row -1 of a table without rows raises IndexError. *)
Definition insert (t : list row) (c : list nat) (e : xnum * list V) : result (list row) :=
  match rev t with
  | [] => Raise PyIndexError
  | l :: _ => if xltb (fst e) (r_m l) then reorder (removelast t ++ [mk_row (fst e) c (snd e)]) else Ok t
  end.

(** 291-306: the loop over the combinations of this process. *)
Fixpoint scan (items : list (list nat)) (t : list row) : result (list row) :=
  match items with
  | [] => Ok t
  | c :: rest => do e <- eval c ; do t' <- insert t c e ; scan rest t'
  end.

(** 314 and 320: np.array(comm.gather(tensor)) has shape (P, num_centers, nq, k)
    and is reshaped to (num_centers, nq, k * P).  [slices] holds for every rank
    the list of its k slices; the result is the list of the k * P slices. *)
Definition flat_tensor (msize : nat) (slices : list (list V)) : list V :=
  flat_map (fun a => map (fun s => nth a s v0) slices) (seq 0 msize).
Definition regather (k P msize : nat) (slices : list (list (list V))) : list (list V) :=
  let flat := concat (map (flat_tensor msize) slices) in
  map (fun t => map (fun a => nth (a * (k * P) + t) flat v0) (seq 0 msize)) (seq 0 (k * P)).

(** 232-334 chooseOptQoIs_verbose after find_unique_vecs returned [qois]: P is
    comm.size, k is num_optsets_return, nq is num_qois_return.  Simplification:
    if one process raises, the whole program is taken to raise. *)
Definition chooseOptQoIs_verbose (P k nq msize : nat) (qois : list nat) : result (list (xnum * list nat) * list (list V)) :=
  do tables <- mapM (fun block => scan block (init_table k nq msize)) (array_split (combs nq qois) P) ;
  let rows := map (fun r => (r_m r, r_set r)) (concat tables) in
  let svs := regather k P msize (map (map r_sv) tables) in
  let order := srt (map fst rows) in
  do rows' <- fancy rows order ; do svs' <- fancy svs order ;
  Ok (firstn k rows', firstn k svs').
(** 196-229 chooseOptQoIs *)
Definition chooseOptQoIs (P k nq msize : nat) (qois : list nat) : result (list (xnum * list nat)) :=
  do r <- chooseOptQoIs_verbose P k nq msize qois ; Ok (fst r).

(** 492-509: the sets that extend one good set.  [ord] gives the order in which
    Python lists a set.  np.max of an empty row raises ValueError. *)
Variable ord : list nat -> list nat.
Definition set_diff (a b : list nat) : list nat := filter (fun x => negb (existsb (Nat.eqb x) b)) a.
Definition extensions (unique g : list nat) : result (list (list nat)) :=
  match g with
  | [] => Raise PyValueError
  | _ => Ok (map (fun u => g ++ [u]) (filter (fun u => list_max g <? u) (ord (set_diff unique g))))
  end.

(** 513-543: the loop over the sets of one process: the good sets and the table. *)
Fixpoint scan_good (tol : xnum) (items : list (list nat)) (st : list (list nat) * list row) : result (list (list nat) * list row) :=
  match items with
  | [] => Ok st
  | c :: rest =>
      do e <- eval c ;
      if xltb (fst e) tol
      then do t' <- insert (snd st) c e ; scan_good tol rest (fst st ++ [c], t')
      else scan_good tol rest st
  end.

(** 559-560: np.unique(..., return_index=True) keeps the first row of every
    value of the first column. *)
Fixpoint first_rows (seen : list xnum) (l : list (xnum * list nat)) : list (xnum * list nat) :=
  match l with
  | [] => []
  | r :: rest => if existsb (xeqb (fst r)) seen then first_rows seen rest else r :: first_rows (fst r :: seen) rest
  end.

(** 440-579 find_good_sets.  The outer loop splits the extensions of every good
    set over the processes (509-513), so rank r works through block r of each of
    them.  Result: good sets, best sets, and the tensor of every rank (which is
    not gathered).  Simplification: np.unique sorts and 561 sorts again; the
    values are distinct, so one sort is modelled. *)
Definition find_good_sets (P k nq msize : nat) (tol : xnum) (prev : list (list nat)) (unique : list nat) :
  result (list (list nat) * list (xnum * list nat) * list (list (list V))) :=
  do exts <- mapM (extensions unique) prev ;
  let items r := flat_map (fun e => nth r (array_split e P) []) exts in
  do states <- mapM (fun r => scan_good tol (items r) ([], init_table k nq msize)) (seq 0 P) ;
  let rows := map (fun r => (r_m r, r_set r)) (concat (map snd states)) in
  let uniq := first_rows [] rows in
  do best <- fancy uniq (srt (map fst uniq)) ;
  Ok (concat (map fst states), firstn k best, map (fun s => map r_sv (snd s)) states).

(** 676-692 chooseOptQoIs_large_verbose after find_unique_vecs: good sets of size
    n are built from those of size n - 1; [steps] is max_qois_return - 1.
    msize n is num_centers * n. *)
Fixpoint large_loop (P k nq : nat) (num_centers : nat) (tol : xnum) (unique : list nat) (steps : nat) (good : list (list nat)) :
  result (list (list (list nat) * list (xnum * list nat))) :=
  match steps with
  | 0 => Ok []
  | S s =>
      do r <- find_good_sets P k nq (num_centers * nq) tol good unique ;
      do rest <- large_loop P k (nq + 1) num_centers tol unique s (fst (fst r)) ;
      Ok ((fst (fst r), snd (fst r)) :: rest)
  end.
(** 582-623 chooseOptQoIs_large: best sets of size 2, 3, ..., max_qois_return *)
Definition chooseOptQoIs_large (P k num_centers max_qois : nat) (tol : xnum) (unique : list nat) : result (list (list (xnum * list nat))) :=
  do l <- large_loop P k 2 num_centers tol unique (max_qois - 1) (map (fun u => [u]) unique) ; Ok (map snd l).
End Search.
Arguments mk_row {V}. Arguments r_m {V}. Arguments r_set {V}. Arguments r_sv {V}.

(** ** The averages.  The singular values are an oracle: one list per center. *)
Definition qmean (l : list Qc) : Qc := (qsum l / qn (length l))%Qc.
Definition q_prod (l : list Qc) : Qc := fold_right Qcmult 1%Qc l.
(** 18-71 calculate_avg_measure: [shape] is (outputs, inputs) of the selected
    Jacobians, None if there are none; bin_measure None is 1. *)
Definition calculate_avg_measure (shape : option (nat * nat)) (singvals : list (list Qc)) (bin_measure : option Qc) : result (xnum * list (list Qc)) :=
  match shape with
  | None => Raise PyValueError
  | Some (o, i) =>
      if i <? o then Raise PyValueError
      else
        let b := match bin_measure with Some b => b | None => 1%Qc end in
        let avg := qmean (map q_prod singvals) in
        Ok (if qeqb avg 0 then PInf else Fin (b / avg)%Qc, singvals)
  end.

(** 1 / x and n / x of positive extended numbers *)
Definition xrecip (x : xnum) : xnum := match x with Fin q => xdivq 1 q | PInf | NInf => Fin 0 | NaN => NaN end.
(** scipy.stats.hmean: size / sum(1 / a); a negative entry raises ValueError. *)
Definition hmean (l : list xnum) : result xnum :=
  if forallb (fun x => xleb (Fin 0) x) l
  then Ok (match xsum (map xrecip l) with Fin s => xdivq (qn (length l)) s | PInf => Fin 0 | y => y end)
  else Raise PyValueError.

(** 120-147: at one center: muG is the product of the singular values, muGi the
    product without row i, normgi the norm of row i (all from LAPACK). *)
Definition skew_entry (muG muGi normgi : Qc) : xnum :=
  match xdivq muG muGi with
  | Fin p => if qeqb p 0 then PInf else Fin (normgi / p)%Qc
  | PInf => PInf
  | NInf => Fin 0
  | NaN => NaN
  end.
(** np.max: nan if any entry is *)
Definition xmax (a b : xnum) : xnum := if is_nan a then NaN else if is_nan b then NaN else if xleb a b then b else a.
Definition xlist_max (l : list xnum) : xnum := match l with [] => NaN | x :: r => fold_left xmax r x end.
Definition skew_center (c : Qc * list (Qc * Qc)) : xnum :=
  let s := xlist_max (map (fun e => skew_entry (fst c) (fst e) (snd e)) (snd c)) in
  if is_nan s then PInf else s.
(** 74-147 calculate_avg_skewness; a center is (muG, [(muGi, normgi), ...]). *)
Definition calculate_avg_skewness (shape : option (nat * nat)) (centers : list (Qc * list (Qc * Qc))) : result xnum :=
  match shape with
  | None => Raise PyValueError
  | Some (o, i) => if i <? o then Raise PyValueError else hmean (map skew_center centers)
  end.

(** 150-193 calculate_avg_condnum: the entries of singular centers are
    overwritten before the array is returned (187-188). *)
Definition overwrite (s : list Qc) : list xnum :=
  match s with
  | [] => []
  | x :: r => if qeqb (last s 0%Qc) 0 then removelast (PInf :: map Fin r) ++ [Fin 1] else map Fin s
  end.
Definition cond_of (s : list xnum) : xnum :=
  match nth 0 s NaN, last s NaN with Fin a, Fin b => xdivq a b | PInf, Fin b => PInf | _, _ => NaN end.
Definition calculate_avg_condnum (shape : option (nat * nat)) (singvals : list (list Qc)) : result (xnum * list (list xnum)) :=
  match shape with
  | None => Raise PyValueError
  | Some (o, i) =>
      if i <? o then Raise PyValueError
      else if o =? 0 then Raise PyIndexError
      else if forallb (fun s => qeqb (last s 0%Qc) 0) singvals then Ok (PInf, map (map Fin) singvals)
      else do h <- hmean (map (fun s => cond_of (overwrite s)) singvals) ; Ok (h, map overwrite singvals)
  end.
