(** bet/calculateP/calculateR.py *)
From Coq Require Import ZArith List Arith Bool QArith Qcanon Qround.
From Verif Require Import Err Num Ext NumPy.
Import ListNotations.
Local Open Scope nat_scope.
Local Open Scope err_scope.

(** ** Clusters *)

(** calculateR.py:38-40: if one of the two sets has no region labels, both get
    the label 0 everywhere. *)
Definition regions_used (predict obs : option (list Z)) (n_predict n_obs : nat) : list Z * list Z :=
  match predict, obs with
  | Some a, Some b => (a, b)
  | _, _ => (repeat 0%Z n_predict, repeat 0%Z n_obs)
  end.
(** np.where(region == i)[0] *)
Definition pointer (regions : list Z) (i : nat) : list nat :=
  map fst (filter (fun e => Z.eqb (snd e) (Z.of_nat i)) (combine (seq 0 (length regions)) regions)).
(** np.max; raises ValueError on an empty array. *)
Definition np_max (l : list Z) : result Z :=
  match l with [] => Raise PyValueError | x :: r => Ok (fold_left Z.max r x) end.

Section Clusters.
Context {V R : Type}.
(** Lines 42-45; [maps] are the cluster maps of the prediction set. *)
Definition num_clusters (maps : option (list (list V))) (regions : list Z) : result nat :=
  match maps with
  | Some m => Ok (length m)
  | None => do z <- np_max regions ; Ok (Z.to_nat (z + 1))
  end.
(** Lines 47-83: a kernel density estimate exists for cluster i if there is more
    than one sample in it; if cluster maps are given the code tests the number
    of maps instead.  (gaussian_kde itself is not modelled: it is assumed to
    accept the data.) *)
Definition has_kde (maps : option (list (list V))) (regions : list Z) (i : nat) : bool :=
  match maps with
  | Some m => 1 <? length m
  | None => 1 <? length (pointer regions i)
  end.

(** invert, lines 87-123.  [ratio i v] is obs_kdes[i](v) / predict_kdes[i](v).
    One pass of the loop; the state is (weights, r, lam_ptr).  Calling a missing
    estimate (None) raises TypeError; assigning an array of another length than
    the selection raises ValueError (broadcasting of a single ratio is not
    modelled: then a cluster map has one row and gaussian_kde rejects it). *)
Definition invert_step (maps omaps : option (list (list V))) (values : list V) (regions oregions : list Z) (ratio : nat -> V -> R)
  (st : list R * list (option (list R)) * list (list nat)) (i : nat) : result (list R * list (option (list R)) * list (list nat)) :=
  let '(weights, rs, ptrs) := st in
  let ptr := pointer regions i in
  do vals <- match maps with
             | None => match take_idx values ptr with Some v => Ok v | None => Raise PyIndexError end
             | Some m => match nth_error m i with Some v => Ok v | None => Raise PyIndexError end
             end ;
  if 0 <? length ptr then
    if has_kde omaps oregions i && has_kde maps regions i then
      let r := map (ratio i) vals in
      match scatter weights ptr r with
      | Some w => Ok (w, rs ++ [Some r], ptrs ++ [ptr])
      | None => Raise PyValueError
      end
    else Raise PyTypeError
  else Ok (weights, rs ++ [None], ptrs ++ [ptr]).
Fixpoint fold_result {S X} (f : S -> X -> result S) (l : list X) (s : S) : result S :=
  match l with [] => Ok s | x :: r => do s' <- f s x ; fold_result f r s' end.
Definition invert (zero : R) (maps omaps : option (list (list V))) (values : list V) (regions oregions : list Z) (ratio : nat -> V -> R)
  : result (list R * list (option (list R)) * list (list nat)) :=
  do n <- num_clusters maps regions ;
  fold_result (invert_step maps omaps values regions oregions ratio) (seq 0 n) (repeat zero (length values), [], []).
End Clusters.

(** Lines 155-156, 255, 311, 382: cluster_weights[i] = fraction of the observations
    with label i. *)
Definition cluster_weights (oregions : list Z) (n_clusters : nat) : list Qc :=
  map (fun i => (qn (length (pointer oregions i)) / qn (length oregions))%Qc) (seq 0 n_clusters).

(** ** Rejection sampling, lines 170-209.  [draws i] are the uniform numbers of
    cluster i; [inputs] the rows of the input set. *)
Definition qlist_max (l : list Qc) : Qc := match l with [] => 0%Qc | x :: r => fold_left qmax r x end.
Definition accepted (r : list Qc) (check : list Qc) : list bool :=
  map (fun e => xleb (Fin (snd e)) (xdivq (fst e) (qlist_max r))) (combine r check).
(** lam_ptr[i][idx] *)
Definition chosen (ptr : list nat) (flags : list bool) : list nat := map fst (filter snd (combine ptr flags)).
Fixpoint rejection_loop (rs : list (option (list Qc))) (ptrs : list (list nat)) (draws : nat -> list Qc) (i : nat) : result (list nat) :=
  match rs, ptrs with
  | [], _ => Ok []
  | None :: _, _ => Raise PyAttributeError
  | Some r :: rs', ptr :: ptrs' =>
      if length r =? 0 then Raise PyValueError
      else do rest <- rejection_loop rs' ptrs' draws (S i) ; Ok (chosen ptr (accepted r (draws i)) ++ rest)
  | _, [] => Raise PyIndexError
  end.
Definition column (j : nat) (rows : list (list Qc)) : list Qc := map (fun row => nth j row 0%Qc) rows.
Definition qlist_min (l : list Qc) : Qc := match l with [] => 0%Qc | x :: r => fold_left qmin r x end.
Record resampled := mk_res { res_values : list (list Qc); res_probs : list Qc; res_domain : list (Qc * Qc) }.
(** np.vstack([]) and np.max of an empty column raise ValueError (the latter if
    the dimension is at least one, as everywhere in the package). *)
Definition rejection_sampling (dim : nat) (inputs : list (list Qc)) (rs : list (option (list Qc))) (ptrs : list (list nat)) (draws : nat -> list Qc)
  : result resampled :=
  do idx <- rejection_loop rs ptrs draws 0 ;
  match take_idx inputs idx with
  | None => Raise PyIndexError
  | Some vals =>
      if length vals =? 0 then Raise PyValueError
      else Ok (mk_res vals (repeat (1 / qn (length vals))%Qc (length vals))
                      (map (fun j => (qlist_min (column j vals), qlist_max (column j vals))) (seq 0 dim)))
  end.

(** Lines 183-187: the ratios and pointers come from invert.  The cluster maps
    do not enter the loop, only the calls above. *)
Definition invert_rejection_sampling {V} (dim : nat) (inputs : list (list Qc)) (maps omaps : option (list (list V))) (values : list V)
  (regions oregions : list Z) (ratio : nat -> V -> Qc) (draws : nat -> list Qc) : result resampled :=
  do inv <- invert 0%Qc maps omaps values regions oregions ratio ;
  let '(_, rs, ptrs) := inv in rejection_sampling dim inputs rs ptrs draws.

(** ** Weighted mean and covariance, lines 225-237 and 283-295.  [None]: the
    weights sum to zero and every entry is nan. *)
Definition wsum (f : list Qc -> Qc) (x : list (list Qc)) (w : list Qc) : Qc :=
  qsum (map (fun e => (f (fst e) * snd e)%Qc) (combine x w)).
Definition weighted_mean (dim : nat) (x : list (list Qc)) (w : list Qc) : list Qc :=
  map (fun i => (wsum (fun row => nth i row 0%Qc) x w / qsum w)%Qc) (seq 0 dim).
Definition vsub (a b : list Qc) : list Qc := map (fun e => (fst e - snd e)%Qc) (combine a b).
Definition weighted_cov (dim : nat) (x : list (list Qc)) (w mean : list Qc) : list (list Qc) :=
  map (fun i => map (fun j =>
     (qsum (map (fun e => (snd e * (nth i (vsub (fst e) mean) 0 * nth j (vsub (fst e) mean) 0))%Qc) (combine x w)) / qsum w)%Qc)
     (seq 0 dim)) (seq 0 dim).
Definition weighted_mean_and_cov (dim : nat) (x : list (list Qc)) (w : list Qc) : option (list Qc * list (list Qc)) :=
  if qeqb (qsum w) 0 then None
  else let m := weighted_mean dim x w in Some (m, weighted_cov dim x w m).

(** ** Weights of the single Gaussian and of the random variable fit, lines
    310-312 and 381-383: r[i] * cluster_weights[i]; None * float raises
    TypeError. *)
Fixpoint total_loop (rs : list (option (list Qc))) (ptrs : list (list nat)) (cws : list Qc) (tw : list Qc) : result (list Qc) :=
  match rs, ptrs, cws with
  | None :: _, _, _ => Raise PyTypeError
  | Some r :: rs', p :: ptrs', c :: cws' =>
      match scatter tw p (map (fun x => (x * c)%Qc) r) with
      | Some tw' => total_loop rs' ptrs' cws' tw'
      | None => Raise PyValueError
      end
  | _, _, _ => Ok tw
  end.
Definition total_weights (n : nat) (rs : list (option (list Qc))) (ptrs : list (list nat)) (cws : list Qc) : result (list Qc) :=
  total_loop rs ptrs cws (repeat 0%Qc n).

(** np.round and Python's round: to the nearest integer, halves to even. *)
Definition round_half_even (q : Qc) : Z :=
  let f := Qfloor (this q) in
  let d := (q - Q2Qc (inject_Z f))%Qc in
  if qltb d (Q2Qc (1 # 2)) then f
  else if qltb (Q2Qc (1 # 2)) d then (f + 1)%Z
  else if Z.even f then f else (f + 1)%Z.
(** Lines 384-385: how often each sample is repeated. *)
Definition repeat_counts (num : nat) (tw : list Qc) : list Z :=
  map (fun w => round_half_even (qn num * w / qsum tw)%Qc) tw.
Definition reweighted {A} (num : nat) (tw : list Qc) (params : list A) : list A :=
  concat (map (fun e => repeat (fst e) (Z.to_nat (snd e))) (combine params (repeat_counts num tw))).

