(** bet/sensitivity/chooseQoIs.py:353-437 find_unique_vecs, over the real numbers. *)
From Coq Require Import List Arith Bool Reals.
From Verif Require Import Err GradientR_Model ChooseQoIs_Model.
Import ListNotations.
Local Open Scope R_scope.
Local Open Scope err_scope.

(** itertools.combinations(l, 2) as pairs *)
Fixpoint pairs (l : list nat) : list (nat * nat) :=
  match l with [] => [] | x :: r => map (fun y => (x, y)) r ++ pairs r end.
(** Lines 415-431, the loop over the pairs; [test i j] is the comparison of the
    averaged inner product with the tolerance. *)
Fixpoint pair_loop (test : nat -> nat -> result bool) (ps : list (nat * nat)) (repeats : list nat) : result (list nat) :=
  match ps with
  | [] => Ok repeats
  | (i, j) :: rest =>
      if existsb (Nat.eqb i) repeats || existsb (Nat.eqb j) repeats then pair_loop test rest repeats
      else do b <- test i j ; pair_loop test rest (if b : bool then repeats ++ [j] else repeats)
  end.

Definition is_true_R {P Q : Prop} (d : {P} + {Q}) : bool := if d then true else false.
(** Line 388: the norm of a gradient vector; [jac] is the list of the Jacobians
    (rows are QoIs) of the centers. *)
Definition norm (v : list R) : R := sqrt (rsum (map Rsqr v)).
(** Lines 391-395 *)
Definition zero_somewhere (jac : list (list (list R))) (i : nat) : bool :=
  existsb (fun m => is_true_R (Req_EM_T (norm (nth i m [])) 0)) jac.
(** Lines 400-403: divide by the norm, by 1 if it is zero.  A division by zero
    gives nan ([None]), and nan spreads through sums and products. *)
Definition ndiv (x y : R) : option R := if Req_EM_T y 0 then None else Some (x / y).
Definition nbin (f : R -> R -> R) (a b : option R) : option R :=
  match a, b with Some x, Some y => Some (f x y) | _, _ => None end.
Definition nsum (l : list (option R)) : option R := fold_right (nbin Rplus) (Some 0) l.
Definition ndot (a b : list (option R)) : option R := nsum (map (fun e => nbin Rmult (fst e) (snd e)) (combine a b)).
Definition unit_vec (v : list R) : list (option R) :=
  let n := norm v in map (fun x => ndiv x (if Req_EM_T n 0 then 1 else n)) v.
(** Lines 424-429; o is the number of QoIs of the Jacobians, an index beyond it
    raises IndexError; a comparison with nan is False. *)
Definition too_similar (jac : list (list (list R))) (o : nat) (tol : R) (i j : nat) : result bool :=
  if (o <=? i)%nat || (o <=? j)%nat then Raise PyIndexError
  else
    match nsum (map (fun m => ndot (unit_vec (nth i m [])) (unit_vec (nth j m []))) jac) with
    | Some p => Ok (is_true_R (Rlt_dec tol (Rabs (p / INR (length jac)))))
    | None => Ok false
    end.
(** The whole function.  [ord] lists a Python set (lines 411 and 433). *)
Definition find_unique_vecs (ord : list nat -> list nat) (jac : option (list (list (list R)))) (o : nat) (tol : R)
  (qois : option (list nat)) (remove_zeros : bool) : result (list nat) :=
  match jac with
  | None => Raise PyValueError
  | Some jac =>
      let qois := match qois with Some q => q | None => seq 0 o end in
      let indz := if remove_zeros then filter (zero_somewhere jac) (seq 0 o) else [] in
      let qs := ord (set_diff qois indz) in
      do repeats <- pair_loop (too_similar jac o tol) (pairs qs) [] ;
      Ok (ord (set_diff qs repeats))
  end.
