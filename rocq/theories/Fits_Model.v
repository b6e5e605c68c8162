(** bet/calculateP/calculateR.py on discretizations: Gaussian mixtures, a single
    Gaussian and random variables fitted to the samples that the sets hold, and
    rejection sampling on P processes.  Inverse_Model has the same loops for given
    finite ratios. *)
From Coq Require Import ZArith List Arith Bool QArith Qcanon.
From Verif Require Import Err Num Ext NumPy SampleSet_Model Disc_Model Inverse_Model Density_Model.
Import ListNotations.
Local Open Scope nat_scope.
Local Open Scope err_scope.

(** x / y of numpy *)
Definition xdiv (x y : xnum) : xnum :=
  match x, y with
  | NaN, _ | _, NaN => NaN
  | Fin a, Fin b => xdivq a b
  | Fin _, _ => Fin 0
  | PInf, Fin b => if qltb b 0 then NInf else PInf
  | NInf, Fin b => if qltb b 0 then PInf else NInf
  | _, _ => NaN
  end.

(** x.shape[1] *)
Definition width (a : arr cell) : result nat := match tail_shape a with n :: _ => Ok n | [] => Raise PyIndexError end.
(** weighted_mean_and_cov, lines 225-237 and 283-295, on the columns of x.  There
    are as many weights as rows: both calls pass what was assigned to the rows. *)
Definition wmean (w : list xnum) (col : list Qc) : xnum := xdiv (xsum (map (fun e => xmul (Fin (fst e)) (snd e)) (combine col w))) (xsum w).
Definition deviation (m : xnum) (v : Qc) : xnum := xadd (Fin v) (xneg m).
Definition wcov (w : list xnum) (c : list Qc * xnum) (c' : list Qc * xnum) : xnum :=
  xdiv (xsum (map (fun e => xmul (snd e) (xmul (deviation (snd c) (fst (fst e))) (deviation (snd c') (snd (fst e))))) (combine (combine (fst c) (fst c')) w))) (xsum w).
Record normal := mk_normal { n_mean : list xnum; n_cov : list (list xnum) }.
Definition weighted_normal (cols : list (list Qc)) (w : list xnum) : normal :=
  let m := map (wmean w) cols in
  mk_normal m (map (fun c => map (wcov w c) (combine cols m)) (combine cols m)).
Definition columns (a : arr cell) (v : list cell) : result (list (list Qc)) := do n <- width a ; each (fun i => coordinates i v) (seq 0 n).

(** What set_prob_type("gmm") and set_prob_parameters store (lines 265-266 and
    318-319): the Gaussians, None for an empty cluster, and their weights.  The
    functions also return it; here it is the second component of the result. *)
Record gmm := mk_gmm { gaussians : list (option normal); gshares : list Qc }.

Section Estimates.
Context (gkde : list cell -> option (list xnum) -> result (cell -> Qc)).
(** Lines 239-246, 297-304 and 369-376: both calls of the loops, the number of
    observations and their labels. *)
Definition start (P : nat) (d : rdisc) : result (nat * rdisc * inverted * nat * list Z) :=
  do g <- generate_output_kdes gkde P d ;
  do inv <- invert_disc gkde P (g_disc g) ;
  do num_obs <- check_num P (arrays (r_obs (fst inv))) ;
  do oregions <- region_of (r_obs (fst inv)) ;
  Ok (g_num g, fst inv, snd inv, num_obs, oregions).
(** Lines 255, 311 and 382 *)
Definition cluster_share (oregions : list Z) (num_obs j : nat) : result Qc :=
  if num_obs =? 0 then Raise PyZeroDivision else Ok (qn (length (pointer oregions j)) / qn num_obs)%Qc.
(** invert_to_gmm, lines 212-268: one pass of the loop *)
Definition gmm_cluster (params : option (arr cell)) (inv : inverted) (oregions : list Z) (num_obs j : nat) : result (option normal * Qc) :=
  do c <- cluster_share oregions num_obs j ;
  match nth_error (i_ratios inv) j, nth_error (i_ptrs inv) j with
  | Some (Some r), Some ptr =>
      do a <- subscript params ;
      do v <- take (rows a) ptr ;
      do cols <- columns a v ;
      Ok (Some (weighted_normal cols r), c)
  | Some None, Some _ => Ok (None, c)
  | _, _ => Raise PyIndexError
  end.
Definition invert_to_gmm (P : nat) (d : rdisc) : result (rdisc * gmm) :=
  do s <- start P d ;
  let '(n, d1, inv, num_obs, oregions) := s in
  do cs <- each (gmm_cluster (glob (arrays (r_in d1)) Values) inv oregions num_obs) (seq 0 n) ;
  Ok (d1, mk_gmm (map fst cs) (map snd cs)).

(** total_weights, lines 306-312 and 377-383; None * float raises TypeError. *)
Fixpoint spread_weights (inv : inverted) (oregions : list Z) (num_obs : nat) (is : list nat) (tw : list xnum) : result (list xnum) :=
  match is with
  | [] => Ok tw
  | i :: rest =>
      do c <- cluster_share oregions num_obs i ;
      match nth_error (i_ratios inv) i, nth_error (i_ptrs inv) i with
      | Some (Some r), Some ptr =>
          match scatter tw ptr (map (fun x => xmul x (Fin c)) r) with
          | Some tw' => spread_weights inv oregions num_obs rest tw'
          | None => Raise PyValueError
          end
      | Some None, Some _ => Raise PyTypeError
      | _, _ => Raise PyIndexError
      end
  end.
Definition fit_weights (P : nat) (d : rdisc) : result (rdisc * list xnum) :=
  do s <- start P d ;
  let '(n, d1, inv, num_obs, oregions) := s in
  do num <- check_num P (arrays (r_in d1)) ;
  do tw <- spread_weights inv oregions num_obs (seq 0 n) (repeat (Fin 0) num) ;
  Ok (d1, tw).
(** invert_to_multivariate_gaussian, lines 271-323 *)
Definition invert_to_multivariate_gaussian (P : nat) (d : rdisc) : result (rdisc * gmm) :=
  do f <- fit_weights P d ;
  do a <- subscript (glob (arrays (r_in (fst f))) Values) ;
  do cols <- columns a (rows a) ;
  Ok (fst f, mk_gmm [Some (weighted_normal cols (snd f))] [1%Qc]).

(** invert_to_random_variable, lines 384-385: np.round(num_reweighted * total_weights
    / np.sum(total_weights)).astype(int) and np.repeat.  A number that is not finite
    becomes the smallest integer, and np.repeat rejects negative counts. *)
Definition copies_of (num : nat) (total w : xnum) : result nat :=
  match xdiv (xmul (Fin (qn num)) w) total with
  | Fin q => let z := round_half_even q in if (z <? 0)%Z then Raise PyValueError else Ok (Z.to_nat z)
  | _ => Raise PyValueError
  end.
Fixpoint np_repeat {A} (l : list A) (counts : list nat) : result (list A) :=
  match l, counts with
  | [], [] => Ok []
  | x :: l', n :: c' => do r <- np_repeat l' c' ; Ok (repeat x n ++ r)
  | _, _ => Raise PyValueError
  end.
(** The columns of reweighted_vals, which are passed to the fit methods (line 390). *)
Definition fit_data (num : nat) (P : nat) (d : rdisc) : result (rdisc * list (list Qc)) :=
  do f <- fit_weights P d ;
  do a <- subscript (glob (arrays (r_in (fst f))) Values) ;
  do counts <- each (copies_of num (xsum (snd f))) (snd f) ;
  do v <- np_repeat (rows a) counts ;
  do cols <- each (fun i => coordinates i v) (seq 0 (dim (arrays (r_in (fst f))))) ;
  Ok (fst f, cols).
End Estimates.

(** evaluate_pdf and evaluate_pdf_marginal for "gmm", sample.py:90-97 and 146-154.
    [density] is multivariate_normal.pdf(x, mean, cov), [density1] is norm.pdf(x,
    loc, scale) as a function of the variance.  A missing Gaussian has no
    coordinates (TypeError).  Simplification: multivariate_normal.pdf without mean
    and covariance is left to [density]. *)
Section Evaluate.
Context (density : option normal -> list Qc -> result Qc) (density1 : xnum -> xnum -> Qc -> result Qc).
Fixpoint gmm_terms (gs : list (option normal)) (ws : list Qc) (x : list Qc) (mar : Qc) : result Qc :=
  match ws, gs with
  | [], _ => Ok mar
  | w :: ws', g :: gs' => do y <- density g x ; gmm_terms gs' ws' x (mar + w * y)%Qc
  | _, [] => Raise PyIndexError
  end.
Definition gmm_pdf (di : nat) (m : gmm) (x : list Qc) : result Qc :=
  if length x =? di then gmm_terms (gaussians m) (gshares m) x 0%Qc else Raise DimNotMatching.
Definition at_ {A} (l : list A) (i : nat) : result A := match nth_error l i with Some x => Ok x | None => Raise PyIndexError end.
Fixpoint gmm_marginal_terms (gs : list (option normal)) (ws : list Qc) (i : nat) (x mar : Qc) : result Qc :=
  match ws, gs with
  | [], _ => Ok mar
  | w :: ws', Some g :: gs' =>
      do l <- at_ (n_mean g) i ; do r <- at_ (n_cov g) i ; do v <- at_ r i ;
      do y <- density1 l v x ; gmm_marginal_terms gs' ws' i x (mar + y * w)%Qc
  | _, None :: _ => Raise PyTypeError
  | _, [] => Raise PyIndexError
  end.
Definition gmm_marginal_pdf (m : gmm) (i : nat) (x : Qc) : result Qc := gmm_marginal_terms (gaussians m) (gshares m) i x 0%Qc.
End Evaluate.

(** ** invert_rejection_sampling, lines 170-209.  Every process runs the loop with
    its own uniform numbers: [draws rank i] are those of cluster i. *)
Section Rejection.
Context (gkde : list cell -> option (list xnum) -> result (cell -> Qc)).
(** np.max of numbers that may not be finite: nan if there is one. *)
Definition xmax (x y : xnum) : xnum := match x, y with NaN, _ | _, NaN => NaN | _, _ => if xleb x y then y else x end.
Definition xlist_max (l : list xnum) : result xnum := match l with [] => Raise PyValueError | x :: r => Ok (fold_left xmax r x) end.
(** Lines 190-193 *)
Definition keep_cluster (r : list xnum) (ptr : list nat) (check : list Qc) : result (list nat) :=
  do m <- xlist_max r ; Ok (chosen ptr (map (fun e => xleb (Fin (snd e)) (xdiv (fst e) m)) (combine r check))).
Fixpoint keep_clusters (inv : inverted) (draws : nat -> list Qc) (params : option (arr cell)) (is : list nat) : result (list (list cell)) :=
  match is with
  | [] => Ok []
  | i :: rest =>
      match nth_error (i_ratios inv) i, nth_error (i_ptrs inv) i with
      | Some (Some r), Some ptr =>
          do idx <- keep_cluster r ptr (draws i) ;
          do a <- subscript params ;
          do v <- take (rows a) idx ;
          do vs <- keep_clusters inv draws params rest ;
          Ok (v :: vs)
      | Some None, Some _ => Raise PyAttributeError
      | _, _ => Raise PyIndexError
      end
  end.
(** np.max and np.min of a column *)
Definition bounds_of (col : list Qc) : result (Qc * Qc) :=
  match col with [] => Raise PyValueError | _ => Ok (qlist_min col, qlist_max col) end.
(** Lines 195-207 on one process.  np.vstack of no arrays raises ValueError.  The
    probability 1/n is not defined for n = 0, but then np.max raises
    (dimension >= 1). *)
Definition resampled_set (dimension : nat) (parts : list (list cell)) (tail : list nat) : result (sset cell) :=
  match parts with
  | [] => Raise PyValueError
  | _ =>
      let vals := concat parts in
      let n := length vals in
      do s <- set_values (mk_arr vals tail) (new_sset dimension) ;
      do dom <- each (fun i => do c <- coordinates i vals ; bounds_of c) (seq 0 dimension) ;
      let s1 := set_glob Probabilities (Some (mk_arr (repeat (Num (1 / qn n)%Qc) n) [])) s in
      Ok (mk_sset dimension (glob s1) (loc s1) (local_index s1) (kd s1) (Some dom) (weights s1))
  end.
(** What process [rank] of P holds at the end: the global arrays it computed, and
    of these the part of np.array_split that belongs to it (global_to_local,
    sample.py:1325-1337). *)
Record held := mk_held { h_global : list cell; h_probs : list cell; h_domain : list (Qc * Qc); h_local : list cell; h_index : list nat }.
Definition hold (P rank : nat) (s : sset cell) : result held :=
  do s1 <- global_to_local P s ;
  match glob s1 Values, glob s1 Probabilities, loc s1 Values, local_index s1, domain s1 with
  | Some v, Some p, Some bs, Some ix, Some dom =>
      match nth_error bs rank, nth_error ix rank with
      | Some b, Some x => Ok (mk_held (rows v) (rows p) dom (rows b) x)
      | _, _ => Raise PyIndexError
      end
  | _, _, _, _, _ => Raise PyTypeError
  end.
Definition rejection_on (P rank n : nat) (d : rdisc) (inv : inverted) (draws : nat -> list Qc) : result held :=
  let params := glob (arrays (r_in d)) Values in
  do parts <- keep_clusters inv draws params (seq 0 n) ;
  do a <- subscript params ;
  do s <- resampled_set (dim (arrays (r_in d))) parts (tail_shape a) ;
  hold P rank s.
(** All processes; the discretization is made global once more (line 188). *)
Definition invert_rejection_sampling (P : nat) (draws : nat -> nat -> list Qc) (d : rdisc) : result (rdisc * list held) :=
  do g <- generate_output_kdes gkde P d ;
  do inv <- invert_disc gkde P (g_disc g) ;
  do s <- local_to_global (arrays (r_in (fst inv))) ;
  let d1 := mk_rdisc (with_arrays s (r_in (fst inv))) (r_out (fst inv)) (r_obs (fst inv)) in
  do hs <- each (fun rank => rejection_on P rank (g_num g) d1 (snd inv) (draws rank)) (seq 0 P) ;
  Ok (d1, hs).
End Rejection.
