(** bet/calculateP/calculateR.py on discretizations: kernel density estimates are
    made of the samples that the sets hold, and the result is stored in the input
    set, from which the density is evaluated.  Inverse_Model has the same loops
    for given ratios. *)
From Coq Require Import ZArith List Arith Bool QArith Qcanon.
From Verif Require Import Err Num Ext NumPy SampleSet_Model Disc_Model Inverse_Model.
Import ListNotations.
Local Open Scope nat_scope.
Local Open Scope err_scope.

(** The measure stored by set_prob_type("kde") and set_prob_parameters: for every
    coordinate and cluster an estimate or None, and the weights of the clusters. *)
Record measure := mk_measure { marginals : list (list (option (Qc -> Qc))); shares : list Qc }.
(** bet/sample.py:183-292: the arrays of a set, _cluster_maps, _weights_init,
    _weights and the updated measure. *)
Record rset := mk_rset { arrays : sset cell; maps : option (list (list cell)); weights_init : option (list Qc);
                         sample_weights : option (list xnum); updated : option measure }.
(** The three sets of a discretization that calculateR uses (three different
    objects; the other sets are only made global). *)
Record rdisc := mk_rdisc { r_in : rset; r_out : rset; r_obs : rset }.
Definition with_arrays (s : sset cell) (r : rset) : rset := mk_rset s (maps r) (weights_init r) (sample_weights r) (updated r).

(** discretization.local_to_global, sample.py:2819-2833: the observed set is left
    out. *)
Definition all_global (d : rdisc) : result rdisc :=
  do i <- local_to_global (arrays (r_in d)) ;
  do o <- local_to_global (arrays (r_out d)) ;
  Ok (mk_rdisc (with_arrays i (r_in d)) (with_arrays o (r_out d)) (r_obs d)).

(** Region labels are integers; the model rejects other entries. *)
Definition label_of (c : cell) : result Z :=
  match c with
  | Num q => if Pos.eqb (Qden (this q)) 1 then Ok (Qnum (this q)) else Raise PyValueError
  | Vec _ => Raise PyValueError
  end.
Fixpoint labels_of (l : list cell) : result (list Z) :=
  match l with [] => Ok [] | c :: r => do z <- label_of c ; do zs <- labels_of r ; Ok (z :: zs) end.
Definition label_cell (z : Z) : cell := Num (Q2Qc (inject_Z z)).
Definition zero_region (n : nat) : arr cell := mk_arr (repeat (label_cell 0) n) [].
(** calculateR.py:38-40 *)
Definition ensure_regions (P : nat) (d : rdisc) : result rdisc :=
  match glob (arrays (r_out d)) Region, glob (arrays (r_obs d)) Region with
  | Some _, Some _ => Ok d
  | _, _ =>
      do n <- check_num P (arrays (r_out d)) ;
      do m <- check_num P (arrays (r_obs d)) ;
      Ok (mk_rdisc (r_in d) (with_arrays (set_glob Region (Some (zero_region n)) (arrays (r_out d))) (r_out d))
                            (with_arrays (set_glob Region (Some (zero_region m)) (arrays (r_obs d))) (r_obs d)))
  end.
Definition region_of (r : rset) : result (list Z) := do a <- subscript (glob (arrays r) Region) ; labels_of (rows a).
Definition take {A} (l : list A) (ptr : list nat) : result (list A) :=
  match take_idx l ptr with Some r => Ok r | None => Raise PyIndexError end.

Section Estimates.
(** scipy.stats.gaussian_kde of the rows of an array, unweighted or with weights,
    and of one coordinate with weights; the bandwidth method is part of it. *)
Context (gkde : list cell -> option (list xnum) -> result (cell -> Qc)).
Context (gkde1 : list Qc -> list xnum -> result (Qc -> Qc)).

(** Lines 50-73 ([init]: weights_init of the predicted set) and 75-86 (without
    weights): the estimate of cluster i of a set, None if it has fewer than two
    samples; if there are cluster maps, the number of maps is tested instead. *)
Definition kde_weights (init : option (list Qc)) (ptr : list nat) : result (option (list xnum)) :=
  match init with None => Ok None | Some w => do ws <- take w ptr ; Ok (Some (map Fin ws)) end.
Definition cluster_kde (r : rset) (init : option (list Qc)) (regions : list Z) (i : nat) : result (option (cell -> Qc)) :=
  let ptr := pointer regions i in
  match maps r with
  | Some m =>
      if 1 <? length m then
        do ws <- kde_weights init ptr ;
        do v <- (match nth_error m i with Some v => Ok v | None => Raise PyIndexError end) ;
        do f <- gkde v ws ; Ok (Some f)
      else Ok None
  | None =>
      if 1 <? length ptr then
        do ws <- kde_weights init ptr ;
        do a <- subscript (glob (arrays r) Values) ;
        do v <- take (rows a) ptr ;
        do f <- gkde v ws ; Ok (Some f)
      else Ok None
  end.
Fixpoint kdes (out obs : rset) (regions oregions : list Z) (is : list nat) : result (list (option (cell -> Qc)) * list (option (cell -> Qc))) :=
  match is with
  | [] => Ok ([], [])
  | i :: r =>
      do p <- cluster_kde out (weights_init out) regions i ;
      do o <- cluster_kde obs None oregions i ;
      do rest <- kdes out obs regions oregions r ;
      Ok (p :: fst rest, o :: snd rest)
  end.
(** generate_output_kdes, lines 20-86; the result also contains the discretization
    afterwards and the labels of both sets. *)
Record generated := mk_gen { g_disc : rdisc; g_predict : list (option (cell -> Qc)); g_obs : list (option (cell -> Qc));
                             g_num : nat; g_regions : list Z; g_oregions : list Z }.
Definition generate_output_kdes (P : nat) (d : rdisc) : result generated :=
  do d1 <- all_global d ;
  do d2 <- ensure_regions P d1 ;
  do regions <- region_of (r_out d2) ;
  do oregions <- region_of (r_obs d2) ;
  do n <- num_clusters (maps (r_out d2)) regions ;
  do k <- kdes (r_out d2) (r_obs d2) regions oregions (seq 0 n) ;
  Ok (mk_gen d2 (fst k) (snd k) n regions oregions).

(** np.mean *)
Definition xmean (l : list xnum) : xnum :=
  match xsum l with Fin q => xdivq q (qn (length l)) | x => x end.
(** invert, lines 106-121; a missing estimate is called (TypeError), an array of
    another length than the selection is assigned (ValueError). *)
Record inverted := mk_inv { i_weights : list xnum; i_means : list (option xnum); i_ratios : list (option (list xnum)); i_ptrs : list (list nat) }.
Fixpoint invert_clusters (out : rset) (g : generated) (is : list nat) (st : inverted) : result inverted :=
  match is with
  | [] => Ok st
  | i :: rest =>
      let ptr := pointer (g_regions g) i in
      do vals <- (match maps out with
                  | None => do a <- subscript (glob (arrays out) Values) ; take (rows a) ptr
                  | Some m => match nth_error m i with Some v => Ok v | None => Raise PyIndexError end
                  end) ;
      if 0 <? length ptr then
        match nth_error (g_obs g) i, nth_error (g_predict g) i with
        | Some (Some o), Some (Some p) =>
            let r := map (fun v => xdivq (o v) (p v)) vals in
            match scatter (i_weights st) ptr r with
            | Some w => invert_clusters out g rest (mk_inv w (i_means st ++ [Some (xmean r)]) (i_ratios st ++ [Some r]) (i_ptrs st ++ [ptr]))
            | None => Raise PyValueError
            end
        | _, _ => Raise PyTypeError
        end
      else invert_clusters out g rest (mk_inv (i_weights st) (i_means st ++ [None]) (i_ratios st ++ [None]) (i_ptrs st ++ [ptr]))
  end.
(** Lines 100-123; set_weights, sample.py:475-481. *)
Definition set_weights (w : list xnum) (r : rset) : rset := mk_rset (arrays r) (maps r) (weights_init r) (Some w) (updated r).
Definition invert_disc (P : nat) (d : rdisc) : result (rdisc * inverted) :=
  do g <- generate_output_kdes P d ;
  let d1 := g_disc g in
  do num <- check_num P (arrays (r_out d1)) ;
  do inv <- invert_clusters (r_out d1) g (seq 0 (g_num g)) (mk_inv (repeat (Fin 0) num) [] [] []) ;
  Ok (mk_rdisc (set_weights (i_weights inv) (r_in d1)) (r_out d1) (r_obs d1), inv).

(** invert_to_kde, lines 126-167.  params[lam_ptr[j], i] *)
Definition coordinate (i : nat) (c : cell) : result Qc :=
  match c with
  | Vec l => match nth_error l i with Some (Num q) => Ok q | _ => Raise PyIndexError end
  | Num _ => Raise PyIndexError
  end.
Fixpoint coordinates (i : nat) (l : list cell) : result (list Qc) :=
  match l with [] => Ok [] | c :: r => do q <- coordinate i c ; do qs <- coordinates i r ; Ok (q :: qs) end.
Definition marginal_kde (params : option (arr cell)) (inv : inverted) (i j : nat) : result (option (Qc -> Qc)) :=
  match nth_error (i_ratios inv) j, nth_error (i_ptrs inv) j with
  | Some (Some r), Some ptr =>
      do a <- subscript params ;
      do v <- take (rows a) ptr ;
      do x <- coordinates i v ;
      do f <- gkde1 x r ; Ok (Some f)
  | Some None, Some _ => Ok None
  | _, _ => Raise PyIndexError
  end.
Fixpoint each {A B} (f : A -> result B) (l : list A) : result (list B) :=
  match l with [] => Ok [] | x :: r => do y <- f x ; do ys <- each f r ; Ok (y :: ys) end.
Definition set_updated (m : measure) (r : rset) : rset := mk_rset (arrays r) (maps r) (weights_init r) (sample_weights r) (Some m).
Definition invert_to_kde (P : nat) (d : rdisc) : result rdisc :=
  do g <- generate_output_kdes P d ;
  do inv <- invert_disc P (g_disc g) ;
  let d1 := fst inv in
  do num_obs <- check_num P (arrays (r_obs d1)) ;
  do oregions <- region_of (r_obs d1) ;
  if (num_obs =? 0) && (0 <? g_num g) then Raise PyZeroDivision
  else
    let ws := map (fun j => (qn (length (pointer oregions j)) / qn num_obs)%Qc) (seq 0 (g_num g)) in
    do ms <- each (fun i => each (marginal_kde (glob (arrays (r_in d1)) Values) (snd inv) i) (seq 0 (g_num g))) (seq 0 (dim (arrays (r_in d1)))) ;
    Ok (mk_rdisc (set_updated (mk_measure ms ws) (r_in d1)) (r_out d1) (r_obs d1)).
End Estimates.

(** evaluate_pdf_marginal and evaluate_pdf for "kde", sample.py:80-84, 129-135, at
    one point; a missing estimate is called (TypeError).  pdf first compares the
    number of coordinates with the dimension (lines 931-934). *)
Fixpoint add_clusters (row : list (option (Qc -> Qc))) (ws : list Qc) (x : Qc) (mar : Qc) : result Qc :=
  match ws with
  | [] => Ok mar
  | w :: ws' =>
      match row with
      | [] => Raise PyIndexError
      | None :: _ => Raise PyTypeError
      | Some f :: row' => add_clusters row' ws' x (mar + f x * w)%Qc
      end
  end.
Definition marginal_pdf (r : rset) (i : nat) (x : Qc) : result Qc :=
  match updated r with
  | None => Raise WrongInput
  | Some m => match nth_error (marginals m) i with
              | None => match shares m with [] => Ok 0%Qc | _ => Raise PyIndexError end
              | Some row => add_clusters row (shares m) x 0%Qc
              end
  end.
Fixpoint multiply (r : rset) (i : nat) (x : list Qc) (mar : Qc) : result Qc :=
  match x with [] => Ok mar | y :: x' => do q <- marginal_pdf r i y ; multiply r (S i) x' (mar * q)%Qc end.
Definition pdf (r : rset) (x : list Qc) : result Qc :=
  if length x =? dim (arrays r) then multiply r 0 x 1%Qc else Raise DimNotMatching.
