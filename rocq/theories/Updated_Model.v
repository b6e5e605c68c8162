(** Sampling from updated measures (bet/sampling/basicSampling.py:33-89) and
    evaluating their densities (bet/sample.py). *)
From Coq Require Import ZArith List Arith Bool QArith Qcanon.
From Verif Require Import Err Num Ext NumPy Layout_Model Inverse_Model.
Import ListNotations.
Local Open Scope nat_scope.
Local Open Scope err_scope.

(** ** sample_from_updated, basicSampling.py:33-89 *)
(** Number of samples a rank draws for each cluster. *)
Definition cluster_count (w : Qc) (n : nat) : nat := Z.to_nat (round_half_even (w * qn n)%Qc).
Definition local_counts (ws : list Qc) (n P rank : nat) : list nat :=
  map (fun w => Z.to_nat (draw_count (cluster_count w n) P rank)) ws.
Definition updated_count (ws : list Qc) (n P : nat) : nat :=
  list_sum (map (fun r => list_sum (local_counts ws n P r)) (seq 0 P)).
(** kde branch, lines 55-72: [draw i j k] are k numbers drawn from marginal j of
    cluster i.  The stacked array has one row per dimension; set_values_local
    transposes it (sample.py:1085-1088, util.py:205-209) unless the number of
    columns equals the dimension. *)
Definition kde_rows (dim : nat) (counts : list nat) (draw : nat -> nat -> nat -> list Qc) : list (list Qc) :=
  map (fun j => concat (map (fun ic => draw (fst ic) j (snd ic)) (combine (seq 0 (length counts)) counts))) (seq 0 dim).
Definition transpose_rows (n : nat) (rows : list (list Qc)) : list (list Qc) :=
  map (fun k => map (fun r => nth k r 0%Qc) rows) (seq 0 n).
Definition kde_values_local (dim : nat) (counts : list nat) (draw : nat -> nat -> nat -> list Qc) : list (list Qc) :=
  let rows := kde_rows dim counts draw in
  let n := list_sum counts in
  if n =? dim then rows else transpose_rows n rows.
(** gmm branch, lines 73-87, in one dimension: rvs returns a flat array for each
    cluster; np.vstack makes it one row per cluster, needs equal lengths, and
    the result is transposed unless it has one column; more than one column then
    raises dim_not_matching. *)
Definition gmm_values_local_1D (pieces : list (list Qc)) : result (list (list Qc)) :=
  match pieces with
  | [] => Raise PyValueError
  | p :: _ =>
      if forallb (fun q => length q =? length p) pieces then
        if length p =? 1 then Ok pieces
        else if length pieces =? 1 then Ok (transpose_rows (length p) pieces) else Raise DimNotMatching
      else Raise PyValueError
  end.

(** ** Densities, bet/sample.py *)
(** evaluate_pdf, lines 80-84 and 129-135, 'kde': [K i j x] is the marginal
    estimate of dimension i and cluster j. *)
Definition kde_marginal (K : nat -> nat -> Qc -> Qc) (ws : list Qc) (i : nat) (x : Qc) : Qc :=
  qsum (map (fun jw => (K i (fst jw) x * snd jw)%Qc) (combine (seq 0 (length ws)) ws)).
Definition kde_pdf (K : nat -> nat -> Qc -> Qc) (ws : list Qc) (x : list Qc) : Qc :=
  fold_left (fun mar ix => (mar * kde_marginal K ws (fst ix) (snd ix))%Qc) (combine (seq 0 (length x)) x) 1%Qc.
(** lines 90-97, 'gmm' *)
Definition gmm_pdf (N : nat -> list Qc -> Qc) (ws : list Qc) (x : list Qc) : Qc :=
  fold_left (fun mar jw => (mar + snd jw * N (fst jw) x)%Qc) (combine (seq 0 (length ws)) ws) 0%Qc.

(** evaluate_pdf_marginal, lines 121-158.  A flat array or an array with ncol
    columns; [f] is the density of marginal i, for 'voronoi' the gaussian_kde of
    column i of the samples, which is evaluated at vals.T: gaussian_kde raises
    ValueError if that has not exactly one row. *)
Inductive vals := V1 (l : list Qc) | V2 (ncol : nat) (rows : list (list Qc)).
Definition marginal_x (v : vals) (i : nat) : list Qc :=
  match v with
  | V1 l => l
  | V2 ncol rows => if ncol =? 1 then column 0 rows else column i rows
  end.
Inductive prob_type := KDE | RV | GMM | Voronoi.
Definition evaluate_pdf_marginal (t : prob_type) (f : nat -> Qc -> Qc) (v : vals) (i : nat) : result (list Qc) :=
  match t with
  | Voronoi => match v with
               | V1 l => Ok (map (f i) l)
               | V2 ncol rows => if ncol =? 1 then Ok (map (f i) (column 0 rows)) else Raise PyValueError
               end
  | _ => Ok (map (f i) (marginal_x v i))
  end.

(** set_densities(), lines 901-911: total_vol is the volume of the domain or 1. *)
Definition domain_volume (domain : option (list (Qc * Qc))) : Qc :=
  match domain with None => 1%Qc | Some d => qprod (map (fun ab => (snd ab - fst ab)%Qc) d) end.
Definition set_densities (domain : option (list (Qc * Qc))) (probs vols : list Qc) : list xnum :=
  map (fun pv => xdivq (fst pv) (snd pv * domain_volume domain)%Qc) (combine probs vols).
(** set_densities_local(), lines 1158-1173, and pdf, line 943. *)
Definition set_densities_local (probs vols : list Qc) : list xnum :=
  map (fun pv => xdivq (fst pv) (snd pv)) (combine probs vols).

(** pdf of a Voronoi set on one process, lines 936-945 (volumes present).  The
    object: global and local probabilities, local densities. *)
Record vset := mk_vset { v_probs : option (list Qc); v_probs_local : option (list Qc); v_vols_local : list Qc; v_dens_local : option (list xnum) }.
Definition vpdf (query : list Qc -> nat) (s : vset) (x : list Qc) : result (xnum * vset) :=
  match v_probs_local s, v_probs s with
  | None, None => Raise WrongInput
  | _, _ =>
    do d <- match v_dens_local s with
            | Some d => Ok d
            | None => match v_probs_local s with
                      | None => Raise PyTypeError
                      | Some p => Ok (set_densities_local p (v_vols_local s))
                      end
            end ;
    match nth_error d (query x) with
    | Some y => Ok (y, mk_vset (v_probs s) (v_probs_local s) (v_vols_local s) (Some d))
    | None => Raise PyIndexError
    end
  end.
(** set_probabilities_local *)
Definition set_probs_local (s : vset) (p : list Qc) : vset := mk_vset (v_probs s) (Some p) (v_vols_local s) (v_dens_local s).
