(** Histories of inversions (bet/calculateP/calculateR.py) on one discretization:
    each call replaces the weights and the updated measure of the input set, and
    leaves something behind also when it raises.  bet/sample.py:65-158 and 922-1002
    evaluate the stored measures, bet/sampling/basicSampling.py:33-89 samples from
    the updated one. *)
From Coq Require Import String ZArith List Arith Bool QArith Qcanon.
From Verif Require Import Err Num Ext NumPy SampleSet_Model Disc_Model Inverse_Model Density_Model Fits_Model.
From Verif Require RvSet_Model.
Import RvSet_Model(dict, entry, EName, EDict, EPair, EOther, rv_arg, RName, RSeq, ROther, fit_parameters, resolve).
Import ListNotations.
Local Open Scope nat_scope.
Local Open Scope err_scope.

(** _prob_type and _prob_parameters (or _prob_type_init and _prob_parameters_init):
    "kde", "gmm", "rv", "voronoi", anything else ("lhs" and "grid" of
    basicSampling.py:235 and 310).  None: both are None. *)
Inductive law := LKde (m : measure) | LGmm (g : gmm) | LRv (es : list entry) | LVoronoi | LOther.
(** The discretization, and the updated and initial measure of its input set.  The
    field [updated] of the input set, used by Density_Model, is ignored here. *)
Record mstate := mk_m { m_disc : rdisc; m_law : option law; m_law_init : option law }.

(** invert, invert_to_kde, invert_to_gmm, invert_to_multivariate_gaussian,
    invert_to_random_variable(rv, num_reweighted), invert_rejection_sampling (with
    the uniform numbers of every process and cluster) and
    set_output_observed_set with another object.  The bandwidth method is part of
    the estimates. *)
Inductive call := CInvert | CKde | CGmm | CGaussian | CRv (rv : rv_arg) (num : nat) | CReject (draws : nat -> nat -> list Qc) | CObserve (r : rset).

Section Calls.
Context (gkde : list cell -> option (list xnum) -> result (cell -> Qc)) (gkde1 : list Qc -> list xnum -> result (Qc -> Qc)).
(** getattr(scipy.stats, name).fit(column, **parameters) *)
Context (fit : string -> dict -> list Qc -> result (list Qc)).
Context (P : nat).

(** calculateR.py:358-366 *)
Definition rv_entries (di : nat) (rv : rv_arg) : result (list entry) :=
  match rv with
  | RName s => Ok (repeat (EPair s []) di)
  | RSeq l =>
      match l with
      | [EName s; EDict a] => Ok (repeat (EPair s a) di)
      | _ => if length l =? di then Ok l else Raise DimNotMatching
      end
  | ROther => Raise WrongInput
  end.
(** Lines 387-406, one dimension; the class of the exception for an entry that is
    not a pair is not modelled. *)
Definition fit_one (e : entry * list Qc) : result entry :=
  match fst e with
  | EPair s a => do A <- fit s a (snd e) ; do p <- fit_parameters A ; Ok (EPair s p)
  | _ => Raise PyTypeError
  end.
Definition fit_rv (es : list entry) (num : nat) (d : rdisc) : result (rdisc * option law) :=
  do r <- fit_data gkde num P d ; do fs <- each fit_one (combine es (snd r)) ; Ok (fst r, Some (LRv fs)).

(** What a call that returns leaves: the discretization and the measure that it
    stores, if it stores one. *)
Definition outcome (c : call) (d : rdisc) : result (rdisc * option law) :=
  match c with
  | CInvert => do r <- invert_disc gkde P d ; Ok (fst r, None)
  | CKde => do d' <- invert_to_kde gkde gkde1 P d ; Ok (d', option_map LKde (updated (r_in d')))
  | CGmm => do r <- invert_to_gmm gkde P d ; Ok (fst r, Some (LGmm (snd r)))
  | CGaussian => do r <- invert_to_multivariate_gaussian gkde P d ; Ok (fst r, Some (LGmm (snd r)))
  | CRv rv num => do es <- rv_entries (dim (arrays (r_in d))) rv ; fit_rv es num d
  | CReject draws => do r <- invert_rejection_sampling gkde P draws d ; Ok (fst r, None)
  | CObserve r => Ok (mk_rdisc (r_in d) (r_out d) r, None)
  end.
(** What a call that raises leaves: lines 36-40 have made the sets global and set
    missing labels (Simplification: if these lines raise, the model keeps the old
    sets); if invert returns, it has stored the weights (line 123), and everything
    that raises afterwards comes before the measure is stored.  Only a wrong rv is
    rejected before. *)
Definition left_behind (c : call) (d : rdisc) : rdisc :=
  let touched :=
    match (do d1 <- all_global d ; ensure_regions P d1) with
    | Raise _ => d
    | Ok d2 => match invert_disc gkde P d2 with Ok r => fst r | Raise _ => d2 end
    end in
  match c with
  | CRv rv _ => match rv_entries (dim (arrays (r_in d))) rv with Raise _ => d | Ok _ => touched end
  | CObserve _ => d
  | _ => touched
  end.
Definition step (c : call) (s : mstate) : mstate * option exn :=
  match outcome c (m_disc s) with
  | Ok (d, l) => (mk_m d (match l with Some _ => l | None => m_law s end) (m_law_init s), None)
  | Raise e => (mk_m (left_behind c (m_disc s)) (m_law s) (m_law_init s), Some e)
  end.
Fixpoint run (h : list call) (s : mstate) : mstate := match h with [] => s | c :: r => run r (fst (step c s)) end.
Fixpoint raised (h : list call) (s : mstate) : list (option exn) := match h with [] => [] | c :: r => snd (step c s) :: raised r (fst (step c s)) end.
End Calls.

(** ** Evaluation *)
Section Evaluate.
(** multivariate_normal.pdf, norm.pdf and getattr(scipy.stats, name).pdf(x,
    **parameters); [cells] evaluates the cells of a "voronoi" set (Updated_Model). *)
Context (density : option normal -> list Qc -> result Qc) (density1 : xnum -> xnum -> Qc -> result Qc).
Context (rvpdf : string -> dict -> Qc -> result Qc).
Context (cells : list Qc -> result Qc) (cells1 : nat -> Qc -> result Qc).
(** evaluate_pdf_marginal for "rv", sample.py:136-142 *)
Definition rv_marginal (es : list entry) (i : nat) (x : Qc) : result Qc :=
  match nth_error es i with None => Raise PyIndexError | Some (EPair s a) => rvpdf s a x | Some _ => Raise PyTypeError end.
Fixpoint rv_product (es : list entry) (i : nat) (x : list Qc) (mar : Qc) : result Qc :=
  match x with [] => Ok mar | y :: x' => do v <- rv_marginal es i y ; rv_product es (S i) x' (mar * v)%Qc end.
Definition holder (di : nat) (m : measure) : rset := mk_rset (new_sset di) None None None (Some m).
(** pdf and marginal_pdf at one point for the measure l of a set of dimension di *)
Definition law_pdf (di : nat) (l : option law) (x : list Qc) : result Qc :=
  if length x =? di then
    match l with
    | Some (LKde m) => multiply (holder di m) 0 x 1%Qc
    | Some (LGmm g) => gmm_terms density (gaussians g) (gshares g) x 0%Qc
    | Some (LRv es) => rv_product es 0 x 1%Qc
    | Some LVoronoi => cells x
    | _ => Raise WrongInput
    end
  else Raise DimNotMatching.
Definition law_marginal (di : nat) (l : option law) (i : nat) (x : Qc) : result Qc :=
  match l with
  | Some (LKde m) => marginal_pdf (holder di m) i x
  | Some (LGmm g) => gmm_marginal_pdf density1 g i x
  | Some (LRv es) => rv_marginal es i x
  | Some LVoronoi => cells1 i x
  | _ => Raise WrongInput
  end.
(** pdf_init and marginal_pdf_init *)
Definition law_pdf_init (di : nat) (l : option law) (x : list Qc) : result Qc :=
  if length x =? di then match l with Some LVoronoi => Raise WrongInput | _ => law_pdf di l x end else Raise DimNotMatching.
Definition law_marginal_init (di : nat) (l : option law) (i : nat) (x : Qc) : result Qc :=
  match l with Some LVoronoi => Raise WrongInput | _ => law_marginal di l i x end.
End Evaluate.

(** ** sample_from_updated, basicSampling.py:33-89: the new set's dimension, values
    and initial measure.  [draws] stands for drawing and stacking the values, which
    may raise (Updated_Model, RvSet_Model). *)
Record drawn := mk_drawn { w_dim : nat; w_blocks : list (list (list Qc)); w_init : option law }.
Section Draw.
Context (draws : law -> nat -> result (list (list (list Qc)))).
Definition sample_from_updated (s : mstate) (n : nat) : result drawn :=
  let di := dim (arrays (r_in (m_disc s))) in
  match m_law s with
  | Some (LRv es) => do es' <- resolve di None (RSeq es) ; do b <- draws (LRv es') n ; Ok (mk_drawn di b (Some (LRv es')))
  | Some (LKde m) => do b <- draws (LKde m) n ; Ok (mk_drawn di b (Some (LKde m)))
  | Some (LGmm g) => do b <- draws (LGmm g) n ; Ok (mk_drawn di b (Some (LGmm g)))
  | _ => Raise BadObject
  end.
End Draw.
