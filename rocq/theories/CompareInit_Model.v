(** Construction of comparisons and evaluation of densities
    (bet/postProcess/compareP.py:21-65, 67-97, 115-133). *)
From Coq Require Import List Arith Bool QArith Qcanon.
From Verif Require Import Err Num Ext.
Import ListNotations.
Local Open Scope nat_scope.
Local Open Scope err_scope.

Definition points := list (list Qc).
(** A set of samples: whether it is an instance of sample_set (voronoi_sample_set,
    rectangle_sample_set and ball_sample_set are not, sample.py:161, 1387, 1829-2190),
    its dimension, its values once made global, and the methods pdf and pdf_init,
    which are not modelled here and may raise. *)
Record mset := mk_mset { is_sample_set : bool; mdim : nat; mvals : option points;
                         mpdf : points -> result (list xnum); mpdf_init : points -> result (list xnum) }.
(** An argument of compare: a set, a discretization with its input and output sets,
    or something else. *)
Inductive cobj := CSet (s : mset) | CDisc (inp : mset) (out : option mset) | COther.
(** Lines 48-58 *)
Definition extract (inputs : bool) (o : cobj) : option mset :=
  match o with
  | CSet s => Some s
  | CDisc i out => if inputs then Some i else out
  | COther => None
  end.
Record comparison := mk_comparison { set1 : mset; set2 : mset; init1 : bool; init2 : bool;
                                     cvals : option points; cpdfs : option (list xnum * list xnum); czero : option nat }.
(** Lines 39-65 *)
Definition compare_new (a b : cobj) (inputs i1 i2 : bool) : result comparison :=
  match extract inputs a, extract inputs b with
  | Some s, Some t =>
      if is_sample_set s && is_sample_set t then
        if Nat.eqb (mdim s) (mdim t) then Ok (mk_comparison s t i1 i2 None None None) else Raise DimNotMatching
      else Raise WrongInput
  | _, _ => Raise WrongInput
  end.
(** set_compare_set, lines 86-115: a set, an array with one or two axes, a number of
    points ([draw n]: the points drawn, see Compare_Model.compare_ranges for their
    range), or something else (a discretization, a NumPy integer, ...). *)
Inductive carg := ArgSet (s : mset) | ArgFlat (l : list Qc) | ArgArr (ncol : nat) (rows : points) | ArgInt (n : nat) | ArgOther.
Definition set_compare_set (draw : nat -> result points) (a : carg) (c : comparison) : result comparison :=
  let put v := mk_comparison (set1 c) (set2 c) (init1 c) (init2 c) v (cpdfs c) (czero c) in
  match a with
  | ArgSet s => if is_sample_set s then if Nat.eqb (mdim s) (mdim (set1 c)) then Ok (put (mvals s)) else Raise DimNotMatching else Raise WrongInput
  | ArgFlat _ => Raise PyIndexError
  | ArgArr ncol rows => if Nat.eqb ncol (mdim (set1 c)) then Ok (put (Some rows)) else Raise DimNotMatching
  | ArgInt n => do p <- draw n ; Ok (put (Some p))
  | ArgOther => Raise WrongInput
  end.
(** evaluate_pdfs, lines 122-135; np.logical_and of arrays of different lengths
    raises ValueError (the methods return one number per point).  Without points
    the methods raise AttributeError (None has no shape). *)
Definition zero (x : xnum) : bool := xeqb x (Fin 0).
Definition evaluate_pdfs (c : comparison) : result comparison :=
  match cvals c with
  | None => Raise PyAttributeError
  | Some v =>
      do p <- (if init1 c then mpdf_init (set1 c) v else mpdf (set1 c) v) ;
      do q <- (if init2 c then mpdf_init (set2 c) v else mpdf (set2 c) v) ;
      if Nat.eqb (length p) (length q)
      then Ok (mk_comparison (set1 c) (set2 c) (init1 c) (init2 c) (Some v) (Some (p, q))
                 (Some (length (filter (fun e => zero (fst e) && zero (snd e)) (combine p q)))))
      else Raise PyValueError
  end.
(** The arrays distance starts from, lines 155-159. *)
Definition densities_of (c : comparison) : result comparison :=
  match cvals c with
  | None => Raise WrongInput
  | Some _ => match cpdfs c with Some _ => Ok c | None => evaluate_pdfs c end
  end.
