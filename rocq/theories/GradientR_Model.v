(** bet/sensitivity/gradients.py: radial basis functions and the gradients
    computed with them, and bet/sampling/LpGeneralizedSamples.py, over the real
    numbers. *)
From Coq Require Import List Reals.
From Verif Require Import NumPy.
Import ListNotations.
Local Open Scope R_scope.

(** The kernel names of gradients.py:241-250.  Simplification: an unknown name
    raises ValueError in the code and is not in this type; the code compares
    names with "is", which is taken to be equality. *)
Inductive kernel := C4Matern | Gaussian | Multiquadric | InverseMultiquadric.

(** gradients.py:219-252 radial_basis_function at one distance; ep None is 1,
    kernel None is C4Matern.  x**0.5 is sqrt x. *)
Definition the_ep (ep : option R) : R := match ep with Some e => e | None => 1 end.
Definition radial_basis_function (r : R) (k : option kernel) (ep : option R) : R :=
  let e := the_ep ep in
  match k with
  | None | Some C4Matern => (1 + (e * r) + (e * r)² / 3) * exp (- e * r)
  | Some Gaussian => exp (- (e * r)²)
  | Some Multiquadric => sqrt (1 + (e * r)²)
  | Some InverseMultiquadric => 1 / sqrt (1 + (e * r)²)
  end.

(** gradients.py:255-290 radial_basis_function_dxi; x**1.5 is x * sqrt x. *)
Definition radial_basis_function_dxi (r xi : R) (k : option kernel) (ep : option R) : R :=
  let e := the_ep ep in
  match k with
  | None | Some C4Matern => - (e² * xi * exp (- e * r) * (e * r + 1)) / 3
  | Some Gaussian => - 2 * e² * xi * exp (- (e * r)²)
  | Some Multiquadric => (e² * xi) / sqrt (1 + (e * r)²)
  | Some InverseMultiquadric => - (e² * xi) / ((1 + (e * r)²) * sqrt (1 + (e * r)²))
  end.

Definition rsum (l : list R) : R := fold_right Rplus 0 l.
(** scipy's Euclidean distance *)
Definition dist (x y : list R) : R := sqrt (rsum (map (fun p => (fst p - snd p)²) (combine x y))).
Definition rdot (a b : list R) : R := rsum (map (fun p => fst p * snd p) (combine a b)).
Definition mat_vec (m : list (list R)) (w : list R) : list R := map (fun row => rdot row w) m.

(** gradients.py:352: radial_basis_function(distMat, RBF), called without ep *)
Definition rbf_matrix (k : kernel) (pts : list (list R)) : list (list R) :=
  map (fun p => map (fun q => radial_basis_function (dist p q) (Some k) None) pts) pts.
(** gradients.py:353: the derivatives in coordinate i at the center c, with ep *)
Definition rbf_rhs (k : kernel) (ep : option R) (c : list R) (pts : list (list R)) (i : nat) : list R :=
  map (fun q => radial_basis_function_dxi (dist c q) (nth i c 0 - nth i q 0) (Some k) (Some (the_ep ep))) pts.

(** gradients.py:293-370 calculate_gradients_rbf without normalization: entry
    [c,a,i] of the gradient tensor.  [nearest] is the answer of the
    nearest-neighbour query (341); RBF None is Gaussian (321).  [solve] is
    numpy.linalg.solve, None if it raises; None is also the result of an index
    out of range.  The weights are written into a zero row of length
    num_model_samples (357) that is multiplied with the data column (360). *)
Definition rbf_entry (solve : list (list R) -> list R -> option (list R))
  (kernel_arg : option kernel) (ep : option R) (samples data : list (list R))
  (nearest : list nat) (c : list R) (i a : nat) : option R :=
  let k := match kernel_arg with Some k => k | None => Gaussian end in
  match take_idx samples nearest with
  | None => None
  | Some pts =>
      match solve (rbf_matrix k pts) (rbf_rhs k ep c pts i) with
      | None => None
      | Some w =>
          match scatter (repeat 0 (length samples)) nearest w with
          | None => None
          | Some col => Some (rdot col (map (fun row => nth a row 0) data))
          end
      end
  end.

(** x**p for x >= 0 *)
Definition rpow (x p : R) : R := if Req_EM_T x 0 then 0 else Rpower x p.

(** LpGeneralizedSamples.py:59-71 Lp_generalized_uniform for one sample and
    finite p.  z is the draw of Lp_generalized_normal, r the draw of the beta
    distribution; scale is one number per coordinate (a number is broadcast). *)
Definition lp_uniform (p : R) (z : list R) (r : R) (scale loc : list R) : list R :=
  let n := rpow (rsum (map (fun x => rpow (Rabs x) p) z)) (1 / p) in
  map (fun e => fst (fst e) / n * r * snd (fst e) + snd e) (combine (combine z scale) loc).
(** LpGeneralizedSamples.py:72-75, p = inf; u is the draw of random() *)
Definition linf_uniform (u scale loc : list R) : list R :=
  map (fun e => (fst (fst e) - 1 / 2) * 2 * snd (fst e) + snd e) (combine (combine u scale) loc).
(** LpGeneralizedSamples.py:79-111 Lp_generalized_beta: the radius is b**(1/p) *)
Definition lp_beta (p : R) (z : list R) (b : R) (scale loc : list R) : list R :=
  lp_uniform p z (rpow b (1 / p)) scale loc.
