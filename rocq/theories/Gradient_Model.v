(** bet/sensitivity/gradients.py: finite difference stencils and gradients. *)
From Coq Require Import List Arith Bool QArith Qcanon.
From Verif Require Import Num Err Ext NumPy Util_Model.
Import ListNotations.
Local Open Scope nat_scope.
Local Open Scope err_scope.

Definition mat := list (list Qc).

(** Row-wise sum of two arrays of the same shape. *)
Definition row_add (x y : list Qc) : list Qc := map (fun p => (fst p + snd p)%Qc) (combine x y).
Definition mat_add (a b : mat) : mat := map (fun p => row_add (fst p) (snd p)) (combine a b).

(** radii_vec as np.eye(d)*radii_vec uses it (gradients.py:157,197): an array of
    length d, or of length 1 which is broadcast.  Simplification: other lengths
    raise ValueError here; with d = 1 and one center the code accepts them. *)
Definition bcast_radii (d : nat) (r : list Qc) : result (list Qc) :=
  if length r =? d then Ok r
  else match r with [x] => Ok (repeat x d) | _ => Raise PyValueError end.

(** np.eye(d) * radii_vec *)
Definition eye_scaled (d : nat) (r : list Qc) : mat :=
  map (fun i => map (fun p => ((if i =? fst p then 1 else 0) * snd p)%Qc) (combine (seq 0 d) r)) (seq 0 d).
Definition mat_neg (m : mat) : mat := map (map Qcopp) m.

(** gradients.py:125-169 pick_ffd_points: the values of the returned set.
    [centers] is None if the set has no values.  The rows of centers have d
    entries (set_values checks it). *)
Definition pick_ffd_points (d : nat) (centers : option mat) (radii : list Qc) : result mat :=
  match centers with
  | None => Raise PyValueError
  | Some cs =>
      let samples := np_repeat cs d in
      do r <- bcast_radii d radii ;
      let translate := np_tile (eye_scaled d r) (length cs) in
      Ok (cs ++ mat_add samples translate)
  end.

(** gradients.py:172-216 pick_cfd_points *)
Definition pick_cfd_points (d : nat) (centers : option mat) (radii : list Qc) : result mat :=
  match centers with
  | None => Raise PyValueError
  | Some cs =>
      let samples := np_repeat cs (2 * d) in
      do r <- bcast_radii d radii ;
      let ident := eye_scaled d r in
      let translate := np_tile (ident ++ mat_neg ident) (length cs) in
      Ok (cs ++ mat_add samples translate)
  end.

(** What the gradient functions return (gradients.py:437-454): the values and
    jacobians of the new input set and the values of the new output set;
    [g_data] is the caller's output array after the call. *)
Record grad_out := mk_grad {
  g_in : mat;
  g_jac : list (list (list xnum));
  g_out : list (list xnum);
  g_data : list (list xnum) }.

(** x - y, and x / y on extended numbers *)
Definition xsub (x y : xnum) : xnum := xadd x (xneg y).
Definition xabs (x : xnum) : xnum :=
  match x with Fin a => Fin (qabs a) | PInf | NInf => PInf | NaN => NaN end.
Definition xdiv (x y : xnum) : xnum :=
  match x, y with
  | NaN, _ | _, NaN => NaN
  | Fin a, Fin b => xdivq a b
  | Fin _, _ => Fin 0%Qc
  | _, Fin b => if qleb 0%Qc b then x else xneg x
  | _, _ => NaN
  end.

(** (samples[nc:nc+d] - samples[0]).diagonal(), gradients.py:409-410, 487-488 *)
Definition cluster_radii (d nc : nat) (samples : mat) : result (list Qc) :=
  match samples with
  | [] => Raise PyIndexError
  | s0 :: _ =>
      let rowsd := firstn d (skipn nc samples) in
      Ok (map (fun k => (nth k (nth k rowsd []) 0 - nth k s0 0)%Qc)
              (seq 0 (Nat.min (length rowsd) d)))
  end.

(** np.tile(np.repeat(radii (d,1), o, axis=1), [nc,1]), gradients.py:416, 494 *)
Definition radii_mat (o nc : nat) (radii : list Qc) : mat :=
  np_tile (map (fun r => repeat r o) radii) nc.

(** np.reshape(gradient_mat.transpose(), [o,d,nc], order='F').transpose(2,0,1),
    gradients.py:424-425, 505-506.  Column-major order of the transposed matrix
    is row-major order of the matrix; entry [c,a,b] is at a + o*(b + d*c). *)
Definition reshape_grad (o d nc : nat) (m : list (list xnum)) : list (list (list xnum)) :=
  let flat := concat m in
  map (fun c => map (fun a => map (fun b => nth (a + o * (b + d * c)) flat NaN) (seq 0 d)) (seq 0 o)) (seq 0 nc).

(** gradients.py:427-436, 508-517: divide each gradient by its 1-norm, where a
    zero norm is replaced by one. *)
Definition normalize_row (v : list xnum) : list xnum :=
  let n := xsum (map xabs v) in
  let n' := if xeqb n (Fin 0%Qc) then Fin 1%Qc else n in
  map (fun x => xdiv x n') v.
Definition normalize_tensor (t : list (list (list xnum))) : list (list (list xnum)) :=
  map (map normalize_row) t.

(** (data1 - data2) * (w / radii) elementwise *)
Definition quot_row (w : Qc) (p : (list xnum * list xnum) * list Qc) : list xnum :=
  map (fun q => xmul (xsub (fst (fst q)) (snd (fst q))) (xdivq w (snd q)))
      (combine (combine (fst (fst p)) (snd (fst p))) (snd p)).

Section FD.
Variable maxfloat : Qc.

(** gradients.py:389-454 calculate_gradients_ffd.  d, o: dimensions of the two
    sets.  check_nums (405) raises for different numbers of samples.
    data = clean_data(data) (413) changes the caller's array in place.
    Simplification: a number of samples that is not a multiple of d+1 makes the
    subtraction (420) or the reshape (424) raise ValueError; the model raises
    at once (a single sample returns an empty tensor in the code). *)
Definition calculate_gradients_ffd (d o : nat) (samples : option mat) (data : option (list (list xnum)))
  (normalize : bool) : result grad_out :=
  match samples, data with
  | Some ss, Some dd =>
      let n := length ss in
      if negb (n =? length dd) then Raise LengthNotMatching else
      let nc := n / (d + 1) in
      do radii <- cluster_radii d nc ss ;
      let dat := map (clean_data maxfloat) dd in
      if negb (n =? nc * (d + 1)) then Raise PyValueError else
      let gm := map (quot_row 1%Qc)
        (combine (combine (skipn nc dat) (np_repeat (firstn nc dat) d)) (radii_mat o nc radii)) in
      let t := reshape_grad o d nc gm in
      let t' := if normalize then normalize_tensor t else t in
      Ok (mk_grad (firstn nc ss) t' (firstn nc dat) dat)
  | _, _ => Raise PyValueError
  end.

(** gradients.py:457-536 calculate_gradients_cfd.  data (491) is a view of the
    caller's rows from nc on: these are cleaned in place, and [data] names this
    view from there on. *)
Definition calculate_gradients_cfd (d o : nat) (samples : option mat) (data : option (list (list xnum)))
  (normalize : bool) : result grad_out :=
  match samples, data with
  | Some ss, Some dd =>
      let n := length ss in
      if negb (n =? length dd) then Raise LengthNotMatching else
      let nc := n / (2 * d + 1) in
      do radii <- cluster_radii d nc ss ;
      let dat := map (clean_data maxfloat) (skipn nc dd) in
      let inds := map (fun p => fst p + snd p)
        (combine (np_repeat (arange 0 (2 * d * nc) (2 * d)) d) (np_tile (arange 0 d 1) nc)) in
      match take_idx dat inds, take_idx dat (map (fun i => i + d) inds) with
      | Some up, Some dn =>
          let gm := map (quot_row (Q2Qc (1 # 2))) (combine (combine up dn) (radii_mat o nc radii)) in
          let t := reshape_grad o d nc gm in
          let t' := if normalize then normalize_tensor t else t in
          Ok (mk_grad (firstn nc ss) t' (firstn nc dat) (firstn nc dd ++ dat))
      | _, _ => Raise PyIndexError
      end
  | _, _ => Raise PyValueError
  end.
End FD.

(** ** sample_lp_ball, gradients.py:16-76 *)

(** lines 57-61: inside the box, bounds included *)
Definition inside (dom : list (Qc * Qc)) (x : list Qc) : bool :=
  forallb (fun p => qleb (fst (fst p)) (snd p) && qleb (snd p) (snd (fst p))) (combine dom x).

(** lines 48-70 for one center: [batches] are the successive answers of
    Lp_generalized_uniform (num_close points, then 10 times as many, ...); None:
    the loop is still running when they are used up. *)
Fixpoint fill_cluster (dom : option (list (Qc * Qc))) (num_close : nat) (batches : list mat) : option mat :=
  match batches with
  | [] => None
  | b :: rest =>
      match dom with
      | None => Some b
      | Some d =>
          let ok := filter (inside d) b in
          if num_close <=? length ok
          then Some (if num_close <? length ok then firstn num_close ok else ok)
          else fill_cluster dom num_close rest
      end
  end.

(** lines 46-71: the clusters are appended in the order of the centers *)
Fixpoint fill_clusters (dom : option (list (Qc * Qc))) (num_close : nat) (cs : mat) (draws : list (list mat)) : option mat :=
  match cs, draws with
  | [], _ => Some []
  | _ :: cr, bs :: dr =>
      match fill_cluster dom num_close bs, fill_clusters dom num_close cr dr with
      | Some c, Some r => Some (c ++ r)
      | _, _ => None
      end
  | _ :: _, [] => None
  end.

(** The values of the returned set.  For num_close = 0 the loop body never runs
    and new_cluster is unbound (line 69). *)
Definition sample_lp_ball (dom : option (list (Qc * Qc))) (num_close : nat) (centers : option mat)
  (draws : list (list mat)) : result (option mat) :=
  match centers with
  | None => Raise PyValueError
  | Some cs =>
      if (num_close =? 0) && negb (length cs =? 0) then Raise PyNameError
      else Ok (option_map (fun r => cs ++ r) (fill_clusters dom num_close cs draws))
  end.
