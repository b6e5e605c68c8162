(** From a model to the best sets of QoIs: the stencils and gradients of
    bet/sensitivity/gradients.py followed by the search of
    bet/sensitivity/chooseQoIs.py, as the examples run them one after another
    (examples/bet_features/optimal_experimental_design/linear/BET_linear_measure_binratio.py). *)
From Coq Require Import List Arith Bool QArith Qcanon Reals Qreals.
From Verif Require Import Err Num Ext Gradient_Model Sampling_Model Post_Model ChooseQoIs_Model UniqueVecs_Model.
Import ListNotations.
Local Open Scope nat_scope.
Local Open Scope err_scope.

(** gradients.py:125-216 and 389-536: forward or centred differences. *)
Inductive scheme := Forward | Central.
Definition pick_points (s : scheme) : nat -> option mat -> list Qc -> result mat :=
  match s with Forward => pick_ffd_points | Central => pick_cfd_points end.
Definition calculate_gradients (s : scheme) : Qc -> nat -> nat -> option mat -> option (list (list xnum)) -> bool -> result grad_out :=
  match s with Forward => calculate_gradients_ffd | Central => calculate_gradients_cfd end.

(** A Jacobian with finite entries only. *)
Fixpoint all_some {A} (l : list (option A)) : option (list A) :=
  match l with
  | [] => Some []
  | Some x :: r => option_map (cons x) (all_some r)
  | None :: _ => None
  end.
Definition fin_of (x : xnum) : option Qc := match x with Fin q => Some q | _ => None end.
Definition finite_jac (jac : list (list (list xnum))) : option (list mat) :=
  all_some (map (fun m => all_some (map (fun v => all_some (map fin_of v)) m)) jac).

(** np.delete(G, i, axis=1) at one center *)
Definition delete_row (i : nat) (m : mat) : mat := firstn i m ++ skipn (S i) m.
Definition to_R (m : mat) : list (list R) := map (map (fun q : Qc => Q2R q)) m.

Section Choose.
(** np.linalg.svd(G, compute_uv=False) and np.linalg.norm(G, axis=2) at one center
    for one row; argsort; the order in which Python lists a set. *)
Context (svals : mat -> list Qc) (norm2 : list Qc -> Qc) (srt : list xnum -> list nat) (ord : list nat -> list nat).

(** input_set._jacobians[:, qoi_set, :], chooseQoIs.py:47 and 97 *)
Definition select_rows (jac : list mat) (s : list nat) : result (list mat) := mapM (fun m => fancy m s) jac.

(** What the search sees of calculate_avg_measure (18-71): the average and the
    array of singular values, flat.  d is the input dimension, G.shape[2]. *)
Definition eval_measure (d : nat) (jac : list mat) (s : list nat) : result (xnum * list xnum) :=
  do G <- select_rows jac s ;
  do r <- calculate_avg_measure (Some (length s, d)) (map svals G) None ;
  Ok (fst r, map Fin (concat (snd r))).

(** 106-121: muG, muGi and normgi at one center. *)
Definition skew_data (m : mat) : Qc * list (Qc * Qc) :=
  (q_prod (svals m), map (fun i => (q_prod (svals (delete_row i m)), norm2 (nth i m []))) (seq 0 (length m))).
(** What the search sees of calculate_avg_skewness (74-147): the average and skewgi. *)
Definition eval_skewness (d : nat) (jac : list mat) (s : list nat) : result (xnum * list xnum) :=
  do G <- select_rows jac s ;
  let cs := map skew_data G in
  do h <- calculate_avg_skewness (Some (length s, d)) cs ;
  Ok (h, concat (map (fun c => map (fun e => skew_entry (fst c) (fst e) (snd e)) (snd c)) cs)).

(** chooseOptQoIs (196-229) on an input set of dimension d whose Jacobians have o
    rows: the QoIs that find_unique_vecs keeps (266-267), then the search.
    Defaults of 258-263.  Simplification: a Jacobian that is not finite makes
    np.linalg.svd raise LinAlgError; the model raises ValueError at once. *)
Definition choose_qois (d o : nat) (jac : list (list (list xnum))) (P : nat) (qois : option (list nat)) (nq k : option nat)
  (tol : R) (measure remove_zeros : bool) : result (list (xnum * list nat)) :=
  match finite_jac jac with
  | None => Raise PyValueError
  | Some js =>
      let nq := match nq with Some n => n | None => d end in
      let k := match k with Some n => n | None => 10 end in
      do qs <- find_unique_vecs ord (Some (map to_R js)) o tol qois remove_zeros ;
      chooseOptQoIs (Fin 0%Qc) (if measure then eval_measure d js else eval_skewness d js) srt P k nq (length js * nq) qs
  end.

(** chooseOptQoIs_large (570-623) on the same input set; defaults of 662-671. *)
Definition choose_qois_large (d o : nat) (jac : list (list (list xnum))) (P : nat) (qois : option (list nat)) (max_qois k : option nat)
  (tol : option R) (measskew_tol : option xnum) (measure remove_zeros : bool) : result (list (list (xnum * list nat))) :=
  match finite_jac jac with
  | None => Raise PyValueError
  | Some js =>
      let nq := match max_qois with Some n => n | None => d end in
      let k := match k with Some n => n | None => 10 end in
      let tol := match tol with Some t => t | None => 1%R end in
      let mtol := match measskew_tol with Some t => t | None => PInf end in
      do qs <- find_unique_vecs ord (Some (map to_R js)) o tol qois remove_zeros ;
      chooseOptQoIs_large (Fin 0%Qc) (if measure then eval_measure d js else eval_skewness d js) srt ord P k (length js) nq mtol qs
  end.

(** The whole run: stencil points around the centers, the model at these points,
    the gradients, the search.  mf is the largest float (clean_data). *)
Definition run_sensitivity (s : scheme) (mf : Qc) (d o : nat) (centers : option mat) (radii : list Qc) (normalize : bool)
  (model : list Qc -> list xnum) (P : nat) (qois : option (list nat)) (nq k : option nat) (tol : R) (measure remove_zeros : bool)
  : result (list (xnum * list nat)) :=
  do pts <- pick_points s d centers radii ;
  do g <- calculate_gradients s mf d o (Some pts) (Some (map model pts)) normalize ;
  choose_qois d o (g_jac g) P qois nq k tol measure remove_zeros.
Definition run_sensitivity_large (s : scheme) (mf : Qc) (d o : nat) (centers : option mat) (radii : list Qc) (normalize : bool)
  (model : list Qc -> list xnum) (P : nat) (qois : option (list nat)) (max_qois k : option nat) (tol : option R) (measskew_tol : option xnum) (measure remove_zeros : bool)
  : result (list (list (xnum * list nat))) :=
  do pts <- pick_points s d centers radii ;
  do g <- calculate_gradients s mf d o (Some pts) (Some (map model pts)) normalize ;
  choose_qois_large d o (g_jac g) P qois max_qois k tol measskew_tol measure remove_zeros.
End Choose.
