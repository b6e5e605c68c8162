(** bet/postProcess/postTools.py and the histograms of bet/postProcess/plotP.py. *)
From Coq Require Import List Arith Bool QArith Qcanon.
From Verif Require Import Err Num Ext NumPy Sampling_Model.
Import ListNotations.
Local Open Scope nat_scope.
Local Open Scope err_scope.

(** ** sort_by_rho, postTools.py:23-84 *)
(** Lines 59-63: what is sorted. *)
Definition rho (P : list Qc) (vol : option (list Qc)) : list xnum :=
  match vol with
  | None => map Fin P
  | Some v => map (fun e => xdivq (fst e) (snd e)) (combine P v)
  end.
Definition nnz (P : list Qc) : nat := length (filter (fun p => qltb 0 p) P).
Definition fancy {A} (l : list A) (idx : list nat) : result (list A) := match take_idx l idx with Some r => Ok r | None => Raise PyIndexError end.
(** A sample set (or discretization): values, probabilities, volumes, output
    values. *)
Record pset (X Y : Type) := mk_p { p_values : list X; p_prob : list Qc; p_vol : option (list Qc); p_data : option (list Y) }.
Arguments mk_p {X Y}. Arguments p_values {X Y}. Arguments p_prob {X Y}. Arguments p_vol {X Y}. Arguments p_data {X Y}.
Definition fancy_opt {A} (l : option (list A)) (idx : list nat) : result (option (list A)) :=
  match l with None => Ok None | Some l => do r <- fancy l idx ; Ok (Some r) end.
(** [perm] is the result of np.argsort on [rho]. *)
Definition sort_by_rho {X Y} (perm : list nat) (s : pset X Y) : result (pset X Y * list nat) :=
  let indices := firstn (nnz (p_prob s)) (rev perm) in
  do P <- fancy (p_prob s) indices ; do x <- fancy (p_values s) indices ;
  do v <- fancy_opt (p_vol s) indices ; do d <- fancy_opt (p_data s) indices ;
  Ok (mk_p x P v d, indices).

(** ** sample_prob, postTools.py:87-185 *)
Fixpoint cumsum (acc : Qc) (l : list Qc) : list Qc :=
  match l with [] => [] | x :: r => (acc + x)%Qc :: cumsum (acc + x)%Qc r end.
Definition reverse_pset {X Y} (s : pset X Y) : pset X Y :=
  mk_p (rev (p_values s)) (rev (p_prob s)) (option_map (@rev _) (p_vol s)) (option_map (@rev _) (p_data s)).
Definition head_pset {X Y} (n : nat) (s : pset X Y) : pset X Y :=
  mk_p (firstn n (p_values s)) (firstn n (p_prob s)) (option_map (firstn n) (p_vol s)) (option_map (firstn n) (p_data s)).
(** Without sort the variable indices is never assigned. *)
Definition sample_prob {X Y} (perm : list nat) (percentile : Qc) (s : pset X Y) (sort descending : bool) : result (nat * pset X Y * list nat) :=
  do si <- (if sort then do r <- sort_by_rho perm s ; Ok (fst r, Some (snd r)) else Ok (s, None)) ;
  do si <- (if descending then match snd si with None => Raise PyNameError | Some i => Ok (reverse_pset (fst si), Some (rev i)) end else Ok si) ;
  let num := length (filter (fun c => qltb 0 c && qleb c percentile) (cumsum 0 (p_prob (fst si)))) in
  match snd si with
  | None => Raise PyNameError
  | Some indices => Ok (num, head_pset num (fst si), firstn num indices)
  end.
(** Lines 188-213 and 216-242 *)
Definition sample_highest_prob {X Y} perm p (s : pset X Y) sort := sample_prob perm p s sort false.
Definition sample_lowest_prob {X Y} perm p (s : pset X Y) sort := sample_prob perm p s sort true.

(** ** Marginal histograms, plotP.py:80-103 and 147-171 *)
(** numpy.histogram with edges: bin k is half open, the last bin is closed. *)
Definition in_bin (edges : list Qc) (k : nat) (v : Qc) : bool :=
  let lo := nth k edges 0%Qc in let hi := nth (k + 1) edges 0%Qc in
  qleb lo v && (if k + 2 =? length edges then qleb v hi else qltb v hi).
Definition histogram (edges : list Qc) (vw : list (Qc * Qc)) : list Qc :=
  map (fun k => qsum (map snd (filter (fun e => in_bin edges k (fst e)) vw))) (seq 0 (length edges - 1)).
Definition histogram2 (e1 e2 : list Qc) (vw : list ((Qc * Qc) * Qc)) : list (list Qc) :=
  map (fun k => map (fun l => qsum (map snd (filter (fun e => in_bin e1 k (fst (fst e)) && in_bin e2 l (snd (fst e))) vw))) (seq 0 (length e2 - 1))) (seq 0 (length e1 - 1)).
Definition vec_add (a b : list Qc) : list Qc := map (fun e => (fst e + snd e)%Qc) (combine a b).
(** comm.Allreduce(SUM) of one array per rank *)
Definition allreduce (zero : list Qc) (l : list (list Qc)) : list Qc := fold_right vec_add zero l.
Definition allreduce2 (zero : list (list Qc)) (l : list (list (list Qc))) : list (list Qc) :=
  fold_right (fun a b => map (fun e => vec_add (fst e) (snd e)) (combine a b)) zero l.
(** [blocks]: samples with probabilities of every rank; dimension i. *)
Definition marginal_1D (domain : list (Qc * Qc)) (nbins : list nat) (blocks : list (list (list Qc * Qc))) (i : nat) : list Qc :=
  let d := nth i domain (0%Qc, 0%Qc) in let n := nth i nbins 0 in
  allreduce (repeat 0%Qc n) (map (fun b => histogram (linspace (fst d) (snd d) (n + 1)) (map (fun e => (nth i (fst e) 0%Qc, snd e)) b)) blocks).
Definition marginal_2D (domain : list (Qc * Qc)) (nbins : list nat) (blocks : list (list (list Qc * Qc))) (i j : nat) : list (list Qc) :=
  let d := nth i domain (0%Qc, 0%Qc) in let n := nth i nbins 0 in
  let d' := nth j domain (0%Qc, 0%Qc) in let n' := nth j nbins 0 in
  allreduce2 (repeat (repeat 0%Qc n') n)
    (map (fun b => histogram2 (linspace (fst d) (snd d) (n + 1)) (linspace (fst d') (snd d') (n' + 1)) (map (fun e => ((nth i (fst e) 0%Qc, nth j (fst e) 0%Qc), snd e)) b)) blocks).
