(** class discretization (bet/sample.py:2224-2850) and the two calculations that
    read its pointers (bet/calculateP/calculateP.py:21-106), on P processes.

    Simplifications: a sample set is a value, not a shared reference (the code
    passes references around, so two discretizations may share a set, and one
    set may be stored in two places; Refs_Model has the references, and
    Refs_Props says when they make no difference); all sets are Voronoi sets; [nn] is the
    nearest-neighbour answer of scipy's KDTree. *)
From Coq Require Import List Arith Bool QArith Qcanon.
From Verif Require Import Err Num NumPy SampleSet_Model Prob_Model.
Import ListNotations.
Local Open Scope nat_scope.
Local Open Scope err_scope.

(** lines 2240-2301: the fields.  A global pointer is one array, a local one is
    a block per rank. *)
Record disc (R : Type) := mk_disc {
  d_in : option (sset R); d_out : option (sset R); d_prob : option (sset R);
  d_ein : option (sset R); d_eout : option (sset R); d_obs : option (sset R);
  io : option (list nat); ii : option (list nat); oo : option (list nat);
  io_loc : option (list (list nat)); ii_loc : option (list (list nat)); oo_loc : option (list (list nat)) }.
Arguments mk_disc {R}. Arguments d_in {R}. Arguments d_out {R}. Arguments d_prob {R}.
Arguments d_ein {R}. Arguments d_eout {R}. Arguments d_obs {R}.
Arguments io {R}. Arguments ii {R}. Arguments oo {R}.
Arguments io_loc {R}. Arguments ii_loc {R}. Arguments oo_loc {R}.

Section Disc.
Context {R : Type}.
Implicit Types (s t : sset R) (d e : disc R).

Definition with_in x d := mk_disc x (d_out d) (d_prob d) (d_ein d) (d_eout d) (d_obs d) (io d) (ii d) (oo d) (io_loc d) (ii_loc d) (oo_loc d).
Definition with_out x d := mk_disc (d_in d) x (d_prob d) (d_ein d) (d_eout d) (d_obs d) (io d) (ii d) (oo d) (io_loc d) (ii_loc d) (oo_loc d).
Definition with_prob x d := mk_disc (d_in d) (d_out d) x (d_ein d) (d_eout d) (d_obs d) (io d) (ii d) (oo d) (io_loc d) (ii_loc d) (oo_loc d).
Definition with_ein x d := mk_disc (d_in d) (d_out d) (d_prob d) x (d_eout d) (d_obs d) (io d) (ii d) (oo d) (io_loc d) (ii_loc d) (oo_loc d).
Definition with_eout x d := mk_disc (d_in d) (d_out d) (d_prob d) (d_ein d) x (d_obs d) (io d) (ii d) (oo d) (io_loc d) (ii_loc d) (oo_loc d).
Definition with_obs x d := mk_disc (d_in d) (d_out d) (d_prob d) (d_ein d) (d_eout d) x (io d) (ii d) (oo d) (io_loc d) (ii_loc d) (oo_loc d).
Definition with_io g l d := mk_disc (d_in d) (d_out d) (d_prob d) (d_ein d) (d_eout d) (d_obs d) g (ii d) (oo d) l (ii_loc d) (oo_loc d).
Definition with_ii g l d := mk_disc (d_in d) (d_out d) (d_prob d) (d_ein d) (d_eout d) (d_obs d) (io d) g (oo d) (io_loc d) l (oo_loc d).
Definition with_oo g l d := mk_disc (d_in d) (d_out d) (d_prob d) (d_ein d) (d_eout d) (d_obs d) (io d) (ii d) g (io_loc d) (ii_loc d) l.

(** Attribute access on None *)
Definition need {A} (o : option A) : result A := match o with Some x => Ok x | None => Raise PyAttributeError end.

(** lines 2343-2360 check_nums *)
Definition check_nums (P : nat) d : result nat :=
  do out <- need (d_out d) ;
  do out_num <- check_num P out ;
  do inp <- need (d_in d) ;
  do in_num <- check_num P inp ;
  match glob out Values, glob inp Values with
  | Some _, Some _ => if out_num =? in_num then Ok in_num else Raise LengthNotMatching
  | _, _ => Ok in_num
  end.

(** lines 2251-2303 __init__ *)
Definition new_disc (P : nat) (inp out pr ein eout obs : option (sset R)) : result (disc R) :=
  let d := mk_disc inp out pr ein eout obs None None None None None None in
  match out with
  | Some _ => do _ <- check_nums P d ; Ok d
  | None => Ok d
  end.

(** ** Pointers *)

(** lines 1395-1412 query for one block of points per rank.  KDTree.query
    rejects points of another dimension. *)
Definition query_blocks (nn : list R -> R -> nat) (P : nat) (xs : list (arr R)) s : result (list (list nat) * sset R) :=
  do s1 <- (match kd s with
            | None => set_kdtree s
            | Some _ => do _ <- check_num P s ; Ok s
            end) ;
  do t <- need (kd s1) ;
  if forallb (fun b => if shape_eq_dec (tail_shape b) (tail_shape t) then true else false) xs
  then Ok (map (fun b => map (nn (rows t)) (rows b)) xs, s1)
  else Raise PyValueError.

(** lines 2378-2394 set_io_ptr; [g] is globalize *)
Definition set_io_ptr (nn : list R -> R -> nat) (P : nat) (g : bool) d : result (disc R) :=
  do out <- need (d_out d) ;
  do out1 <- localized P out ;
  do pr <- need (d_prob d) ;
  do xs <- loc_values out1 ;
  do q <- query_blocks nn P xs pr ;
  Ok (with_io (if g then Some (concat (fst q)) else io d) (Some (fst q))
        (with_prob (Some (snd q)) (with_out (Some out1) d))).
(** lines 2411-2432 set_emulated_ii_ptr *)
Definition set_ii_ptr (nn : list R -> R -> nat) (P : nat) (g : bool) d : result (disc R) :=
  do em <- need (d_ein d) ;
  do em1 <- localized P em ;
  do inp <- need (d_in d) ;
  do xs <- loc_values em1 ;
  do q <- query_blocks nn P xs inp ;
  Ok (with_ii (if g then Some (concat (fst q)) else ii d) (Some (fst q))
        (with_in (Some (snd q)) (with_ein (Some em1) d))).
(** lines 2450-2475 set_emulated_oo_ptr *)
Definition set_oo_ptr (nn : list R -> R -> nat) (P : nat) (g : bool) d : result (disc R) :=
  do em <- need (d_eout d) ;
  do em1 <- localized P em ;
  do pr <- need (d_prob d) ;
  do xs <- loc_values em1 ;
  do q <- query_blocks nn P xs pr ;
  Ok (with_oo (if g then Some (concat (fst q)) else oo d) (Some (fst q))
        (with_prob (Some (snd q)) (with_eout (Some em1) d))).
(** lines 2362-2376 globalize_ptrs *)
Definition fill (g : option (list nat)) (l : option (list (list nat))) : option (list nat) :=
  match l, g with Some b, None => Some (concat b) | _, _ => g end.
Definition globalize_ptrs d : disc R :=
  with_io (fill (io d) (io_loc d)) (io_loc d)
    (with_ii (fill (ii d) (ii_loc d)) (ii_loc d)
      (with_oo (fill (oo d) (oo_loc d)) (oo_loc d) d)).

(** ** Setters (lines 2517-2692).  The argument is a sample set (other types
    raise AttributeError).  A setter returns the state after the call and the
    exception it raised, if any. *)
Definition outcome : Type := disc R * option exn.
Definition set_input s d : outcome := (with_in (Some s) d, None).
Definition set_output s d : outcome := (with_out (Some s) d, None).
Definition set_observed s d : outcome := (with_obs (Some s) d, None).
Definition same_dim (o : option (sset R)) s : bool :=
  match o with Some t => dim t =? dim s | None => true end.
Definition set_emulated_input s d : outcome :=
  if same_dim (d_in d) s then (with_ein (Some s) d, None) else (d, Some DimNotMatching).
Definition set_emulated_output s d : outcome :=
  if same_dim (d_out d) s && same_dim (d_prob d) s then (with_eout (Some s) d, None) else (d, Some DimNotMatching).
(** lines 2587-2616: after the assignment the output set is accessed even if it
    is None.  Simplification: if set_io_ptr raises, the sets it localized or
    whose tree it built before raising are kept as they were. *)
Definition set_probability (nn : list R -> R -> nat) (P : nat) s d : outcome :=
  if same_dim (d_out d) s && same_dim (d_eout d) s then
    let d1 := with_prob (Some s) d in
    match d_out d with
    | None => (d1, Some PyAttributeError)
    | Some out =>
        match loc out Values, glob s Values with
        | Some _, Some _ => match set_io_ptr nn P false d1 with
                            | Ok d2 => (d2, None)
                            | Raise x => (d1, Some x)
                            end
        | _, _ => (d1, None)
        end
    end
  else (d, Some DimNotMatching).

(** ** Histories of calls *)
Inductive dop := OIn s | OOut s | OProb s | OEin s | OEout s | OObs s
  | OIoPtr (g : bool) | OIiPtr (g : bool) | OOoPtr (g : bool) | OGlobalize.
Definition done (o : outcome) : result (disc R) := match snd o with None => Ok (fst o) | Some x => Raise x end.
Definition dstep (nn : list R -> R -> nat) (P : nat) (o : dop) d : result (disc R) :=
  match o with
  | OIn s => done (set_input s d)
  | OOut s => done (set_output s d)
  | OProb s => done (set_probability nn P s d)
  | OEin s => done (set_emulated_input s d)
  | OEout s => done (set_emulated_output s d)
  | OObs s => done (set_observed s d)
  | OIoPtr g => set_io_ptr nn P g d
  | OIiPtr g => set_ii_ptr nn P g d
  | OOoPtr g => set_oo_ptr nn P g d
  | OGlobalize => Ok (globalize_ptrs d)
  end.
Fixpoint drun (nn : list R -> R -> nat) (P : nat) (ops : list dop) d : result (disc R) :=
  match ops with
  | [] => Ok d
  | o :: r => do d1 <- dstep nn P o d ; drun nn P r d1
  end.

(** ** Clipping, merging, moving data *)

(** lines 2724-2742 clip *)
Definition clip_disc (P c : nat) d : result (disc R) :=
  do inp <- need (d_in d) ;
  do ci <- clip P c inp ;
  do out <- need (d_out d) ;
  do co <- clip P c out ;
  new_disc P (Some ci) (Some co) (d_prob d) (d_ein d) (d_eout d) None.

(** lines 2744-2766 merge *)
Definition merge_opt (P : nat) (x y : option (sset R)) : result (sset R) :=
  do s <- need x ;
  do t <- need y ;
  merge P s t.
Definition merge_disc (P : nat) d e : result (disc R) :=
  do mi <- merge_opt P (d_in d) (d_in e) ;
  do mo <- merge_opt P (d_out d) (d_out e) ;
  do mei <- merge_opt P (d_ein d) (d_ein e) ;
  do meo <- merge_opt P (d_eout d) (d_eout e) ;
  new_disc P (Some mi) (Some mo) (d_prob d) (Some mei) (Some meo) None.

(** lines 2819-2834 local_to_global *)
Definition each (f : sset R -> result (sset R)) (o : option (sset R)) : result (option (sset R)) :=
  match o with None => Ok None | Some s => do s1 <- f s ; Ok (Some s1) end.
Definition disc_local_to_global d : result (disc R) :=
  do a <- each local_to_global (d_in d) ;
  do b <- each local_to_global (d_out d) ;
  do c <- each local_to_global (d_prob d) ;
  do x <- each local_to_global (d_ein d) ;
  do y <- each local_to_global (d_eout d) ;
  Ok (with_in a (with_out b (with_prob c (with_ein x (with_eout y d))))).
(** lines 2835-2850 global_to_local; the last line names the method without
    calling it. *)
Definition disc_global_to_local (P : nat) d : result (disc R) :=
  do a <- each (global_to_local P) (d_in d) ;
  do b <- each (global_to_local P) (d_out d) ;
  do c <- each (global_to_local P) (d_prob d) ;
  do x <- each (global_to_local P) (d_ein d) ;
  Ok (with_in a (with_out b (with_prob c (with_ein x d)))).
End Disc.

(** ** Rows with entries *)

(** One row of an array: a number, or a list of rows of an array of one
    dimension less. *)
Inductive cell := Num (q : Qc) | Vec (l : list cell).

(** A one-dimensional array of numbers *)
Definition scalar (c : cell) : result Qc := match c with Num q => Ok q | Vec _ => Raise PyValueError end.
Fixpoint scalars (l : list cell) : result (list Qc) :=
  match l with
  | [] => Ok []
  | c :: r => do q <- scalar c ; do qs <- scalars r ; Ok (q :: qs)
  end.
Fixpoint scalar_blocks (bs : list (arr cell)) : result (list (list Qc)) :=
  match bs with
  | [] => Ok []
  | b :: r => do q <- scalars (rows b) ; do qs <- scalar_blocks r ; Ok (q :: qs)
  end.
Definition vec_arr (l : list Qc) : arr cell := mk_arr (map Num l) [].

(** ** calculateP.prob (bet/calculateP/calculateP.py:67-106) *)
(** Subscripting None *)
Definition subscript {A} (o : option A) : result A := match o with Some x => Ok x | None => Raise PyTypeError end.
(** The probabilities of the output set, read one by one in the loop over its
    op_num samples. *)
Definition out_probs (op_num : nat) (s : sset cell) : result (list Qc) :=
  if op_num =? 0 then Ok []
  else do x <- subscript (glob s Probabilities) ; scalars (rows x).
Definition prob_disc (nn : list cell -> cell -> nat) (P : nat) (globalize : bool) (d : disc cell) : result (disc cell) :=
  do _ <- check_nums P d ;
  do pr <- need (d_prob d) ;
  do op_num <- check_num P pr ;
  do d1 <- (match io_loc d with None => set_io_ptr nn P false d | Some _ => Ok d end) ;
  do inp <- need (d_in d1) ;
  do inp1 <- localized P inp ;
  do ptrs <- subscript (io_loc d1) ;
  do probs <- out_probs op_num pr ;
  do vols <- (if existsb (qltb 0) probs
              then do v <- subscript (loc inp1 Volumes) ; scalar_blocks v
              else Ok []) ;
  do q <- prob probs ptrs vols ;
  let inp2 := if globalize then set_glob Probabilities (Some (vec_arr (concat q))) inp1 else inp1 in
  Ok (with_in (Some (set_loc Probabilities (Some (map vec_arr q)) inp2)) d1).

(** ** calculateP.prob_on_emulated_samples (lines 21-64) *)
(** P has one entry per local emulated point; P[Itemp] = ... needs a mask of the
    same length (IndexError), and is executed for cells that are hit. *)
Definition emulated_probs (probs : list Qc) (io_ptr : list nat) (ptr : list (list nat)) (sizes : list nat)
  : result (list (list Qc)) :=
  do targets <- follow io_ptr ptr ;
  if list_eq_dec Nat.eq_dec (map (@length nat) targets) sizes
  then prob_on_emulated_samples probs io_ptr ptr
  else if existsb (fun ip => qltb 0 (snd ip) && (0 <? cell_count (fst ip) targets)) (enumerate probs)
       then Raise PyIndexError
       else Ok (map (fun n => repeat 0%Qc n) sizes).
Definition emulated_disc (nn : list cell -> cell -> nat) (P : nat) (globalize : bool) (d : disc cell) : result (disc cell) :=
  do _ <- check_nums P d ;
  do pr <- need (d_prob d) ;
  do op_num <- check_num P pr ;
  do em <- need (d_ein d) ;
  do _ <- check_num P em ;
  do d1 <- (match io_loc d with None => set_io_ptr nn P true d | Some _ => Ok d end) ;
  do d2 <- (match ii_loc d1 with None => set_ii_ptr nn P false d1 | Some _ => Ok d1 end) ;
  do em1 <- need (d_ein d2) ;
  do bs <- need (loc em1 Values) ;
  do io_ptr <- subscript (io d2) ;
  do ptr <- subscript (ii_loc d2) ;
  do targets <- follow io_ptr ptr ;
  do probs <- out_probs op_num pr ;
  do q <- emulated_probs probs io_ptr ptr (map (fun b => length (rows b)) bs) ;
  let em2 := set_loc Probabilities (Some (map vec_arr q)) em1 in
  do em3 <- (if globalize then local_to_global em2 else Ok em2) ;
  Ok (with_ein (Some em3) d2).

(** bet/calculateP/simpleFunP.py:251-253 (the same lines end the other
    constructions, 422-424, 553-555, 650-652, 735-737, 842-844): the new output
    probability set is stored without check and only the local pointer is set. *)
Definition store_output_probability {R} (nn : list R -> R -> nat) (P : nat) (s : sset R) (d : disc R) : result (disc R) :=
  set_io_ptr nn P false (with_prob (Some s) d).

(** ** choose_inputs_outputs (lines 2768-2817) *)

(** l[idx] along the first axis of one row *)
Definition pick_cell (idx : list nat) (c : cell) : result cell :=
  match c with
  | Vec l => match take_idx l idx with Some r => Ok (Vec r) | None => Raise PyIndexError end
  | Num _ => Raise PyIndexError
  end.
Fixpoint each_cell (f : cell -> result cell) (l : list cell) : result (list cell) :=
  match l with
  | [] => Ok []
  | c :: r => do x <- f c ; do xs <- each_cell f r ; Ok (x :: xs)
  end.
(** val[:, idx]: bounds are checked even if there are no rows *)
Definition pick_columns (idx : list nat) (x : arr cell) : result (arr cell) :=
  match tail_shape x with
  | [] => Raise PyIndexError
  | w :: t => if forallb (fun i => i <? w) idx
              then do r <- each_cell (pick_cell idx) (rows x) ; Ok (mk_arr r (length idx :: t))
              else Raise PyIndexError
  end.
(** nval.take(outputs, axis=1).take(inputs, axis=2); an empty list of indices
    becomes an array of floats, which take rejects with TypeError *)
Definition pick_inner (idx : list nat) (c : cell) : result cell :=
  match c with
  | Vec l => do r <- each_cell (pick_cell idx) l ; Ok (Vec r)
  | Num _ => Raise PyIndexError
  end.
Definition pick_jacobian (inputs outputs : list nat) (x : arr cell) : result (arr cell) :=
  match outputs, inputs with
  | [], _ | _, [] => Raise PyTypeError
  | _, _ =>
      do y <- pick_columns outputs x ;
      match tail_shape y with
      | o :: w :: t => if forallb (fun i => i <? w) inputs
                       then do r <- each_cell (pick_inner inputs) (rows y) ; Ok (mk_arr r (o :: length inputs :: t))
                       else Raise PyIndexError
      | _ => Raise PyIndexError
      end
  end.
Definition opt {A B} (f : A -> result B) (o : option A) : result (option B) :=
  match o with None => Ok None | Some x => do y <- f x ; Ok (Some y) end.
Fixpoint pick_blocks (f : arr cell -> result (arr cell)) (l : list (arr cell)) : result (list (arr cell)) :=
  match l with
  | [] => Ok []
  | b :: r => do x <- f b ; do xs <- pick_blocks f r ; Ok (x :: xs)
  end.

(** A sample set with the two fields that [sset] lacks: reference value and
    p-norm (an arbitrary type [N]). *)
Record rset (N : Type) := mk_rset { base : sset cell; reference : option (list Qc); p_norm : N }.
Arguments mk_rset {N}. Arguments base {N}. Arguments reference {N}. Arguments p_norm {N}.

Section Choose.
Context {N : Type}.
Definition pick_list {A} (idx : list nat) (l : list A) : result (list A) :=
  match take_idx l idx with Some r => Ok r | None => Raise PyIndexError end.
(** The new set of one side; [jac] slices Jacobians (input side only). *)
Definition pick_side (idx : list nat) (jac : option (arr cell -> result (arr cell))) (s : rset N) : result (rset N) :=
  do dom <- opt (pick_list idx) (domain (base s)) ;
  do ref <- opt (pick_list idx) (reference s) ;
  do v <- opt (pick_columns idx) (glob (base s) Values) ;
  do vl <- opt (pick_blocks (pick_columns idx)) (loc (base s) Values) ;
  do er <- opt (pick_columns idx) (glob (base s) ErrorEstimates) ;
  do erl <- opt (pick_blocks (pick_columns idx)) (loc (base s) ErrorEstimates) ;
  do j <- (match jac with Some f => opt f (glob (base s) Jacobians) | None => Ok None end) ;
  do jl <- (match jac with Some f => opt (pick_blocks f) (loc (base s) Jacobians) | None => Ok None end) ;
  let b := set_loc Jacobians jl (set_glob Jacobians j
             (set_loc ErrorEstimates erl (set_glob ErrorEstimates er
               (set_loc Values vl (set_glob Values v (new_sset (length idx))))))) in
  Ok (mk_rset (mk_sset (dim b) (glob b) (loc b) None None dom None) ref (p_norm s)).
(** [inputs], [outputs]: None is the default argument, len(None) raises.  The
    input and output sets must be present.  The final constructor call only runs
    check_nums. *)
Definition choose_inputs_outputs (P : nat) (inputs outputs : option (list nat)) (inp out : rset N) : result (rset N * rset N) :=
  do ins <- subscript inputs ;
  do outs <- subscript outputs ;
  do i <- pick_side ins (Some (pick_jacobian ins outs)) inp ;
  do o <- pick_side outs None out ;
  do _ <- new_disc P (Some (base i)) (Some (base o)) None None None None ;
  Ok (i, o).
End Choose.
